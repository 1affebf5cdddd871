(** * What the specification of reads of several channels implies *)
From Coq Require Import Sorting.Sorted Permutation.
From Verif Require Import Base Lib DataTypes MetaData DataBlock Index RawData ChannelReader SpecIndex SpecSession SpecRead SpecMulti
  Block_proofs Request_proofs Plan_proofs Read_proofs SkipReq_proofs Serve_proofs.

(** ** Every value comes from the channel itself *)
Lemma got_incl V lay n total reqs q (col : list V) x : In x (got_of lay n total reqs q col) -> In x col.
Proof.
  assert (Sk : forall m (l : list V), In x (skipn m l) -> In x l).
  { intros m l Hx. rewrite <- (firstn_skipn m l). apply in_or_app. now right. }
  assert (Fi : forall m (l : list V), In x (firstn m l) -> In x l).
  { intros m l Hx. rewrite <- (firstn_skipn m l). apply in_or_app. now left. }
  unfold got_of. destruct lay; eauto.
Qed.

Lemma skipn_at {A} (l : list A) : forall n i, nth_error (skipn n l) i = nth_error l (n + i).
Proof. induction l as [|x l IH]; intros [|n] i; cbn [skipn Nat.add nth_error]; auto. now destruct i. Qed.

Section Own.
Context (f : list byte) (t : sty) (bs : list dblock).
Local Notation V := (carrier t).

(** What a channel is after block [j] (layout and size of [b]) was asked for [reqs]. *)
Definition step (j : nat) (b : dblock) (reqs : list req) (k : taker t) : taker t :=
  match wants t j k with
  | Some (c, s) =>
    mkTaker t (tk_needs t k)
      (tk_count t k + count_of_block (b_layout b) (per_chunk b) (per_block b) reqs)
      (put t (tk_buf t k) (tk_count t k)
           (got_of (b_layout b) (per_chunk b) (per_block b) reqs
              (mkReq c (N.to_nat (lenN (tk_buf t k) - tk_count t k)) s)
              (block_samples f t b c (per_block b))))
  | None => k
  end.
Lemma serve_steps j ks : serve f t bs j ks =
  match nth_error bs j with Some b => map (step j b (concat (map (asks t j) ks))) ks | None => ks end.
Proof. reflexivity. Qed.

Lemma wants_need j k c s : wants t j k = Some (c, s) ->
  tk_count t k < lenN (tk_buf t k) /\ In (j, c, s) (tk_needs t k).
Proof.
  unfold wants. destruct (lenN (tk_buf t k) <=? tk_count t k) eqn:Q; [discriminate|].
  destruct (find _ (tk_needs t k)) as [[[j' c'] s']|] eqn:Fd; [|discriminate]. intros X. injection X as -> ->.
  apply find_some in Fd. destruct Fd as [Hin Eq]. cbn [fst] in Eq. apply Nat.eqb_eq in Eq. subst. split; [lia|exact Hin].
Qed.
Lemma step_needs j b reqs k : tk_needs t (step j b reqs k) = tk_needs t k.
Proof. unfold step. destruct (wants t j k) as [[c s]|]; reflexivity. Qed.
Lemma step_length j b reqs k : length (tk_buf t (step j b reqs k)) = length (tk_buf t k).
Proof.
  unfold step. destruct (wants t j k) as [[c s]|] eqn:W; [|reflexivity]. cbn [tk_buf]. apply put_length.
  destruct (wants_need _ _ _ _ W) as [Lt _].
  match goal with |- context [got_of ?a ?b ?c ?d ?e ?g] => pose proof (got_length t a b c d e g) as Gl end.
  cbn [rq_room] in Gl. unfold lenN in *. lia.
Qed.

(** Every position of the buffer holds what it held in [o] or a value of [S]. *)
Definition filled_from (o : list V) (src : list V) (buf : list V) : Prop :=
  length buf = length o /\ forall i x, nth_error buf i = Some x -> nth_error o i = Some x \/ In x src.

Lemma put_filled o src buf a vs : filled_from o src buf -> (forall x, In x vs -> In x src) ->
  (N.to_nat a + length vs <= length buf)%nat -> filled_from o src (put t buf a vs).
Proof.
  intros [L Hx] Hv Fit. split; [rewrite put_length; [exact L|exact Fit]|]. intros i x. unfold put.
  destruct (le_lt_dec (N.to_nat a) i) as [Hi|Hi].
  - rewrite nth_error_app2 by (rewrite firstn_length; lia). rewrite firstn_length, Nat.min_l by lia.
    destruct (le_lt_dec (length vs) (i - N.to_nat a)) as [Hj|Hj].
    + rewrite nth_error_app2 by exact Hj. rewrite skipn_at.
      replace (N.to_nat a + length vs + (i - N.to_nat a - length vs))%nat with i by lia. apply Hx.
    + rewrite nth_error_app1 by exact Hj. intros X. right. apply Hv. eapply nth_error_In; eauto.
  - rewrite nth_error_app1 by (rewrite firstn_length; lia). intros X. apply Hx.
    now rewrite nth_firstn in X.
Qed.

Lemma served_own ks : forall i k, nth_error ks i = Some k ->
  forall src, (forall j c s b x, In (j, c, s) (tk_needs t k) -> nth_error bs j = Some b ->
                 In x (block_samples f t b c (per_block b)) -> In x src) ->
  exists k', nth_error (served f t bs ks) i = Some k' /\ filled_from (tk_buf t k) src (tk_buf t k').
Proof.
  unfold served. intros i k Ki src Hs.
  assert (Go : forall js ks k', nth_error ks i = Some k' -> tk_needs t k' = tk_needs t k -> filled_from (tk_buf t k) src (tk_buf t k') ->
     exists k'', nth_error (fold_left (fun ks j => serve f t bs j ks) js ks) i = Some k'' /\ filled_from (tk_buf t k) src (tk_buf t k'')).
  { induction js as [|j js IH]; intros ks0 k' Kk Nn Fi; [exists k'; split; assumption|]. cbn [fold_left]. rewrite serve_steps.
    destruct (nth_error bs j) as [b|] eqn:Bb; [|now apply (IH _ k')].
    apply (IH _ (step j b (concat (map (asks t j) ks0)) k')).
    - rewrite nth_error_map, Kk. reflexivity.
    - now rewrite step_needs.
    - unfold step. destruct (wants t j k') as [[c s]|] eqn:W; [|exact Fi]. cbn [tk_buf].
      destruct (wants_need _ _ _ _ W) as [Lt Hin]. apply put_filled; [exact Fi| |].
      + intros x Hx. apply got_incl in Hx. rewrite Nn in Hin. eapply Hs; eauto.
      + match goal with |- context [got_of ?a ?b ?c ?d ?e ?g] => pose proof (got_length t a b c d e g) as Gl end.
        cbn [rq_room] in Gl. unfold lenN in *. lia. }
  apply (Go _ ks k Ki eq_refl). split; [reflexivity|auto].
Qed.

(** ** The order of the requests *)
Definition no_skips (reqs : list req) : Prop := Forall (fun q => rq_skip q = 0) reqs.

Lemma first_chunk_zero n reqs : no_skips reqs -> first_chunk n reqs = 0.
Proof.
  unfold first_chunk. induction 1 as [|q reqs Hq _ IH]; [reflexivity|]. cbn [fold_right]. rewrite IH, Hq.
  destruct n; reflexivity.
Qed.
Lemma skip_given_0 reqs q : no_skips reqs -> skip_given reqs q = 0.
Proof.
  intros Z. unfold skip_given. generalize (rank reqs q). induction Z as [|x l Hx _ IH]; intros [|m]; cbn [map nth]; auto.
Qed.
Lemma least_skip_0 reqs : no_skips reqs -> least_skip reqs = 0.
Proof.
  intros Z. destruct reqs as [|q reqs]; [reflexivity|]. inversion Z as [|x l Hq Z']; subst. cbn [least_skip]. rewrite Hq.
  clear -Z'. induction Z' as [|x l Hx _ IH]; [reflexivity|]. cbn [fold_right]. rewrite IH, Hx. reflexivity.
Qed.
Lemma contig_first_0 n reqs q : no_skips reqs -> contig_first n reqs q = 0.
Proof.
  intros Z. unfold contig_first. rewrite (skip_given_0 reqs q Z), (first_chunk_zero n reqs Z).
  destruct n; reflexivity.
Qed.

Lemma rank_perm reqs reqs' q : Permutation reqs reqs' -> rank reqs q = rank reqs' q.
Proof.
  unfold rank. induction 1; [reflexivity| | |congruence]; cbn [filter].
  - destruct (Nat.ltb _ _); cbn [length]; congruence.
  - destruct (Nat.ltb _ _), (Nat.ltb _ _); reflexivity.
Qed.
Lemma rank_inj reqs : NoDup (map rq_chan reqs) -> forall q q', In q reqs -> In q' reqs ->
  rank reqs q = rank reqs q' -> q = q'.
Proof.
  intros Nd q q' Hq Hq' R.
  assert (Lt : forall a b, In a reqs -> (rq_chan a < rq_chan b)%nat -> (rank reqs a < rank reqs b)%nat).
  { intros a b Ha Hab. unfold rank. clear -Ha Hab.
    assert (Le : forall l, (length (filter (fun q' => Nat.ltb (rq_chan q') (rq_chan a)) l) <= length (filter (fun q' => Nat.ltb (rq_chan q') (rq_chan b)) l))%nat).
    { induction l as [|x l IH]; [reflexivity|]. cbn [filter].
      destruct (Nat.ltb (rq_chan x) (rq_chan a)) eqn:A, (Nat.ltb (rq_chan x) (rq_chan b)) eqn:B; cbn [length]; lia. }
    induction reqs as [|x l IH]; [contradiction|]. cbn [filter]. destruct Ha as [->|Ha].
    - rewrite Nat.ltb_irrefl. replace (Nat.ltb (rq_chan a) (rq_chan b)) with true by lia. cbn [length]. specialize (Le l). lia.
    - specialize (IH Ha). destruct (Nat.ltb (rq_chan x) (rq_chan a)) eqn:A, (Nat.ltb (rq_chan x) (rq_chan b)) eqn:B; cbn [length]; lia. }
  assert (Eq : rq_chan q = rq_chan q').
  { destruct (Nat.lt_trichotomy (rq_chan q) (rq_chan q')) as [X|[X|X]]; [|exact X|].
    - specialize (Lt q q' Hq X). lia.
    - specialize (Lt q' q Hq' X). lia. }
  clear -Nd Hq Hq' Eq. induction reqs as [|x l IH]; [contradiction|]. cbn [map] in Nd. inversion Nd as [|y m Ny Nd']; subst.
  destruct Hq as [->|Hq], Hq' as [->|Hq']; auto.
  - exfalso. apply Ny. rewrite Eq. now apply in_map.
  - exfalso. apply Ny. rewrite <- Eq. now apply in_map.
Qed.
Lemma last_perm reqs reqs' : Permutation reqs reqs' -> NoDup (map rq_chan reqs) -> last_request reqs = last_request reqs'.
Proof.
  intros P Nd. unfold last_request.
  assert (Same : forall q, Nat.eqb (S (rank reqs q)) (length reqs) = Nat.eqb (S (rank reqs' q)) (length reqs')).
  { intros q. now rewrite (rank_perm _ _ q P), (Permutation_length P). }
  destruct (find _ reqs) as [q|] eqn:A; destruct (find _ reqs') as [q'|] eqn:B; auto.
  - apply find_some in A, B. destruct A as [A1 A2], B as [B1 B2]. f_equal.
    apply (rank_inj reqs Nd); [exact A1|apply (Permutation_in _ (Permutation_sym P)); exact B1|].
    rewrite <- Same in B2. apply Nat.eqb_eq in A2, B2. lia.
  - exfalso. apply find_some in A. destruct A as [A1 A2].
    pose proof (find_none _ _ B q (Permutation_in _ P A1)) as X. cbv beta in X. rewrite <- Same, A2 in X. discriminate.
  - exfalso. apply find_some in B. destruct B as [B1 B2].
    pose proof (find_none _ _ A q' (Permutation_in _ (Permutation_sym P) B1)) as X. cbv beta in X. rewrite Same, B2 in X. discriminate.
Qed.
Lemma rows_same w w' (Hw : forall i, w i = w' i) : forall m i, rows_run w i m = rows_run w' i m.
Proof. induction m as [|m IH]; intros i; [reflexivity|]. cbn [rows_run]. now rewrite Hw, IH. Qed.
Lemma existsb_perm A (g h : A -> bool) l l' : (forall x, g x = h x) -> Permutation l l' -> existsb g l = existsb h l'.
Proof.
  intros Hg P. induction P; cbn [existsb]; [reflexivity|..].
  - now rewrite Hg, IHP.
  - rewrite !Hg. destruct (h x), (h y); cbn [orb]; try reflexivity.
    clear -Hg. induction l as [|z l IH]; [reflexivity|]. cbn [existsb]. now rewrite Hg, IH.
  - rewrite IHP1. rewrite <- IHP2. clear -Hg. induction l' as [|z l IH]; [reflexivity|]. cbn [existsb]. now rewrite Hg, IH.
Qed.
Lemma rows_perm reqs reqs' total : Permutation reqs reqs' -> no_skips reqs -> no_skips reqs' ->
  rows_read reqs total = rows_read reqs' total.
Proof.
  intros P Z Z'. unfold rows_read. rewrite (least_skip_0 _ Z), (least_skip_0 _ Z'). f_equal. apply rows_same. intros i.
  unfold wanted. apply existsb_perm; [|exact P]. intros q. now rewrite (skip_given_0 _ q Z), (skip_given_0 _ q Z').
Qed.
Lemma perm_got V lay n total reqs reqs' q (col : list V) : Permutation reqs reqs' -> no_skips reqs -> no_skips reqs' ->
  got_of lay n total reqs q col = got_of lay n total reqs' q col.
Proof.
  intros P Z Z'. unfold got_of.
  now rewrite (contig_first_0 n _ q Z), (contig_first_0 n _ q Z'), (skip_given_0 _ q Z), (skip_given_0 _ q Z'),
    (least_skip_0 _ Z), (least_skip_0 _ Z'), (rows_perm _ _ total P Z Z').
Qed.
Lemma perm_count lay n total reqs reqs' : Permutation reqs reqs' -> no_skips reqs -> no_skips reqs' -> NoDup (map rq_chan reqs) ->
  count_of_block lay n total reqs = count_of_block lay n total reqs'.
Proof.
  intros P Z Z' Nd. unfold count_of_block. rewrite (rows_perm _ _ total P Z Z'), (last_perm _ _ P Nd).
  destruct lay; [reflexivity|]. destruct (last_request reqs') as [q|]; [|reflexivity].
  now rewrite (contig_first_0 n _ q Z), (contig_first_0 n _ q Z').
Qed.
Lemma perm_step j b reqs reqs' k : Permutation reqs reqs' -> no_skips reqs -> no_skips reqs' -> NoDup (map rq_chan reqs) ->
  step j b reqs k = step j b reqs' k.
Proof.
  intros P Z Z' Nd. unfold step. destruct (wants t j k) as [[c s]|]; [|reflexivity].
  now rewrite (perm_count _ _ _ _ _ P Z Z' Nd), (perm_got _ _ _ _ _ _ _ _ P Z Z').
Qed.

(** Channels with their names. *)
Local Notation named := (list (str * taker t)).
(** Everything is needed from the beginning of a block, and no two channels need
    the same channel number of a block. *)
Definition apart (ts : named) : Prop :=
  NoDup (map fst ts)
  /\ (forall p k j c s, In (p, k) ts -> In (j, c, s) (tk_needs t k) -> s = 0)
  /\ (forall p k p' k' j c s s', In (p, k) ts -> In (p', k') ts -> In (j, c, s) (tk_needs t k) -> In (j, c, s') (tk_needs t k') -> p = p').

Lemma in_asks j k q : In q (asks t j k) -> In (j, rq_chan q, rq_skip q) (tk_needs t k).
Proof.
  unfold asks. destruct (wants t j k) as [[c s]|] eqn:W; [|contradiction]. intros [<-|[]]. cbn [rq_chan rq_skip].
  now apply wants_need.
Qed.
Lemma apart_zero j ts : apart ts -> no_skips (concat (map (asks t j) (map snd ts))).
Proof.
  intros [_ [Z _]]. apply Forall_forall. intros q Hq. apply in_concat in Hq. destruct Hq as [l [Hl Hq]].
  apply in_map_iff in Hl. destruct Hl as [k [<- Hk]]. apply in_map_iff in Hk. destruct Hk as [[p k'] [Ek Hk]]. cbn [snd] in Ek. subst k'.
  eapply Z; [exact Hk|apply in_asks; exact Hq].
Qed.
Lemma apart_distinct j ts : apart ts -> NoDup (map rq_chan (concat (map (asks t j) (map snd ts)))).
Proof.
  intros [Nd [_ Di]]. induction ts as [|[p k] ts IH]; [constructor|]. cbn [map snd concat fst] in *.
  inversion Nd as [|y l Ny Nd']; subst.
  assert (IH' : NoDup (map rq_chan (concat (map (asks t j) (map snd ts))))).
  { apply IH; auto. intros a k1 a' k2 i c s s' X1 X2. apply (Di a k1 a' k2 i c s s'); now right. }
  destruct (asks t j k) as [|q r] eqn:As; [exact IH'|].
  assert (r = []) as ->. { unfold asks in As. destruct (wants t j k) as [[? ?]|]; congruence. }
  cbn [app map]. constructor; [|exact IH']. intros Hin. apply in_map_iff in Hin. destruct Hin as [q' [Eq Hq']].
  apply in_concat in Hq'. destruct Hq' as [l [Hl Hq']]. apply in_map_iff in Hl. destruct Hl as [k' [<- Hk']].
  apply in_map_iff in Hk'. destruct Hk' as [[p' k''] [Ek Hk']]. cbn [snd] in Ek. subst k''.
  apply Ny. replace p with p'; [apply in_map_iff; exists (p', k'); auto|].
  pose proof (in_asks j k' q' Hq') as A1. pose proof (in_asks j k q) as A2. rewrite As in A2. specialize (A2 (or_introl eq_refl)).
  rewrite Eq in A1. eapply Di; [right; exact Hk'|left; reflexivity|exact A1|exact A2].
Qed.

Definition nserve (j : nat) (ts : named) : named :=
  match nth_error bs j with
  | Some b => map (fun x => (fst x, step j b (concat (map (asks t j) (map snd ts))) (snd x))) ts
  | None => ts
  end.
Lemma nserve_snd j ts : map snd (nserve j ts) = serve f t bs j (map snd ts).
Proof. unfold nserve. rewrite serve_steps. destruct (nth_error bs j); [|reflexivity]. rewrite !map_map. reflexivity. Qed.
Lemma nserve_fst j ts : map fst (nserve j ts) = map fst ts.
Proof. unfold nserve. destruct (nth_error bs j); [|reflexivity]. rewrite !map_map. reflexivity. Qed.
Lemma nserve_back j ts p k : In (p, k) (nserve j ts) -> exists k', In (p, k') ts /\ tk_needs t k = tk_needs t k'.
Proof.
  unfold nserve. destruct (nth_error bs j); [|eauto]. rewrite in_map_iff. intros [[p' k'] [Eq Hin]]. cbn [fst snd] in Eq.
  injection Eq as <- <-. exists k'. split; [exact Hin|apply step_needs].
Qed.
Lemma nserve_apart j ts : apart ts -> apart (nserve j ts).
Proof.
  intros [Nd [Z Di]]. split; [now rewrite nserve_fst|]. split.
  - intros p k i c s Hin Hn. apply nserve_back in Hin. destruct Hin as [k' [Hin Eq]]. rewrite Eq in Hn. eapply Z; eauto.
  - intros p k p' k' i c s s' H1 H2 N1 N2. apply nserve_back in H1, H2. destruct H1 as [k1 [H1 E1]], H2 as [k2 [H2 E2]].
    rewrite E1 in N1. rewrite E2 in N2. eapply Di; [exact H1|exact H2|exact N1|exact N2].
Qed.
Lemma apart_perm ts ts' : Permutation ts ts' -> apart ts -> apart ts'.
Proof.
  intros P [Nd [Z Di]]. pose proof (fun x => Permutation_in (l:=ts') (l':=ts) x (Permutation_sym P)) as Back.
  split; [eapply Permutation_NoDup; [apply Permutation_map; exact P|exact Nd]|]. split.
  - intros p k j c s Hin. apply (Z p). now apply Back.
  - intros p k p' k' j c s s' H1 H2. eapply Di; now apply Back.
Qed.
Lemma concat_perm A (l l' : list (list A)) : Permutation l l' -> Permutation (concat l) (concat l').
Proof.
  induction 1; cbn [concat]; [constructor|now apply Permutation_app_head| |econstructor; eauto].
  rewrite !app_assoc. apply Permutation_app_tail, Permutation_app_comm.
Qed.
Lemma nserve_perm j ts ts' : Permutation ts ts' -> apart ts -> Permutation (nserve j ts) (nserve j ts').
Proof.
  intros P Ap. unfold nserve. destruct (nth_error bs j) as [b|]; [|exact P].
  pose proof (apart_zero j _ Ap) as Z. pose proof (apart_zero j _ (apart_perm _ _ P Ap)) as Z'.
  pose proof (apart_distinct j _ Ap) as Nd.
  assert (Pq : Permutation (concat (map (asks t j) (map snd ts))) (concat (map (asks t j) (map snd ts')))).
  { apply concat_perm. now do 2 apply Permutation_map. }
  erewrite (map_ext (fun x : str * taker t => (fst x, step j b (concat (map (asks t j) (map snd ts))) (snd x)))).
  2:{ intros x. rewrite (perm_step j b _ _ (snd x) Pq Z Z' Nd). reflexivity. }
  now apply Permutation_map.
Qed.
Lemma served_named ts : exists ts', map fst ts' = map fst ts /\ map snd ts' = served f t bs (map snd ts)
  /\ forall us, Permutation ts us -> apart ts ->
       exists us', map fst us' = map fst us /\ map snd us' = served f t bs (map snd us) /\ Permutation ts' us'.
Proof.
  unfold served. generalize (seq 0 (length bs)). intros js. exists (fold_left (fun ts j => nserve j ts) js ts).
  assert (Fs : forall js ts, map fst (fold_left (fun ts j => nserve j ts) js ts) = map fst ts
                          /\ map snd (fold_left (fun ts j => nserve j ts) js ts) = fold_left (fun ks j => serve f t bs j ks) js (map snd ts)).
  { clear. induction js as [|j js IH]; intros ts; [split; reflexivity|]. cbn [fold_left].
    destruct (IH (nserve j ts)) as [A B]. now rewrite A, B, nserve_fst, nserve_snd. }
  destruct (Fs js ts) as [A B]. split; [exact A|]. split; [exact B|]. intros us P Ap.
  exists (fold_left (fun ts j => nserve j ts) js us). destruct (Fs js us) as [A' B']. split; [exact A'|]. split; [exact B'|].
  clear A B A' B'. revert ts us P Ap. induction js as [|j js IH]; intros ts us P Ap; [exact P|]. cbn [fold_left].
  apply IH; [now apply nserve_perm|now apply nserve_apart].
Qed.
End Own.
