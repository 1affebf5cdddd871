(** * Several channels that keep in step *)
From Coq Require Import Sorting.Sorted.
From Verif Require Import Base Lib DataTypes MetaData DataBlock Index RawData ChannelReader TdmsFile SpecIndex SpecSession SpecRead SpecMulti
  SpecUneven SpecSeen SpecMixed Block_proofs Request_proofs Plan_proofs Read_proofs Session_proofs Skips_proofs SkipReq_proofs
  Seen_proofs Mixed_proofs Serve_proofs MixedServe_proofs Thm_Index.

(** ** Requests with the same room and skip *)
Section Same.
Context (room : nat) (s : N) (reqs : list req).
Hypothesis (Same : forall q, In q reqs -> rq_room q = room /\ rq_skip q = s).

Lemma given_same q : In q reqs -> skip_given reqs q = s.
Proof.
  intros Hq. unfold skip_given.
  assert (Rk : (rank reqs q < length (map rq_skip reqs))%nat).
  { rewrite map_length. pose proof (rank_others reqs q) as Ro.
    assert (In q (others reqs q)) by (apply filter_In; split; [exact Hq|]; now rewrite Nat.ltb_irrefl).
    destruct (others reqs q); [contradiction|cbn [length] in Ro; lia]. }
  pose proof (nth_In (map rq_skip reqs) 0 Rk) as Hin. apply in_map_iff in Hin. destruct Hin as [q' [<- Hq']].
  exact (proj2 (Same q' Hq')).
Qed.
Lemma first_same n : 0 < n -> reqs <> [] -> first_chunk n reqs = s / n.
Proof.
  intros Hn. unfold first_chunk. revert Same. clear. induction reqs as [|q l IH]; intros Same Ne; [congruence|]. cbn [fold_right].
  rewrite (proj2 (Same q (or_introl eq_refl))). destruct l as [|q' l]; [cbn [fold_right]; apply N.max_0_r|].
  change (N.max (s / n) (fold_right (fun q a => N.max (rq_skip q / n) a) 0 (q' :: l)) = s / n).
  rewrite IH; [apply N.max_id| |discriminate]. intros x Hx. apply Same. now right.
Qed.
Lemma least_same : reqs <> [] -> least_skip reqs = s.
Proof.
  revert Same. clear. intros Same Ne. destruct reqs as [|q l]; [congruence|]. cbn [least_skip].
  assert (Eq : rq_skip q = s) by (apply Same; now left). rewrite Eq.
  assert (Hl : forall x, In x l -> rq_skip x = s) by (intros x Hx; apply Same; now right).
  clear -Hl. induction l as [|x l IH]; [reflexivity|]. cbn [fold_right]. rewrite IH by (intros y Hy; apply Hl; now right).
  rewrite (Hl x (or_introl eq_refl)). lia.
Qed.
Lemma rows_same R : reqs <> [] -> rows_read reqs R = N.min (N.of_nat room) (R - s).
Proof.
  intros Ne. unfold rows_read. rewrite (least_same Ne).
  assert (Wt : forall u, wanted reqs u = (s <=? u) && (u <? s + N.of_nat room)).
  { intros u. unfold wanted. destruct ((s <=? u) && (u <? s + N.of_nat room)) eqn:Q.
    - apply existsb_exists. destruct reqs as [|q l] eqn:Er; [congruence|]. rewrite <- Er in *. assert (Hq : In q reqs) by (rewrite Er; now left).
      exists q. split; [exact Hq|]. now rewrite (given_same q Hq), (proj1 (Same q Hq)).
    - apply not_true_iff_false. intros K. apply existsb_exists in K. destruct K as [q [Hq K]].
      rewrite (given_same q Hq), (proj1 (Same q Hq)) in K. congruence. }
  rewrite (rows_run_ext _ _ (fun u => (s <=? u) && (u <? s + N.of_nat room))) by (intros; apply Wt).
  assert (A : forall m u, s <= u -> rows_run (fun u => (s <=? u) && (u <? s + N.of_nat room)) u m
                  = Nat.min (N.to_nat (s + N.of_nat room - u)) m).
  { clear. induction m as [|m IH]; intros u Hu; cbn [rows_run]; [lia|].
    destruct ((s <=? u) && (u <? s + N.of_nat room)) eqn:Q; [|lia]. rewrite IH by lia. lia. }
  rewrite A by lia. lia.
Qed.
Lemma last_in : NoDup (map rq_chan reqs) -> reqs <> [] -> exists q, In q reqs /\ last_request reqs = Some q.
Proof.
  intros ND Ne.
  assert (Mx : exists q, In q reqs /\ forall q', In q' reqs -> (rq_chan q' <= rq_chan q)%nat).
  { clear -Ne. induction reqs as [|q l IH]; [congruence|]. destruct l as [|q1 l].
    - exists q. split; [now left|]. intros q' [->|[]]. lia.
    - destruct (IH ltac:(discriminate)) as [q0 [H0 M0]]. destruct (Nat.le_gt_cases (rq_chan q0) (rq_chan q)).
      + exists q. split; [now left|]. intros q' [<-|Hq']; [lia|]. specialize (M0 q' Hq'). lia.
      + exists q0. split; [now right|]. intros q' [<-|Hq']; [lia|]. auto. }
  destruct Mx as [q [Hq M]]. exists q. split; [exact Hq|]. now apply last_request_is.
Qed.
End Same.

Section Block.
Context (f : list byte) (t : sty) (b : dblock).
Local Notation V := (carrier t).

Lemma widths_ext cs cs' ms : (forall i, In i cs <-> In i cs') -> widths_for t cs ms = widths_for t cs' ms.
Proof.
  intros H. unfold widths_for. apply map_ext. intros [i m]. cbn [fst snd]. f_equal.
  assert (Q : existsb (Nat.eqb i) cs = existsb (Nat.eqb i) cs') by (apply eq_true_iff_eq; rewrite !existsb_in; apply H).
  now rewrite Q.
Qed.
Definition part (cs : list nat) (c : nat) (s : N) : list V :=
  skipn (N.to_nat (passed_over b c s)) (samples_with f t b (widths_for t cs (b_chans b)) c).

(** What such requests get of a block. *)
Lemma got_same room s cs reqs n : NoDup (map rq_chan reqs) -> reqs <> [] ->
  (forall q, In q reqs -> rq_room q = room /\ rq_skip q = s) ->
  (forall i, In i (map rq_chan reqs) <-> In i cs) ->
  (b_layout b = Contigious -> 0 < per_chunk b) ->
  (forall q, In q reqs -> exists m, nth_error (b_chans b) (rq_chan q) = Some m /\ rm_n m = n) ->
  exists l, (forall q, In q reqs -> mixed_got f t b reqs q = firstn room (part cs (rq_chan q) s) /\ length (part cs (rq_chan q) s) = l)
    /\ mixed_count t b reqs = N.min (N.of_nat room) (N.of_nat l).
Proof.
  intros ND Ne Same Cs Pn Hm.
  assert (Ws : widths_for t (map rq_chan reqs) (b_chans b) = widths_for t cs (b_chans b)) by now apply widths_ext.
  set (ws := widths_for t cs (b_chans b)) in *.
  assert (Nth : forall q, In q reqs -> nth_error ws (rq_chan q) = Some (n, own_width t)).
  { intros q Hq. destruct (Hm q Hq) as [m [Hc Hn]]. unfold ws. rewrite widths_nth, Hc. cbn [option_map].
    assert (Q : existsb (Nat.eqb (rq_chan q)) cs = true) by (apply existsb_in, Cs, in_map; exact Hq). rewrite Q. now rewrite Hn. }
  assert (Pf : forall q, In q reqs -> b_layout b = Contigious ->
     mixed_first b reqs q = passed_over b (rq_chan q) s /\ passed_over b (rq_chan q) s = s / per_chunk b * n + N.min (s mod per_chunk b) n).
  { intros q Hq Lay. destruct (Hm q Hq) as [m [Hc Hn]].
    unfold mixed_first, passed_over, values_of. rewrite Lay, Hc, (given_same room s reqs Same q Hq), (first_same room s reqs Same _ (Pn Lay) Ne), N.eqb_refl, Hn.
    unfold per_chunk. destruct (b_chans b) as [|m0 ms] eqn:Eb; [destruct (rq_chan q); discriminate|]. auto. }
  unfold mixed_got, mixed_count. rewrite Ws. destruct (b_layout b) eqn:Lay.
  - set (R := b_len b / in_row ws). exists (N.to_nat (R - s)).
    assert (Lc : forall q, In q reqs -> length (samples_with f t b ws (rq_chan q)) = N.to_nat R).
    { intros q Hq. rewrite samples_with_length. unfold count_with. now rewrite Lay, (Nth q Hq). }
    assert (Po : forall q, passed_over b (rq_chan q) s = s) by (intros q; unfold passed_over; now rewrite Lay).
    rewrite (rows_same room s reqs Same R Ne). split; [|lia].
    intros q Hq. unfold part. fold ws. rewrite (given_same room s reqs Same q Hq), (least_same room s reqs Same Ne), (proj1 (Same q Hq)), Po.
    split; [|rewrite skipn_length, (Lc q Hq); lia].
    rewrite skipn_firstn_comm. rewrite firstn_firstn.
    destruct (Nat.le_gt_cases room (N.to_nat (R - s))).
    + f_equal. lia.
    + rewrite !firstn_all2; try reflexivity; rewrite skipn_length, (Lc q Hq); lia.
  - set (c := b_len b / in_chunk ws). exists (N.to_nat (n * c - (s / per_chunk b * n + N.min (s mod per_chunk b) n))).
    split.
    + intros q Hq. destruct (Pf q Hq eq_refl) as [P1 P2]. rewrite P1, (proj1 (Same q Hq)). split; [reflexivity|].
      unfold part. fold ws. rewrite skipn_length, samples_with_length, P2. unfold count_with. rewrite Lay, (Nth q Hq). fold c. lia.
    + destruct (last_in reqs ND Ne) as [q [Hq ->]]. destruct (Pf q Hq eq_refl) as [P1 P2]. rewrite P1, P2, (proj1 (Same q Hq)).
      unfold count_with. rewrite Lay, (Nth q Hq). fold c. lia.
Qed.
End Block.

(** ** The entries needed, by block *)
Local Notation blk := (fun x : nat * nat * N => fst (fst x)).
Lemma needed_blocks ls : forall s y, In y (needed ls s) -> In (fst (fst y)) (map l_block ls).
Proof.
  induction ls as [|l ls IH]; intros s y H; cbn [needed] in H; [contradiction|]. cbn [map].
  destruct (l_n l <=? s); [right; eauto|]. destruct H as [<-|H]; [now left|right; eauto].
Qed.
Lemma needed_sorted ls : ascending ls -> forall s, StronglySorted lt (map blk (needed ls s)).
Proof.
  unfold ascending. induction ls as [|l ls IH]; intros A s; cbn [needed map] in *; [constructor|].
  inversion A as [|y z A' Fa]; subst. destruct (l_n l <=? s); [now apply IH|]. cbn [map fst]. constructor; [now apply IH|].
  rewrite Forall_forall in *. intros k Hk. apply in_map_iff in Hk. destruct Hk as [y [<- Hy]]. apply Fa. eapply needed_blocks; eauto.
Qed.
Lemma needed_same ls : forall ls' s, shape ls = shape ls' ->
  map (fun x : nat * nat * N => (fst (fst x), snd x)) (needed ls s) = map (fun x => (fst (fst x), snd x)) (needed ls' s).
Proof.
  unfold shape. induction ls as [|l ls IH]; intros [|l' ls'] s Sh; cbn [needed map] in *; try discriminate; [reflexivity|].
  injection Sh as Hb Hn Sh. rewrite Hn. destruct (l_n l' <=? s); [now apply IH|]. cbn [map fst snd]. rewrite Hb. f_equal. now apply IH.
Qed.
Lemma find_same (a b : list (nat * nat * N)) j : 
  map (fun x => (fst (fst x), snd x)) a = map (fun x => (fst (fst x), snd x)) b ->
  option_map (fun x => (fst (fst x), snd x)) (find (fun x => Nat.eqb (fst (fst x)) j) a)
  = option_map (fun x => (fst (fst x), snd x)) (find (fun x => Nat.eqb (fst (fst x)) j) b).
Proof.
  revert b. induction a as [|x a IH]; intros [|y b] H; try discriminate; [reflexivity|]. cbn [map find] in *.
  injection H as Hb Hs H. rewrite Hb. destruct (Nat.eqb (fst (fst y)) j); [cbn [option_map]; congruence|]. now apply IH.
Qed.
Lemma filter_below nd j : StronglySorted lt (map blk nd) ->
  filter (fun y => Nat.ltb (fst (fst y)) (S j)) nd
  = filter (fun y => Nat.ltb (fst (fst y)) j) nd ++ match find (fun y => Nat.eqb (fst (fst y)) j) nd with Some y => [y] | None => [] end.
Proof.
  induction nd as [|y nd IH]; intros So; [reflexivity|]. cbn [map] in So. inversion So as [|u v So' Fa]; subst. specialize (IH So').
  cbn [filter find]. rewrite Forall_forall in Fa.
  assert (Gt : forall z, In z nd -> (fst (fst y) < fst (fst z))%nat) by (intros z Hz; apply Fa; now apply (in_map blk)).
  destruct (Nat.lt_trichotomy (fst (fst y)) j) as [Lt|[Eq|Gj]].
  - replace (Nat.ltb (fst (fst y)) (S j)) with true by (symmetry; apply Nat.ltb_lt; lia).
    replace (Nat.ltb (fst (fst y)) j) with true by (symmetry; apply Nat.ltb_lt; lia).
    replace (Nat.eqb (fst (fst y)) j) with false by (symmetry; apply Nat.eqb_neq; lia). rewrite IH. reflexivity.
  - replace (Nat.ltb (fst (fst y)) (S j)) with true by (symmetry; apply Nat.ltb_lt; lia).
    replace (Nat.ltb (fst (fst y)) j) with false by (symmetry; apply Nat.ltb_ge; lia).
    replace (Nat.eqb (fst (fst y)) j) with true by (symmetry; apply Nat.eqb_eq; lia).
    assert (N1 : forall k, (k <= S (fst (fst y)))%nat -> filter (fun z => Nat.ltb (fst (fst z)) k) nd = []).
    { intros k Hk. clear -Gt Hk. induction nd as [|z nd IH]; [reflexivity|]. cbn [filter].
      pose proof (Gt z (or_introl eq_refl)). replace (Nat.ltb (fst (fst z)) k) with false by (symmetry; apply Nat.ltb_ge; lia).
      apply IH. intros w Hw. apply Gt. now right. }
    rewrite !N1 by lia. reflexivity.
  - assert (N1 : forall k, (k <= S (fst (fst y)))%nat -> filter (fun z => Nat.ltb (fst (fst z)) k) nd = []).
    { intros k Hk. clear -Gt Hk. induction nd as [|z nd IH]; [reflexivity|]. cbn [filter].
      pose proof (Gt z (or_introl eq_refl)). replace (Nat.ltb (fst (fst z)) k) with false by (symmetry; apply Nat.ltb_ge; lia).
      apply IH. intros w Hw. apply Gt. now right. }
    assert (N2 : find (fun z => Nat.eqb (fst (fst z)) j) nd = None).
    { clear -Gt Gj. induction nd as [|z nd IH]; [reflexivity|]. cbn [find].
      pose proof (Gt z (or_introl eq_refl)). replace (Nat.eqb (fst (fst z)) j) with false by (symmetry; apply Nat.eqb_neq; lia).
      apply IH. intros w Hw. apply Gt. now right. }
    replace (Nat.ltb (fst (fst y)) (S j)) with false by (symmetry; apply Nat.ltb_ge; lia).
    replace (Nat.ltb (fst (fst y)) j) with false by (symmetry; apply Nat.ltb_ge; lia).
    replace (Nat.eqb (fst (fst y)) j) with false by (symmetry; apply Nat.eqb_neq; lia).
    rewrite !N1 by lia. rewrite N2. reflexivity.
Qed.
Lemma filter_prefix nd j : StronglySorted lt (map blk nd) -> exists rest, nd = filter (fun y => Nat.ltb (fst (fst y)) j) nd ++ rest.
Proof.
  induction nd as [|y nd IH]; intros So; [exists []; reflexivity|]. cbn [map] in So. inversion So as [|u v So' Fa]; subst.
  destruct (IH So') as [rest Er]. cbn [filter]. destruct (Nat.ltb (fst (fst y)) j) eqn:Q.
  - exists rest. cbn [app]. now rewrite Er at 1.
  - exists (y :: nd). apply Nat.ltb_ge in Q.
    assert (N1 : filter (fun z => Nat.ltb (fst (fst z)) j) nd = []).
    { rewrite Forall_forall in Fa. assert (Gt : forall z, In z nd -> (fst (fst y) < fst (fst z))%nat) by (intros z Hz; apply Fa; now apply (in_map blk)).
      clear -Gt Q. induction nd as [|z nd IH]; [reflexivity|]. cbn [filter].
      pose proof (Gt z (or_introl eq_refl)). replace (Nat.ltb (fst (fst z)) j) with false by (symmetry; apply Nat.ltb_ge; lia).
      apply IH. intros w Hw. apply Gt. now right. }
    now rewrite N1.
Qed.

Section Steps.
Context (f : list byte) (t : sty) (bs : list dblock) (X : Type) (xs : list X) (nd : X -> list (nat * nat * N)) (o : X -> list (carrier t))
  (L : nat) (samp : nat * nat * N -> list (carrier t)).
Local Notation V := (carrier t).
Hypothesis (Hso : forall x, In x xs -> StronglySorted lt (map blk (nd x)))
  (Hbd : forall x y, In x xs -> In y (nd x) -> (fst (fst y) < length bs)%nat)
  (HL : forall x, In x xs -> length (o x) = L).
(** Every block is wanted by all or by none, at the same sample. *)
Hypothesis (Hj : forall j, (forall x, In x xs -> find (fun y => Nat.eqb (fst (fst y)) j) (nd x) = None)
  \/ exists s b n cs (cf : X -> nat), nth_error bs j = Some b
      /\ (forall x, In x xs -> find (fun y => Nat.eqb (fst (fst y)) j) (nd x) = Some (j, cf x, s)
            /\ samp (j, cf x, s) = part f t b cs (cf x) s
            /\ exists m, nth_error (b_chans b) (cf x) = Some m /\ rm_n m = n)
      /\ NoDup (map cf xs) /\ (forall i, In i (map cf xs) <-> In i cs)
      /\ (b_layout b = Contigious -> 0 < per_chunk b)).

Definition goal_of (x : X) : list V := concat (map samp (nd x)).
Definition tk (r : nat) (x : X) : taker t := mkTaker t (nd x) (N.of_nat r) (overlay (o x) (firstn r (goal_of x))).

Lemma unwanted j ks : (forall k, In k ks -> wants t j k = None) -> mixed_serve f t bs j ks = ks.
Proof.
  intros H. unfold mixed_serve. destruct (nth_error bs j) as [b|]; [|reflexivity]. transitivity (map (fun k => k) ks); [|apply map_id].
  apply map_ext_in. intros k Hk. rewrite (H k Hk). reflexivity.
Qed.
Lemma all_full js : forall ks, (forall k, In k ks -> lenN (tk_buf t k) <= tk_count t k) ->
  fold_left (fun ks j => mixed_serve f t bs j ks) js ks = ks.
Proof.
  induction js as [|j js IH]; intros ks H; [reflexivity|]. cbn [fold_left]. rewrite unwanted; [now apply IH|].
  intros k Hk. unfold wants. specialize (H k Hk). now replace (lenN (tk_buf t k) <=? tk_count t k) with true by lia.
Qed.

Lemma overlay_length {A} (a v : list A) : (length v <= length a)%nat -> length (overlay a v) = length a.
Proof. intros H. unfold overlay. rewrite app_length, skipn_length. lia. Qed.

Lemma steps_served m : forall j r, (j + m = length bs)%nat -> (r < L)%nat ->
  (forall x, In x xs -> r = length (concat (map samp (filter (fun y => Nat.ltb (fst (fst y)) j) (nd x))))) ->
  map (tk_buf t) (fold_left (fun ks j => mixed_serve f t bs j ks) (seq j m) (map (tk r) xs))
  = map (fun x => overlay (o x) (firstn L (goal_of x))) xs.
Proof.
  induction m as [|m IH]; intros j r Ej Hr Hlen.
  - cbn [seq fold_left]. rewrite map_map. apply map_ext_in. intros x Hx. cbn [tk tk_buf]. unfold tk. cbn [tk_buf]. f_equal.
    assert (Al : filter (fun y => Nat.ltb (fst (fst y)) j) (nd x) = nd x).
    { specialize (Hbd x). assert (A : forall y, In y (nd x) -> (fst (fst y) < j)%nat) by (intros y Hy; specialize (Hbd y Hx Hy); lia).
      clear -A. induction (nd x) as [|y l IH]; [reflexivity|]. cbn [filter].
      replace (Nat.ltb (fst (fst y)) j) with true by (symmetry; apply Nat.ltb_lt; apply A; now left). f_equal. apply IH. intros z Hz. apply A. now right. }
    pose proof (Hlen x Hx) as Lr. rewrite Al in Lr. unfold goal_of. rewrite !firstn_all2 by lia. reflexivity.
  - cbn [seq fold_left].
    assert (Dx : forall x, In x xs -> exists rest, nd x = filter (fun y => Nat.ltb (fst (fst y)) (S j)) (nd x) ++ rest) by (intros x Hx; now apply filter_prefix, Hso).
    assert (Bl : forall x, In x xs -> lenN (tk_buf t (tk r x)) = N.of_nat L).
    { intros x Hx. unfold tk. cbn [tk_buf]. unfold lenN. f_equal. rewrite overlay_length; [now apply HL|]. rewrite firstn_length, (HL x Hx). lia. }
    destruct (Hj j) as [Hnone|[s [b [n [cs [cf [Hb [Hx [ND [Hcs Hpc]]]]]]]]]].
    + assert (Nw : mixed_serve f t bs j (map (tk r) xs) = map (tk r) xs).
      { apply unwanted. intros k Hk. apply in_map_iff in Hk. destruct Hk as [x [<- Hx]]. unfold wants, tk. cbn [tk_needs].
        rewrite (Hnone x Hx). now destruct (_ <=? _). }
      rewrite Nw. apply IH; [lia|exact Hr|]. intros x Hx. rewrite (filter_below (nd x) j (Hso x Hx)), (Hnone x Hx), app_nil_r. now apply Hlen.
    + destruct xs as [|x1 xs1] eqn:Exs.
      { cbn [map fold_left].
        assert (Z : forall l, fold_left (fun ks j => mixed_serve f t bs j ks) l ([] : list (taker t)) = []).
        { induction l as [|a l IHl]; [reflexivity|]. cbn [fold_left]. unfold mixed_serve at 2. destruct (nth_error bs a); cbn [map]; exact IHl. }
        unfold mixed_serve at 2. rewrite Hb. cbn [map]. now rewrite Z. }
      rewrite <- Exs in *.
      set (room := (L - r)%nat). set (rq := fun x => mkReq (cf x) room s).
      assert (Wa : forall x, In x xs -> wants t j (tk r x) = Some (cf x, s)).
      { intros x Hx'. unfold wants. rewrite (Bl x Hx'). unfold tk at 1 2. cbn [tk_count tk_needs].
        replace (N.of_nat L <=? N.of_nat r) with false by lia. destruct (Hx x Hx') as [-> _]. reflexivity. }
      assert (Rm : forall x, In x xs -> N.to_nat (lenN (tk_buf t (tk r x)) - tk_count t (tk r x)) = room).
      { intros x Hx'. rewrite (Bl x Hx'). unfold tk. cbn [tk_count]. unfold room. lia. }
      assert (Rq : concat (map (asks t j) (map (tk r) xs)) = map rq xs).
      { rewrite map_map. transitivity (concat (map (fun x => [rq x]) xs)).
        - f_equal. apply map_ext_in. intros x Hx'. unfold asks. rewrite (Wa x Hx'), (Rm x Hx'). reflexivity.
        - clear. induction xs as [|x l IH]; [reflexivity|]. cbn [map concat app]. now rewrite IH. }
      destruct (got_same f t b room s cs (map rq xs) n) as [l [Hg Hc]].
      { rewrite map_map. exact ND. }
      { rewrite Exs. discriminate. }
      { intros q Hq. apply in_map_iff in Hq. destruct Hq as [x [<- _]]. auto. }
      { intros i. rewrite map_map. apply Hcs. }
      { exact Hpc. }
      { intros q Hq. apply in_map_iff in Hq. destruct Hq as [x [<- Hx']]. cbn [rq_chan rq]. now destruct (Hx x Hx') as [_ [_ Hm]]. }
      set (k := Nat.min room l) in *.
      assert (Srv : mixed_serve f t bs j (map (tk r) xs) = map (tk (r + k)) xs /\ forall x, In x xs -> (r + l <= length (goal_of x))%nat).
      { assert (Gx : forall x, In x xs -> exists rest, skipn r (goal_of x) = part f t b cs (cf x) s ++ rest /\ length (goal_of x) = (r + (l + length rest))%nat).
        { intros x Hx'. destruct (Dx x Hx') as [rest Er]. pose proof (filter_below (nd x) j (Hso x Hx')) as Fb.
          destruct (Hx x Hx') as [Fd [Sp _]]. rewrite Fd in Fb. rewrite Fb in Er.
          pose proof (Hlen x Hx') as Lr. exists (concat (map samp rest)).
          assert (Eg : goal_of x = concat (map samp (filter (fun y => Nat.ltb (fst (fst y)) j) (nd x))) ++ part f t b cs (cf x) s ++ concat (map samp rest)).
          { unfold goal_of. rewrite Er at 1. rewrite !map_app, !concat_app. cbn [map concat]. rewrite app_nil_r, <- app_assoc, Sp. reflexivity. }
          rewrite Eg. split.
          - rewrite Lr. apply skipn_app_exact.
          - rewrite !app_length, <- Lr. destruct (Hg (rq x)) as [_ Lp]; [now apply in_map|]. cbn [rq_chan rq] in Lp. rewrite Lp. reflexivity. }
        split.
        2:{ intros x Hx'. destruct (Gx x Hx') as [rest [_ G2]]. lia. }
        unfold mixed_serve. rewrite Hb, Rq, map_map. apply map_ext_in. intros x Hx'. rewrite (Wa x Hx'), (Rm x Hx').
        destruct (Gx x Hx') as [rest [G1 G2]]. destruct (Hg (rq x)) as [Gq Lp]; [now apply in_map|]. cbn [rq_chan rq] in Lp.
        fold (rq x). rewrite Gq. cbn [rq_chan rq]. rewrite Hc. unfold tk. cbn [tk_needs tk_count tk_buf]. f_equal.
        - unfold k. lia.
        - assert (Eq : firstn room (part f t b cs (cf x) s) = firstn k (skipn r (goal_of x))).
          { rewrite G1, firstn_app, Lp. unfold k. replace (Nat.min room l - l)%nat with 0%nat by lia. cbn [firstn]. rewrite app_nil_r.
            destruct (Nat.le_gt_cases room l); [f_equal; lia|]. rewrite !firstn_all2 by lia. reflexivity. }
          rewrite Eq. change (put t) with (@splice V). apply overlay_splice; [rewrite (HL x Hx'); unfold k, room; lia|unfold k; lia]. }
      destruct Srv as [Srv Lg]. rewrite Srv.
      destruct (Nat.le_gt_cases L (r + k)) as [Le|Gt].
      * assert (Ek : (r + k = L)%nat) by (unfold k, room in *; lia). rewrite Ek.
        rewrite all_full.
        -- rewrite map_map. reflexivity.
        -- intros y Hy. apply in_map_iff in Hy. destruct Hy as [x [<- Hx']]. unfold tk. cbn [tk_buf tk_count].
           unfold lenN. rewrite overlay_length; [rewrite (HL x Hx'); lia|]. rewrite firstn_length, (HL x Hx'). lia.
      * apply IH; [lia|exact Gt|]. intros x Hx'. rewrite (filter_below (nd x) j (Hso x Hx')).
        destruct (Hx x Hx') as [Fd [Sp _]]. rewrite Fd, map_app, concat_app, app_length, <- (Hlen x Hx'). cbn [map concat]. rewrite app_nil_r, Sp.
        destruct (Hg (rq x)) as [_ Lp]; [now apply in_map|]. cbn [rq_chan rq] in Lp. rewrite Lp. unfold k, room in *. lia.
Qed.
End Steps.
