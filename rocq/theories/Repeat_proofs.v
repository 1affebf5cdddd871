(** * Requests that ask for a channel more than once *)
From Verif Require Import Base Lib DataTypes MetaData DataBlock Index RawData SpecIndex SpecRead SpecMulti SpecRepeat
  Block_proofs Request_proofs Skips_proofs SkipReq_proofs.

Lemma again_spec q l : again q l = true <-> In (rq_chan q) (map rq_chan l).
Proof.
  unfold again. rewrite existsb_exists, in_map_iff. split.
  - intros [x [Hx K]]. apply Nat.eqb_eq in K. eauto.
  - intros [x [K Hx]]. exists x. split; [exact Hx|now apply Nat.eqb_eq].
Qed.
Lemma final_in q reqs : In q (final_ones reqs) -> In q reqs.
Proof.
  induction reqs as [|x r IH]; [auto|]. cbn [final_ones]. destruct (again x r); [now right; auto|]. intros [->|H]; [now left|right; auto].
Qed.
Lemma final_chans c reqs : In c (map rq_chan (final_ones reqs)) <-> In c (map rq_chan reqs).
Proof.
  split.
  - rewrite !in_map_iff. intros [q [<- Hq]]. exists q. split; [reflexivity|now apply final_in].
  - induction reqs as [|x r IH]; [auto|]. cbn [final_ones map In]. intros [<-|H].
    + destruct (again x r) eqn:A; [apply again_spec in A; auto|now left].
    + destruct (again x r); [auto|right; auto].
Qed.
Lemma final_nodup reqs : NoDup (map rq_chan (final_ones reqs)).
Proof.
  induction reqs as [|x r IH]; [constructor|]. cbn [final_ones]. destruct (again x r) eqn:A; [exact IH|].
  cbn [map]. constructor; [|exact IH]. rewrite final_chans, <- again_spec. congruence.
Qed.
Lemma final_length reqs : (length (final_ones reqs) <= length reqs)%nat.
Proof. induction reqs as [|x r IH]; [auto|]. cbn [final_ones length]. destruct (again x r); cbn [length]; lia. Qed.
Lemma final_all reqs : NoDup (map rq_chan reqs) -> final_ones reqs = reqs.
Proof.
  induction reqs as [|x r IH]; [auto|]. cbn [map final_ones]. intros ND. inversion ND as [|? ? Hn ND']; subst.
  rewrite IH by exact ND'. destruct (again x r) eqn:A; [apply again_spec in A; contradiction|reflexivity].
Qed.

(** The last requests with their numbers. *)
Fixpoint final_at (k : nat) (reqs : list req) : list (nat * req) :=
  match reqs with
  | [] => []
  | q :: r => if again q r then final_at (S k) r else (k, q) :: final_at (S k) r
  end.
Lemma final_at_snd reqs : forall k, map snd (final_at k reqs) = final_ones reqs.
Proof. induction reqs as [|q r IH]; intros k; [reflexivity|]. cbn [final_at final_ones]. destruct (again q r); cbn [map snd]; now rewrite IH. Qed.
Lemma final_at_nth reqs : forall k o q, In (o, q) (final_at k reqs) -> exists o', o = (k + o')%nat /\ nth_error reqs o' = Some q /\ again q (skipn (S o') reqs) = false.
Proof.
  induction reqs as [|x r IH]; intros k o q H; [contradiction|]. cbn [final_at] in H.
  assert (Rest : In (o, q) (final_at (S k) r) -> exists o', o = (k + o')%nat /\ nth_error (x :: r) o' = Some q /\ again q (skipn (S o') (x :: r)) = false).
  { intros Hr. destruct (IH _ _ _ Hr) as [o' [-> [Hq Ha]]]. exists (S o'). split; [lia|]. split; [exact Hq|exact Ha]. }
  destruct (again x r) eqn:A; [auto|]. destruct H as [H|H]; [|auto]. injection H as <- <-. exists 0%nat. split; [lia|]. split; [reflexivity|exact A].
Qed.
Lemma final_at_in reqs : forall k o q, nth_error reqs o = Some q -> again q (skipn (S o) reqs) = false -> In ((k + o)%nat, q) (final_at k reqs).
Proof.
  induction reqs as [|x r IH]; intros k o q Hq Ha; [destruct o; discriminate|]. cbn [final_at]. destruct o as [|o]; cbn [nth_error skipn] in *.
  - injection Hq as ->. rewrite Ha. left. f_equal. lia.
  - specialize (IH (S k) o q Hq Ha). replace (k + S o)%nat with (S k + o)%nat by lia. destruct (again x r); [exact IH|now right].
Qed.

Section Repeat.
Context (E : env) (f : list byte) (t : sty).
Hypothesis (Fx : fixed t) (Ad : addressable E f).
Local Notation V := (carrier t).

Fixpoint set_pairs (ps : list (nat * req)) (es : list (entry V)) : list (entry V) :=
  match ps with
  | [] => es
  | (o, q) :: r => set_pairs r (set_plan (rq_chan q) (PRead o [] (rq_room q) 0) es)
  end.
Lemma set_plan_twice (p p' : plan V) es : forall c, set_plan c p (set_plan c p' es) = set_plan c p es.
Proof. induction es as [|x es IH]; intros [|c]; cbn [set_plan]; auto. now rewrite IH. Qed.
Lemma set_plan_swap (p p' : plan V) es : forall c c', c <> c' -> set_plan c p (set_plan c' p' es) = set_plan c' p' (set_plan c p es).
Proof.
  induction es as [|x es IH]; intros [|c] [|c'] H; cbn [set_plan]; auto; try contradiction. rewrite IH; [reflexivity|congruence].
Qed.
Lemma set_over c p r : forall k (es : list (entry V)), In c (map rq_chan r) -> set_readable k r (set_plan c p es) = set_readable k r es.
Proof.
  induction r as [|q r IH]; intros k es H; [contradiction|]. cbn [set_readable]. destruct (Nat.eq_dec (rq_chan q) c) as [->|Nc].
  - now rewrite set_plan_twice.
  - rewrite set_plan_swap by exact Nc. apply IH. cbn [map] in H. destruct H; [contradiction|assumption].
Qed.
Lemma set_final reqs : forall k (es : list (entry V)), set_readable k reqs es = set_pairs (final_at k reqs) es.
Proof.
  induction reqs as [|q r IH]; intros k es; [reflexivity|]. cbn [set_readable final_at]. destruct (again q r) eqn:A.
  - rewrite set_over by now apply again_spec. apply IH.
  - cbn [set_pairs]. apply IH.
Qed.
Lemma nth_pairs ps : forall (es : list (entry V)), NoDup (map (fun p => rq_chan (snd p)) ps) -> forall j,
  match nth_error es j with
  | None => nth_error (set_pairs ps es) j = None
  | Some x =>
    (exists o q, In (o, q) ps /\ rq_chan q = j
       /\ nth_error (set_pairs ps es) j = Some (mkEntry (en_len x) (PRead o ([] : list V) (rq_room q) 0)))
    \/ (~ In j (map (fun p => rq_chan (snd p)) ps) /\ nth_error (set_pairs ps es) j = Some x)
  end.
Proof.
  induction ps as [|[o q] ps IH]; intros es ND j; cbn [set_pairs].
  - destruct (nth_error es j); [right|]; auto.
  - cbn [map snd] in ND. inversion ND as [|y l Hn ND']; subst.
    specialize (IH (set_plan (rq_chan q) (PRead o [] (rq_room q) 0) es) ND' j).
    rewrite nth_set_plan in IH. destruct (Nat.eqb (rq_chan q) j) eqn:K.
    + apply Nat.eqb_eq in K. subst j. destruct (nth_error es (rq_chan q)) as [x|]; cbn [option_map en_len] in IH; [|exact IH].
      left. destruct IH as [[o' [q' [Hq [Hj _]]]]|[_ IH]].
      * exfalso. apply Hn. rewrite <- Hj. apply in_map_iff. exists (o', q'). auto.
      * exists o, q. split; [now left|auto].
    + apply Nat.eqb_neq in K. destruct (nth_error es j) as [x|]; [|exact IH].
      destruct IH as [[o' [q' [Hq [Hj IH]]]]|[Hni IH]].
      * left. exists o', q'. split; [now right|auto].
      * right. split; [|exact IH]. cbn [map snd]. intros [X|X]; auto.
Qed.
Lemma pairs_nodup k reqs : NoDup (map (fun p => rq_chan (snd p)) (final_at k reqs)).
Proof. rewrite <- (map_map snd rq_chan), final_at_snd. apply final_nodup. Qed.

Definition final (reqs : list req) (o : nat) (q : req) : Prop := nth_error reqs o = Some q /\ again q (skipn (S o) reqs) = false.
Lemma final_pair reqs o q : In (o, q) (final_at 0 reqs) <-> final reqs o q.
Proof.
  split.
  - intros H. destruct (final_at_nth _ _ _ _ H) as [o' [-> X]]. exact X.
  - intros [A B]. exact (final_at_in reqs 0 o q A B).
Qed.
Lemma final_one reqs o o' q q' : final reqs o q -> final reqs o' q' -> rq_chan q = rq_chan q' -> o = o'.
Proof.
  intros [A B] [A' B'] Eq.
  assert (W : forall o o' q q', nth_error reqs o = Some q -> nth_error reqs o' = Some q' -> again q (skipn (S o) reqs) = false ->
    rq_chan q = rq_chan q' -> (o' <= o)%nat).
  { clear. intros o o' q q' A A' B Eq. destruct (Nat.le_gt_cases o' o) as [|L]; [assumption|exfalso].
    apply not_true_iff_false in B. apply B. apply again_spec. rewrite Eq. apply in_map.
    apply (nth_error_In _ (o' - S o)%nat). rewrite <- A'. clear - L. revert o o' L. induction reqs as [|x r IH]; intros o o' L.
    - rewrite skipn_nil. now destruct (o' - S o)%nat, o'.
    - cbn [skipn]. destruct o' as [|o']; [lia|]. cbn [nth_error]. destruct o as [|o].
      + cbn [skipn]. f_equal. lia.
      + rewrite <- (IH o o') by lia. f_equal. }
  pose proof (W _ _ _ _ A A' B Eq). pose proof (W _ _ _ _ A' A B' (eq_sym Eq)). lia.
Qed.
Lemma final_member reqs q : In q (final_ones reqs) <-> exists o, final reqs o q.
Proof.
  rewrite <- (final_at_snd reqs 0), in_map_iff. split.
  - intros [[o q'] [K H]]. cbn [snd] in K. subst q'. exists o. now apply final_pair.
  - intros [o H]. exists (o, q). split; [reflexivity|now apply final_pair].
Qed.

Lemma entries_at_r chans reqs j x : nth_error (entries t chans reqs) j = Some x ->
  exists m, nth_error chans j = Some m /\ en_len x = rm_n m
    /\ ((exists o q, final reqs o q /\ rq_chan q = j /\ en_plan x = PRead o [] (rq_room q) 0)
        \/ (exists b, en_plan x = PSkip b)).
Proof.
  intros H. unfold entries in H. rewrite set_final in H. pose proof (nth_pairs (final_at 0 reqs) (base_record chans) (pairs_nodup 0 reqs) j) as K.
  unfold base_record in K. rewrite nth_error_map in K.
  destruct (nth_error chans j) as [m|]; cbn [option_map en_len] in K; [|unfold base_record in H; congruence]. exists m. split; [reflexivity|].
  destruct K as [[o [q [Hq [Hj K]]]]|[_ K]]; unfold base_record in H; rewrite K in H; injection H as <-; cbn [en_len en_plan]; split; auto.
  - left. exists o, q. split; [now apply final_pair|auto].
  - right. eexists. reflexivity.
Qed.
Lemma entries_req_r chans reqs o q : final reqs o q -> valid_req t chans q ->
  exists x, nth_error (entries t chans reqs) (rq_chan q) = Some x /\ en_plan x = PRead o [] (rq_room q) 0.
Proof.
  intros Hf [m [Hm _]]. pose proof (nth_pairs (final_at 0 reqs) (base_record chans) (pairs_nodup 0 reqs) (rq_chan q)) as K.
  unfold base_record in K. rewrite nth_error_map, Hm in K. cbn [option_map en_len] in K.
  unfold entries. rewrite set_final. unfold base_record.
  destruct K as [[o' [q' [Hq' [Hj K]]]]|[K _]].
  - apply final_pair in Hq'. pose proof (final_one _ _ _ _ _ Hq' Hf Hj) as ->. rewrite K. eexists. split; [reflexivity|]. cbn [en_plan].
    destruct Hq', Hf. congruence.
  - exfalso. apply K. apply in_map_iff. exists (o, q). split; [reflexivity|now apply final_pair].
Qed.
Lemma valid_final chans reqs : Forall (valid_req t chans) reqs -> Forall (valid_req t chans) (final_ones reqs).
Proof. rewrite !Forall_forall. intros H q Hq. apply H. now apply final_in. Qed.

(** The same channels are read as by the last requests alone. *)
Lemma first_reads j reqs chans : Forall (valid_req t chans) reqs ->
  nreads t (firstn j (entries t chans reqs)) = length (filter (fun q => Nat.ltb (rq_chan q) j) (final_ones reqs)).
Proof.
  intros Hv. unfold entries. rewrite set_final.
  assert (G : forall ps (es : list (entry V)), NoDup (map (fun p => rq_chan (snd p)) ps) ->
    Forall (fun p => exists x b, nth_error es (rq_chan (snd p)) = Some x /\ en_plan x = PSkip b) ps ->
    nreads t (firstn j (set_pairs ps es)) =
    (length (filter (fun q => Nat.ltb (rq_chan q) j) (map snd ps)) + nreads t (firstn j es))%nat).
  { clear. induction ps as [|[o q] ps IH]; intros es ND H; cbn [set_pairs map filter snd]; [reflexivity|].
    cbn [map snd] in ND. inversion ND as [|y l Hn ND']; subst. inversion H as [|y l [x [b [Hx Px]]] H']; subst. cbn [snd] in *.
    rewrite IH; [|exact ND'|].
    - rewrite firstn_set_plan. destruct (Nat.ltb (rq_chan q) j) eqn:K; [|reflexivity]. cbn [length].
      apply Nat.ltb_lt in K.
      erewrite nreads_set_plan; [|rewrite nth_firstn by exact K; exact Hx|exact Px|eauto]. lia.
    - rewrite Forall_forall in *. intros q' Hq'. destruct (H' q' Hq') as [x' [b' [Hx' Px']]].
      exists x', b'. rewrite nth_set_plan. destruct (Nat.eqb (rq_chan q) (rq_chan (snd q'))) eqn:K; [|auto].
      apply Nat.eqb_eq in K. exfalso. apply Hn. rewrite K. apply in_map_iff. exists q'. auto. }
  rewrite G.
  - rewrite nreads_base, Nat.add_0_r, final_at_snd. reflexivity.
  - apply pairs_nodup.
  - apply Forall_forall. intros [o q] Hq. cbn [snd]. apply final_pair in Hq. rewrite Forall_forall in Hv.
    destruct (Hv q (nth_error_In _ _ (proj1 Hq))) as [m [Hm _]]. unfold base_record. rewrite nth_error_map, Hm.
    cbn [option_map]. eexists _, _. split; reflexivity.
Qed.
Lemma all_reads reqs chans : Forall (valid_req t chans) reqs -> nreads t (entries t chans reqs) = length (final_ones reqs).
Proof.
  intros Hv. rewrite <- (firstn_all2 (n := S (length chans)) (entries t chans reqs)).
  - rewrite first_reads by exact Hv. f_equal. apply valid_final in Hv. rewrite <- (map_id (final_ones reqs)) at 2.
    rewrite map_id. induction (final_ones reqs) as [|q l IH]; [reflexivity|]. cbn [filter]. inversion Hv as [|? ? [m [Hm _]] Hv']; subst.
    assert (rq_chan q < length chans)%nat by (apply nth_error_Some; congruence).
    replace (Nat.ltb (rq_chan q) (S (length chans))) with true by (symmetry; apply Nat.ltb_lt; lia). f_equal. now apply IH.
  - assert (L : length (entries t chans reqs) = length chans).
    { unfold entries. assert (G : forall r k (es : list (entry V)), length (set_readable k r es) = length es).
      { induction r as [|q r IH]; intros k es; [reflexivity|]. cbn [set_readable]. rewrite IH. clear.
        generalize (rq_chan q). induction es as [|x es IH]; intros [|c]; cbn [set_plan length]; auto. }
      rewrite G. unfold base_record. apply map_length. }
    lia.
Qed.

Definition sd (reqs : list req) (o : nat) : N := match nth_error reqs o with Some q => skip_dealt reqs q | None => 0 end.
Lemma sd_skips chans reqs : Forall (valid_req t chans) reqs ->
  map (sd reqs) (oids t (entries t chans reqs)) = firstn (length (final_ones reqs)) (map rq_skip reqs).
Proof.
  intros Hv. pose proof (all_reads reqs chans Hv) as Nr. pose proof (final_length reqs) as Lf.
  assert (L : length (oids t (entries t chans reqs)) = length (final_ones reqs)) by (rewrite oids_length; exact Nr).
  apply nth_ext with (d := 0) (d' := 0); [rewrite map_length, firstn_length, map_length; lia|].
  intros k Hk. rewrite map_length in Hk. destruct (nth_error (oids t (entries t chans reqs)) k) as [o|] eqn:Ko; [|apply nth_error_None in Ko; lia].
  erewrite (nth_indep _ 0) by (rewrite map_length; exact Hk). rewrite map_nth.
  rewrite (nth_error_nth _ _ 0%nat Ko).
  destruct (oids_nth t _ k o Ko) as [j [x [g [r [s [Hj [Px Nk]]]]]]].
  destruct (entries_at_r chans reqs j x Hj) as [m [_ [_ [[o' [q [Hq [Hc P']]]]|[b P']]]]]; [|congruence].
  rewrite Px in P'. injection P' as -> _ _ _. unfold sd. rewrite (proj1 Hq). unfold skip_dealt.
  assert (Rk : rank (final_ones reqs) q = k).
  { rewrite <- Nk, first_reads by exact Hv. unfold rank. now rewrite Hc. }
  rewrite Rk. assert (Hk' : (k < length (final_ones reqs))%nat) by lia. clear - Hk'. revert Hk'. generalize (length (final_ones reqs)) as m, (map rq_skip reqs) as l.
  intros m l. revert m k. induction l as [|a l IH]; intros [|m] [|k] H; cbn [firstn nth]; try reflexivity; try lia. apply IH. lia.
Qed.
Lemma skip_dealt_in reqs q : skip_dealt reqs q = 0 \/ In (skip_dealt reqs q) (map rq_skip reqs).
Proof.
  unfold skip_dealt. destruct (Nat.lt_ge_cases (rank (final_ones reqs) q) (length (map rq_skip reqs))).
  - right. now apply nth_In.
  - left. now apply nth_overflow.
Qed.
Lemma sd_furthest n reqs o : 0 < n -> sd reqs o / n <= furthest n (map rq_skip reqs).
Proof.
  intros Hn. assert (Z : 0 / n <= furthest n (map rq_skip reqs)) by (rewrite N.div_0_l by lia; lia).
  unfold sd. destruct (nth_error reqs o) as [q|]; [|exact Z].
  destruct (skip_dealt_in reqs q) as [->|Hin]; [exact Z|now apply furthest_in].
Qed.
Lemma last_read_r chans reqs : Forall (valid_req t chans) reqs ->
  match last_request (final_ones reqs) with
  | Some q => exists o, final reqs o q /\ last_read t None (entries t chans reqs) = Some (o, rq_room q)
  | None => last_read t None (entries t chans reqs) = None
  end.
Proof.
  intros Hv. pose proof (all_reads reqs chans Hv) as Nr.
  destruct (last_read t None (entries t chans reqs)) as [[o r]|] eqn:L.
  - apply last_read_some in L. destruct L as [[i [x [g [s [Hi [Px U]]]]]]|[L _]]; [|discriminate].
    destruct (entries_at_r chans reqs i x Hi) as [m [_ [_ [[o' [q [Hq [Hj P']]]]|[b P']]]]]; [|congruence].
    rewrite Px in P'. injection P' as -> _ -> _.
    rewrite (last_request_is (final_ones reqs) (final_nodup reqs) q); [eauto|apply final_member; eauto|].
    intros q' Hq'. apply final_member in Hq'. destruct Hq' as [o2 Hq'].
    assert (Vq : valid_req t chans q') by (rewrite Forall_forall in Hv; apply Hv; exact (nth_error_In _ _ (proj1 Hq'))).
    destruct (entries_req_r chans reqs o2 q' Hq' Vq) as [y [Hy Py]].
    rewrite Hj. apply (U _ y Hy). unfold is_read. now rewrite Py.
  - apply last_read_no in L. rewrite Nr in L. destruct (final_ones reqs); [reflexivity|discriminate].
Qed.
Lemma want_r chans reqs u : Forall (valid_req t chans) reqs ->
  want_by t (sd reqs) (entries t chans reqs) u = wanted_by_final reqs u.
Proof.
  intros Hv. apply eq_true_iff_eq. unfold want_by, wanted_by_final. rewrite !existsb_exists. split.
  - intros [x [Hx W]]. apply In_nth_error in Hx. destruct Hx as [j Hj].
    destruct (entries_at_r chans reqs j x Hj) as [m [_ [_ [[o [q [Hq [_ P]]]]|[b P]]]]]; rewrite P in W; [|discriminate].
    exists q. split; [apply final_member; eauto|]. unfold sd in W. rewrite (proj1 Hq) in W. exact W.
  - intros [q [Hq W]]. apply final_member in Hq. destruct Hq as [o Hq].
    rewrite Forall_forall in Hv. destruct (entries_req_r chans reqs o q Hq (Hv q (nth_error_In _ _ (proj1 Hq)))) as [x [Hx Px]].
    exists x. split; [eapply nth_error_In; eauto|]. rewrite Px. unfold sd. rewrite (proj1 Hq). exact W.
Qed.

(** What each request gets, in the order of the requests. *)
Fixpoint answers (G : req -> list V) (reqs : list req) : list (list V) :=
  match reqs with
  | [] => []
  | q :: r => (if again q r then [] else G q) :: answers G r
  end.
Lemma answers_ext G G' reqs : (forall q, In q reqs -> G q = G' q) -> answers G reqs = answers G' reqs.
Proof.
  induction reqs as [|q r IH]; intros H; [reflexivity|]. cbn [answers]. rewrite IH by (intros; apply H; now right).
  rewrite (H q) by now left. reflexivity.
Qed.
Lemma seq_answers (h : nat -> list V) G reqs : forall k,
  (forall o q, nth_error reqs o = Some q -> h (k + o)%nat = if again q (skipn (S o) reqs) then [] else G q) ->
  map h (seq k (length reqs)) = answers G reqs.
Proof.
  induction reqs as [|q r IH]; intros k H; [reflexivity|]. cbn [length seq map answers]. f_equal.
  - specialize (H 0%nat q eq_refl). rewrite Nat.add_0_r in H. exact H.
  - apply IH. intros o q' Hq'. specialize (H (S o) q' Hq'). replace (S k + o)%nat with (k + S o)%nat by lia. exact H.
Qed.
Lemma harvest_none o (es : list (entry V)) : (forall j y g r s, nth_error es j = Some y -> en_plan y <> PRead o g r s) -> harvest o es = [].
Proof.
  induction es as [|x es IH]; intros H; [reflexivity|]. cbn [harvest].
  assert (R : harvest o es = []) by (apply IH; intros j y g r s Hj; exact (H (S j) y g r s Hj)).
  destruct (en_plan x) as [b|o' g r s] eqn:P; [exact R|]. destruct (Nat.eqb o' o) eqn:K.
  - apply Nat.eqb_eq in K. subst o'. exfalso. exact (H 0%nat x g r s eq_refl P).
  - exact R.
Qed.
Lemma outputs_r step D G chans reqs es' : Forall (valid_req t chans) reqs ->
  exts t step D 0 (entries t chans reqs) es' ->
  (forall o q x, final reqs o q -> en_plan x = PRead o ([] : list V) (rq_room q) 0 ->
     D (fold_right (fun y a => step y + a) 0 (firstn (rq_chan q) (entries t chans reqs))) x = G q) ->
  outputs reqs es' = answers (fun q => firstn (rq_room q) (G q)) reqs.
Proof.
  intros Hv X HG. unfold outputs. apply seq_answers. intros o q Hq. cbn [Nat.add].
  assert (Back : forall j y g r s, nth_error es' j = Some y -> en_plan y = PRead o g r s ->
    exists q', final reqs o q' /\ rq_chan q' = j).
  { intros j y g r s Hj Py.
    assert (Lj : exists y0, nth_error (entries t chans reqs) j = Some y0).
    { destruct (nth_error (entries t chans reqs) j) eqn:K; [eauto|]. apply nth_error_None in K.
      rewrite <- (exts_length _ _ _ _ _ _ X) in K. apply nth_error_None in K. congruence. }
    destruct Lj as [y0 Hy0]. destruct (exts_nth t _ _ _ _ _ _ _ X Hy0) as [y1 [Hy1 [_ B]]].
    rewrite Hj in Hy1. injection Hy1 as <-.
    destruct (entries_at_r chans reqs j y0 Hy0) as [m [_ [_ [[o' [q' [Hq' [Hj' P']]]]|[b P']]]]].
    - rewrite P' in B. destruct B as [s2 B]. rewrite Py in B. injection B as -> _ _ _. eauto.
    - rewrite P' in B. congruence. }
  destruct (again q (skipn (S o) reqs)) eqn:Ha.
  - apply harvest_none. intros j y g r s Hj Py. destruct (Back j y g r s Hj Py) as [q' [[Hq' Ha'] _]]. rewrite Hq in Hq'. injection Hq' as <-. congruence.
  - assert (Vq : valid_req t chans q) by (rewrite Forall_forall in Hv; apply Hv; eapply nth_error_In; eauto).
    destruct (entries_req_r chans reqs o q (conj Hq Ha) Vq) as [x [Hx Px]].
    destruct (exts_nth t _ _ _ _ _ _ _ X Hx) as [x' [Hx' [_ A]]]. rewrite Px in A. destruct A as [s' A].
    rewrite N.add_0_l, (HG o q x (conj Hq Ha) Px) in A.
    eapply harvest_unique; [exact Hx'|exact A|].
    intros j y g r s Hj Py. destruct (Back j y g r s Hj Py) as [q' [[Hq' _] <-]]. congruence.
Qed.

(** Skips beyond those handed out. *)
Lemma zip_more {A} (g : A -> N) (lk : nat -> A) (es : list (entry V)) : forall l, map lk (oids t es) = firstn (length (oids t es)) l ->
  zip_skips (map g l) es = set_by t (fun o => g (lk o)) es.
Proof.
  unfold oids, set_by. induction es as [|x es IH]; intros l H; [reflexivity|]. cbn [zip_skips map flat_map] in *.
  destruct (en_plan x) as [b|o gt r s] eqn:P; cbn [app map length] in H.
  - rewrite (IH l H). f_equal. unfold set_skip. now rewrite P.
  - destruct l as [|a l]; [discriminate|]. cbn [firstn] in H. injection H as <- H. cbn [map]. rewrite (IH l H). f_equal.
    unfold oid_of. now rewrite P.
Qed.
Lemma contig_skips_r e start blen es skips (sg : nat -> N) n m : es <> [] -> 0 < n -> Forall (good_entry t) es ->
  Forall (fun x => en_len x = n) es -> map sg (oids t es) = firstn (length (oids t es)) skips -> (forall o, sg o / n <= furthest n skips) ->
  blen / total t es = N.of_nat m -> 0 < N.of_nat m -> start + N.of_nat m * total t es <= lenN f ->
  exists es', contig_read_skips E f t e start blen es skips
      = (es', Ok (lim_by (last_read t None es) (fun o => N.of_nat m * n - first_of n (furthest n skips) sg o)))
    /\ exts t (esz t) (fun off x => skipn (N.to_nat (first_of n (furthest n skips) sg (oid_of t x))) (col f t e start (total t es) n m off x)) 0 es es'.
Proof.
  intros Hne Hn G L Hsg Hq Hb Hm H. pose proof Ad as [A1 A2]. pose proof (total_pos t es n Hne Hn G L) as Tp.
  assert (Tl : total t es <= N.of_nat m * total t es) by nia.
  unfold contig_read_skips, seek_to. replace (start <=? seek_max E) with true by lia. cbn [bind].
  unfold block_size. rewrite block_size_ok by (auto; lia). cbn [bind].
  unfold udiv at 1. replace (0 + total t es =? 0) with false by lia. cbn [bind].
  destruct es as [|x0 es0] eqn:Ees; [congruence|]. rewrite <- Ees in *.
  assert (Hx : en_len x0 = n) by (rewrite Ees in L; now inversion L). rewrite Hx.
  rewrite div_skips_all by exact Hn. cbn [bind].
  replace (blen / (0 + total t es)) with (N.of_nat m) by (rewrite N.add_0_l; symmetry; exact Hb).
  rewrite Nat2N.id. set (Q := furthest n skips) in *.
  destruct (contig_loop_by E f t e Fx Ad (fun idx es => if forallb (fun p => fst p <=? idx) (map (fun s => (s / n, s mod n)) skips)
      then Some (zip_skips (map (skip_for idx) (map (fun s => (s / n, s mod n)) skips)) es) else None)
      n (total t es) Q (fun o => (sg o / n, sg o mod n)) (oids t es) Hn) with (m := m) (idx := 0) (es := es) (len := 0) (pos := start)
      as [es' [R X]]; auto; try lia.
  - intros o. cbn [snd]. apply N.mod_lt. lia.
  - intros idx ys Hy. cbv beta. rewrite furthest_all. fold Q. destruct (idx <? Q) eqn:K.
    + now replace (Q <=? idx) with false by lia.
    + replace (Q <=? idx) with true by lia. f_equal. apply zip_more.
      rewrite Hy, firstn_map, <- Hsg, map_map. reflexivity.
  - exists es'. cbn [fst snd] in R, X. replace (0 <=? Q) with true in R, X by lia. rewrite N.sub_0_r in R, X.
    rewrite R. split; [reflexivity|exact X].
Qed.
Lemma skip_dealt_zero reqs q : Forall (fun q => rq_skip q = 0) reqs -> skip_dealt reqs q = 0.
Proof.
  intros Z. destruct (skip_dealt_in reqs q) as [|Hin]; [assumption|]. apply in_map_iff in Hin.
  destruct Hin as [q' [<- Hq']]. rewrite Forall_forall in Z. now apply Z.
Qed.
Lemma least_dealt_min reqs : least_dealt reqs = min_or_0 (firstn (length (final_ones reqs)) (map rq_skip reqs)).
Proof. unfold least_dealt. rewrite least_min, firstn_map. reflexivity. Qed.

Lemma block_again b reqs n c :
  0 < n -> 0 < c -> b_chans b <> [] ->
  Forall (fun m => rm_n m = n /\ 0 < width (rm_type m)) (b_chans b) ->
  chunks b c -> b_start b + c * sub_bytes (b_chans b) <= lenN f ->
  Forall (valid_req t (b_chans b)) reqs -> Forall (fun q => rq_skip q <= c * n) reqs ->
  let outs := answers (fun q => got_final (b_layout b) n (c * n) reqs q (block_samples f t b (rq_chan q) (c * n))) reqs in
  let k := count_final (b_layout b) n (c * n) reqs in
  block_read_skips E f t b reqs = (outs, Ok k)
  /\ (Forall (fun q => rq_skip q = 0) reqs -> block_read E f t b reqs = (outs, Ok k)).
Proof.
  intros Hn Hc Hne Hu Hb He Hv Hs outs k.
  assert (Hun : Forall (fun m => rm_n m = n) (b_chans b)) by (eapply Forall_impl; [|exact Hu]; cbv beta; tauto).
  assert (Hw : Forall (fun m => 0 < width (rm_type m)) (b_chans b)) by (eapply Forall_impl; [|exact Hu]; cbv beta; tauto).
  set (es := entries t (b_chans b) reqs).
  assert (F2 : Forall2 (rel t) es (b_chans b)) by (apply set_readable_rel; [exact Fx|now apply base_rel|exact Hv]).
  pose proof (rel_good t _ _ F2) as G. pose proof (rel_len t n _ _ F2 Hun) as L.
  assert (Hes : es <> []).
  { intros K. rewrite K in F2. inversion F2. congruence. }
  assert (Bp : build_record_plan t (b_chans b) reqs = Ok es).
  { unfold build_record_plan. rewrite validate_ok by exact Hv. reflexivity. }
  pose proof (sd_skips (b_chans b) reqs Hv) as Sg. fold es in Sg.
  assert (Lo : length (oids t es) = length (final_ones reqs)) by (rewrite oids_length; exact (all_reads reqs (b_chans b) Hv)).
  assert (Szw : forall q, In q reqs -> exists m, nth_error (b_chans b) (rq_chan q) = Some m /\ rm_n m = n /\ width (rm_type m) = size_bytes t).
  { intros q Hq. rewrite Forall_forall in Hv. destruct (Hv q Hq) as [m [Hm Hsu]]. exists m. split; [exact Hm|].
    rewrite Forall_forall in Hun. split; [apply Hun; eapply nth_error_In; eauto|]. symmetry. now apply (width_sty t). }
  pose proof (last_read_r (b_chans b) reqs Hv) as Lr. fold es in Lr.
  unfold outs, k, got_final, count_final. unfold chunks in Hb. unfold block_read, block_read_skips. rewrite Bp. destruct (b_layout b) eqn:Lay.
  - assert (Rt : rowtotal t es = row_bytes (b_chans b)) by now apply rel_row.
    assert (Hlen : b_len b = N.of_nat (N.to_nat (c * n)) * rowtotal t es).
    { rewrite Hb, (sub_row n) by exact Hun. rewrite Rt, N2Nat.id. lia. }
    assert (Hcn : 0 < c * n) by nia.
    set (es1 := set_by t (sd reqs) es).
    assert (Zs : zip_skips (map rq_skip reqs) es = es1).
    { rewrite <- (map_id (map rq_skip reqs)). rewrite (zip_more (fun x => x) (sd reqs) es (map rq_skip reqs)) by (rewrite Lo; exact Sg). reflexivity. }
    pose proof (exts_set_by t (wd t) (sd reqs) es 0) as X1. fold es1 in X1.
    assert (G1 : Forall (good_entry t) es1)
      by (eapply exts_forall; [|exact X1|exact G]; intros vs x x' A; apply ext_wd in A; tauto).
    assert (R1 : rowtotal t es1 = rowtotal t es) by (eapply exts_rowtotal; exact X1).
    assert (O1 : oids t es1 = oids t es) by (eapply exts_oids; exact X1).
    assert (Mn : min_or_0 (map (sd reqs) (oids t es1)) = least_dealt reqs) by now rewrite O1, Sg, least_dealt_min.
    assert (Ml : least_dealt reqs <= c * n).
    { unfold least_dealt. rewrite least_min. destruct (firstn (length (final_ones reqs)) reqs) as [|q l] eqn:Fl; [cbn; lia|].
      transitivity (rq_skip q); [apply min_or_0_le; now left|]. rewrite Forall_forall in Hs. apply Hs.
      assert (Hi : In q (firstn (length (final_ones reqs)) reqs)) by (rewrite Fl; now left).
      revert Hi. clear. generalize (length (final_ones reqs)) as m. induction reqs as [|x r IH]; intros [|m] Hi; try contradiction.
      destruct Hi as [->|Hi]; [now left|right; eauto]. }
    assert (Main : exists es', inter_read E f t (b_order b) (b_start b) (b_len b) es1 = (es', Ok (rows_passed reqs (c * n)))
        /\ outputs reqs es' = answers (fun q => firstn (rq_room q) (skipn (N.to_nat (skip_dealt reqs q))
             (firstn (N.to_nat (least_dealt reqs + rows_passed reqs (c * n))) (block_samples f t b (rq_chan q) (c * n))))) reqs).
    { destruct (inter_read_by E f t (b_order b) Fx Ad (b_start b) (b_len b) es1 (sd reqs) (N.to_nat (c * n))) as [es' [R X]]; auto; try lia.
      { unfold es1, set_by. intros K. apply map_eq_nil in K. contradiction. }
      { intros x Hx o g r s P. exact (set_by_entry t (sd reqs) es x Hx o r g s P). }
      rewrite Mn in R, X.
      assert (Wn : forall u, want_by t (sd reqs) es1 u = wanted_by_final reqs u).
      { intros u. rewrite <- (want_r (b_chans b) reqs u Hv). fold es. unfold es1, want_by, set_by. clear.
        induction es as [|x es IH]; [reflexivity|]. cbn [map existsb]. rewrite IH. f_equal.
        unfold set_skip. destruct (en_plan x) eqn:P; cbn [en_plan]; [now rewrite P|reflexivity]. }
      rewrite (rows_run_ext _ _ (wanted_by_final reqs)) in R, X by (intros; apply Wn).
      rewrite N2Nat.id in R, X.
      exists es'. rewrite R. split; [reflexivity|].
      assert (X' : exts t (wd t) (fun o x => [] ++ skipn (N.to_nat (sd reqs (oid_of t x))) (firstn (N.to_nat (least_dealt reqs + rows_passed reqs (c * n)))
                     (icol f t (b_order b) (b_start b) (rowtotal t es) (N.to_nat (c * n)) o))) 0 es es').
      { eapply exts_app; [apply wd_stable| |exact X1|].
        - intros vs x x' o A. cbv beta. now rewrite (ext_oid t _ _ _ A).
        - eapply exts_ext; [|exact X]. intros o x _. cbv beta. rewrite R1. do 2 f_equal. unfold rows_passed. lia. }
      cbn [app] in X'. eapply (outputs_r (wd t)); [exact Hv|exact X'|].
      intros o q x [Hq _] Px. cbv beta. unfold oid_of. rewrite Px. unfold sd. rewrite Hq.
      do 2 f_equal.
      change (fold_right (fun y a => wd t y + a) 0 (firstn (rq_chan q) (entries t (b_chans b) reqs)))
        with (rowtotal t (firstn (rq_chan q) es)).
      rewrite (rel_row t _ _ (rel_firstn t _ _ F2 (rq_chan q))), Rt.
      unfold icol, block_samples. apply map_ext. intros j. unfold sample, sample_addr, at_. rewrite Lay.
      destruct (Szw q (nth_error_In _ _ Hq)) as [m [Hm [_ Wm]]]. now rewrite Hm, Wm. }
    destruct Main as [es' [R O]]. rewrite Zs, R, O. split; [reflexivity|]. intros Z.
    assert (Id : es1 = es).
    { unfold es1, set_by. rewrite <- (map_id es) at 2. apply map_ext_in. intros x Hx. unfold set_skip, oid_of.
      apply In_nth_error in Hx. destruct Hx as [j Hj].
      destruct (entries_at_r (b_chans b) reqs j x Hj) as [m [_ [_ [[o' [q [[Hq _] [_ P']]]]|[b' P']]]]]; rewrite P'; [|reflexivity].
      unfold sd. rewrite Hq, (skip_dealt_zero reqs q Z). destruct x as [l p]. cbn [en_len en_plan] in *. congruence. }
    rewrite Id in R. now rewrite R, O.
  - assert (Tt : total t es = sub_bytes (b_chans b)) by now apply rel_total.
    assert (Hlen : b_len b / total t es = N.of_nat (N.to_nat c)) by (rewrite Tt, N2Nat.id; exact Hb).
    assert (Hin : b_start b + N.of_nat (N.to_nat c) * total t es <= lenN f) by (rewrite Tt, N2Nat.id; exact He).
    assert (Fo : forall o q, nth_error reqs o = Some q -> first_of n (furthest n (map rq_skip reqs)) (sd reqs) o = contig_dealt n reqs q).
    { intros o q Hq. unfold first_of, contig_dealt, sd. rewrite Hq, first_chunk_furthest. reflexivity. }
    assert (Cnt : lim_by (last_read t None es) (fun o => N.of_nat (N.to_nat c) * n - first_of n (furthest n (map rq_skip reqs)) (sd reqs) o)
                  = match last_request (final_ones reqs) with Some q => N.min (N.of_nat (rq_room q)) (c * n - contig_dealt n reqs q) | None => 0 end).
    { destruct (last_request (final_ones reqs)) as [q|].
      - destruct Lr as [o [Ho ->]]. cbn [lim_by]. now rewrite (Fo o q (proj1 Ho)), N2Nat.id.
      - now rewrite Lr. }
    assert (Col : forall q, In q reqs ->
       col f t (b_order b) (b_start b) (total t es) n (N.to_nat c)
         (fold_right (fun y a => esz t y + a) 0 (firstn (rq_chan q) (entries t (b_chans b) reqs))) (mkEntry 0 (PSkip 0))
       = block_samples f t b (rq_chan q) (c * n)).
    { intros q Hq.
      change (fold_right (fun y a => esz t y + a) 0 (firstn (rq_chan q) (entries t (b_chans b) reqs)))
        with (total t (firstn (rq_chan q) es)).
      rewrite (rel_total t _ _ (rel_firstn t _ _ F2 (rq_chan q))), Tt, (col_samples f t) by exact Hn.
      unfold block_samples. replace (N.to_nat (c * n)) with (N.to_nat c * N.to_nat n)%nat by lia.
      apply map_ext. intros j. unfold sample, sample_addr, at_. rewrite Lay.
      destruct (Szw q Hq) as [m [Hm [Nm Wm]]]. now rewrite Hm, Wm, Nm. }
    split.
    + destruct (contig_skips_r (b_order b) (b_start b) (b_len b) es (map rq_skip reqs) (sd reqs) n (N.to_nat c))
        as [es' [R X]]; auto; try lia.
      { rewrite Lo. exact Sg. }
      { intros o. now apply sd_furthest. }
      rewrite R, Cnt. f_equal. eapply (outputs_r (esz t)); [exact Hv|exact X|].
      intros o q x [Hq _] Px. cbv beta. unfold oid_of. rewrite Px, (Fo o q Hq). f_equal. exact (Col q (nth_error_In _ _ Hq)).
    + intros Z. destruct (contig_zero_by E f t (b_order b) Fx Ad (b_start b) (b_len b) es n (N.to_nat c)) as [es' [R X]]; auto; try lia.
      assert (Cf : forall q, contig_dealt n reqs q = 0).
      { intros q. unfold contig_dealt. rewrite (skip_dealt_zero reqs q Z), (first_chunk_zero n reqs Hn Z).
        rewrite N.mod_0_l by lia. destruct (0 / n =? 0); lia. }
      rewrite R. f_equal.
      * rewrite (outputs_r (esz t) _ (fun q => block_samples f t b (rq_chan q) (c * n)) _ _ _ Hv X).
        -- apply answers_ext. intros q _. rewrite Cf. reflexivity.
        -- intros o q x [Hq _] Px. exact (Col q (nth_error_In _ _ Hq)).
      * f_equal. destruct (last_request (final_ones reqs)) as [q|].
        -- destruct Lr as [o [Ho ->]]. cbn [lim_by]. rewrite Cf, N2Nat.id, N.sub_0_r. reflexivity.
        -- now rewrite Lr.
Qed.
End Repeat.
