(** * Reading channels of a session *)
From Coq Require Import Sorting.Sorted.
From Verif Require Import Base Lib DataTypes MetaData DataBlock Index RawData ChannelReader TdmsFile
  SpecIndex SpecSession SpecRead Index_proofs History_proofs Open_proofs Session_proofs Thm_Index
  Block_proofs Request_proofs Plan_proofs.

Lemma stored_as_supports t d : In d (stored_as t) <-> supports t d = true.
Proof.
  assert (Eq : stored_as t = supported t) by (destruct t; reflexivity). rewrite Eq. unfold supports.
  rewrite existsb_exists. split.
  - intros Hd. exists d. split; [exact Hd|]. destruct d; reflexivity.
  - intros [x [Hx Q]]. replace d with x; [exact Hx|]. destruct d, x; reflexivity || discriminate.
Qed.

Lemma nth_ext_error {A} : forall a b : list A, (forall i, nth_error a i = nth_error b i) -> a = b.
Proof.
  induction a as [|x a IH]; intros [|y b] Q; [reflexivity|specialize (Q 0%nat); discriminate..|].
  f_equal; [specialize (Q 0%nat); cbn in Q; congruence|]. apply IH. intros i. exact (Q (S i)).
Qed.

(** ** Locations of a history *)
Lemma locs_in_at path j c l : forall act ms i, In l (locs_in path j i c act ms) ->
  exists k m, l = mkLoc j (i + k) (rm_n m * c) /\ nth_error ms k = Some m.
Proof.
  induction act as [|p act IH]; intros [|m ms] i H; cbn [locs_in] in H; try contradiction.
  apply in_app_or in H. destruct H as [H|H].
  - destruct (str_eqb path p); [|contradiction]. destruct H as [<-|[]]. exists 0%nat, m.
    rewrite Nat.add_0_r. auto.
  - destruct (IH _ _ H) as [k [m' [-> Hk]]]. exists (S k), m'. split; [f_equal; lia|exact Hk].
Qed.
Lemma blocks_after_app H1 H2 : exists r, blocks_after (H1 ++ H2) = blocks_after H1 ++ r.
Proof.
  revert H1. induction H2 as [|s H2 IH]; intros H1.
  - exists []. now rewrite !app_nil_r.
  - replace (H1 ++ s :: H2) with ((H1 ++ [s]) ++ H2) by now rewrite <- app_assoc.
    destruct (IH (H1 ++ [s])) as [r Hr]. rewrite Hr, blocks_after_snoc, <- app_assoc. eauto.
Qed.
Lemma locs_from_located path : forall H pre,
  Forall (located (blocks_after (pre ++ H))) (locs_from path pre H).
Proof.
  induction H as [|s H IH]; intros pre; cbn [locs_from]; [constructor|].
  replace (pre ++ s :: H) with ((pre ++ [s]) ++ H) by now rewrite <- app_assoc.
  apply Forall_app. split; [|apply IH].
  destruct (toc_raw (sg_toc s)) eqn:T; [|constructor]. apply Forall_forall. intros l Hl.
  apply locs_in_at in Hl. destruct Hl as [k [m [-> Hk]]]. exists (block_of pre s), m. cbn [l_block l_chan l_n].
  split; [|auto]. destruct (blocks_after_app (pre ++ [s]) H) as [r ->]. rewrite blocks_after_snoc, T.
  rewrite <- app_assoc. rewrite nth_error_app2 by lia. now rewrite Nat.sub_diag.
Qed.
Lemma locs_located H path : Forall (located (blocks_after H)) (locs_after H path).
Proof. apply (locs_from_located path H []). Qed.

Lemma session_locs E H F p : session E H F -> mentioned (all_objs H) p ->
  get_positions (tf_ix F) p = Some (locs_after H p) /\ ascending (locs_after H p).
Proof.
  intros Se M. destruct (C14_incremental E H F Se) as [_ [_ [_ [_ [Gp _]]]]]. specialize (Gp p M).
  split; [exact Gp|]. pose proof (C18_sessions E H F (session_any _ _ _ Se)) as V. now apply (V p).
Qed.

Lemma needed_in ls : forall s j c k, In (j, c, k) (needed ls s) ->
  exists l, In l ls /\ l_block l = j /\ l_chan l = c /\ k < l_n l.
Proof.
  induction ls as [|l ls IH]; intros s j c k H; cbn [needed] in H; [contradiction|].
  destruct (l_n l <=? s) eqn:Q.
  - destruct (IH _ _ _ _ H) as [l' [A B]]. exists l'. split; [now right|exact B].
  - destruct H as [H|H].
    + injection H as <- <- <-. exists l. split; [now left|]. repeat split. lia.
    + destruct (IH _ _ _ _ H) as [l' [A B]]. exists l'. split; [now right|exact B].
Qed.
Lemma needed_0 ls : forall j c k, In (j, c, k) (needed ls 0) -> k = 0.
Proof.
  induction ls as [|l ls IH]; intros j c k H; cbn [needed] in H; [contradiction|].
  destruct (l_n l <=? 0) eqn:Q.
  - replace (0 - l_n l) with 0 in H by lia. eauto.
  - destruct H as [H|H]; [congruence|eauto].
Qed.
Lemma needed_shape ls : forall ls' s j c k, shape ls = shape ls' -> In (j, c, k) (needed ls s) ->
  exists c', In (j, c', k) (needed ls' s).
Proof.
  unfold shape. induction ls as [|l ls IH]; intros [|l' ls'] s j c k Sh H; cbn [needed map] in *; try discriminate; [contradiction|].
  injection Sh as Hb Hn Sh. rewrite Hn in H. destruct (l_n l' <=? s).
  - eauto.
  - destruct H as [H|H].
    + injection H as <- <- <-. exists (l_chan l'). left. now rewrite Hb.
    + destruct (IH _ _ _ _ _ Sh H) as [c' H']. exists c'. now right.
Qed.

Lemma planned_in i plan : forall br c s, In br plan -> nth_error (br_chans br) i = Some (Some (c, s)) ->
  In (br_block br, c, s) (planned i plan).
Proof.
  intros br c s Hb Hi. unfold planned. apply in_flat_map. exists br. split; [exact Hb|]. rewrite Hi. now left.
Qed.
Lemma in_planned i plan j c s : In (j, c, s) (planned i plan) ->
  exists br, In br plan /\ br_block br = j /\ nth_error (br_chans br) i = Some (Some (c, s)).
Proof.
  unfold planned. rewrite in_flat_map. intros [br [Hb H]]. exists br. split; [exact Hb|].
  destruct (nth_error (br_chans br) i) as [[[c' s']|]|]; try contradiction.
  destruct H as [H|[]]. injection H as <- <- <-. auto.
Qed.
Lemma sorted_blocks plan br br' : StronglySorted lt (map br_block plan) -> In br plan -> In br' plan ->
  br_block br = br_block br' -> br = br'.
Proof.
  induction plan as [|x plan IH]; intros S1 H H' Eq; [contradiction|]. cbn [map] in S1.
  inversion S1 as [|y l S2 F]; subst. rewrite Forall_forall in F.
  destruct H as [<-|H], H' as [<-|H']; auto.
  - specialize (F _ (in_map br_block _ _ H')). lia.
  - specialize (F _ (in_map br_block _ _ H)). lia.
Qed.

(** ** Plans all of whose blocks can be read *)
Section Plans.
Context (E : env) (f : list byte) (t : sty) (ix : index).
Hypothesis (Fx : fixed t).
Local Notation V := (carrier t).
Local Notation bs := (ix_blocks ix).

(** Every block of the plan is readable with one skip for all channels. *)
Definition readable_plan (nch : nat) (plan : list blockread) : Prop :=
  Forall (fun br => length (br_chans br) = nch /\ exists b n c s, readable_block f t ix br b n c s) plan.

(** One channel. *)
Lemma fair_single : forall plan pr, readable_plan 1 plan -> fair_run f t ix plan [pr].
Proof.
  induction plan as [|br plan IH]; intros pr R; cbn [fair_run]; [exact I|].
  inversion R as [|y l [Ln [b [n [c [s Rb]]]]] R']; subst. exists b, n, c, s. split; [exact Rb|]. split; [exact Ln|].
  intros k Ck. destruct (br_chans br) as [|p [|]] eqn:Eb; try discriminate. split.
  - intros q Hq. destruct Ck as [_ Ck].
    assert (One : forall q', In q' (block_requests [p] [pr]) -> q' = q).
    { intros q' Hq'. cbn [block_requests] in *. destruct p as [[ci si]|]; [|contradiction].
      destruct (complete pr); [contradiction|]. destruct Hq as [<-|[]], Hq' as [<-|[]]. reflexivity. }
    assert (Ne : block_requests [p] [pr] <> []) by (intros Z; rewrite Z in Hq; contradiction).
    specialize (Ck Ne). destruct (b_layout b); destruct Ck as [q' [Hq' [_ ->]]]; rewrite (One q' Hq'); lia.
  - intros _. cbn [advance]. destruct p; apply IH; exact R'.
Qed.

(** Channels with equal progress that are all in every block. *)
Lemma fair_equal : forall plan nch pr, readable_plan nch plan ->
  Forall (fun br => Forall (fun p => p <> None) (br_chans br)) plan ->
  fair_run f t ix plan (repeat pr nch).
Proof.
  induction plan as [|br plan IH]; intros nch pr R A; cbn [fair_run]; [exact I|].
  inversion R as [|y l [Ln [b [n [c [s Rb]]]]] R']; subst y l. inversion A as [|y l A1 A']; subst y l.
  exists b, n, c, s. split; [exact Rb|]. rewrite repeat_length. split; [exact Ln|].
  intros k Ck. split.
  - intros q Hq. destruct Ck as [_ Ck].
    assert (Same : forall q', In q' (block_requests (br_chans br) (repeat pr nch)) -> rq_room q' = rq_room q).
    { intros q' Hq'. apply in_requests in Hq, Hq'.
      destruct Hq as [i [ci [si [pr1 [_ [Hp [_ ->]]]]]]]. destruct Hq' as [i' [ci' [si' [pr2 [_ [Hp' [_ ->]]]]]]].
      apply nth_error_In, repeat_spec in Hp, Hp'. cbn [rq_room]. congruence. }
    assert (Ne : block_requests (br_chans br) (repeat pr nch) <> []) by (intros Z; rewrite Z in Hq; contradiction).
    specialize (Ck Ne). destruct (b_layout b); destruct Ck as [q' [Hq' [_ ->]]]; rewrite (Same q' Hq'); lia.
  - intros _.
    assert (Adv : advance (br_chans br) k (repeat pr nch) = repeat (mkPr (pr_read pr + k) (pr_target pr)) nch).
    { rewrite <- Ln. clear -A1. induction A1 as [|p l Hp A1 IH]; [reflexivity|]. cbn [length repeat advance].
      destruct p; [|congruence]. now rewrite IH. }
    rewrite Adv. apply IH; assumption.
Qed.

(** Interleaved blocks only. *)
Lemma fair_interleaved : forall plan nch prs, readable_plan nch plan -> length prs = nch ->
  Forall (fun br => forall b, nth_error bs (br_block br) = Some b -> b_layout b = Interleaved) plan ->
  fair_run f t ix plan prs.
Proof.
  induction plan as [|br plan IH]; intros nch prs R Lp A; cbn [fair_run]; [exact I|].
  inversion R as [|y l [Ln [b [n [c [s Rb]]]]] R']; subst y l. inversion A as [|y l A1 A']; subst y l.
  exists b, n, c, s. split; [exact Rb|]. split; [congruence|].
  assert (Lay : b_layout b = Interleaved) by (apply A1; apply Rb).
  intros k Ck. split.
  - intros q Hq. destruct Ck as [_ Ck].
    assert (Ne : block_requests (br_chans br) prs <> []) by (intros Z; rewrite Z in Hq; contradiction).
    specialize (Ck Ne). rewrite Lay in Ck. destruct Ck as [q' [_ [Hm ->]]]. specialize (Hm q Hq). lia.
  - intros _. apply (IH nch); auto. now rewrite advance_length.
Qed.

(** Buffers with room for everything that is left. *)
Definition roomy (plan : list blockread) (prs : list progress) : Prop :=
  forall i pr, nth_error prs i = Some pr ->
    N.of_nat (length (concat (map (nsamp f t bs) (planned i plan)))) + pr_read pr <= pr_target pr.

Lemma fair_roomy : forall plan nch prs, readable_plan nch plan -> length prs = nch -> roomy plan prs ->
  fair_run f t ix plan prs.
Proof.
  induction plan as [|br plan IH]; intros nch prs R Lp A; cbn [fair_run]; [exact I|].
  inversion R as [|y l [Ln [b [n [c [s Rb]]]]] R']; subst y l.
  exists b, n, c, s. split; [exact Rb|]. split; [congruence|].
  destruct Rb as [Bb [Hn [Hc [Hne [Hu [Hbl [Hin [Hs [Hch [Hsk Hd]]]]]]]]]].
  assert (Len : forall i ci si, nth_error (br_chans br) i = Some (Some (ci, si)) ->
     length (nsamp f t bs (br_block br, ci, si)) = N.to_nat (c * n - s)).
  { intros i ci si Hi. destruct (Hch _ _ _ Hi) as [-> [m [Hm _]]].
    unfold nsamp, chan_samples. rewrite Bb, Hm, skipn_length, block_samples_length.
    rewrite (whole_chunks_of b c); [|eapply Forall_impl; [|exact Hu]; cbv beta; tauto|apply (sub_bytes_pos n); assumption|exact Hbl].
    rewrite Forall_forall in Hu. rewrite (proj1 (Hu m (nth_error_In _ _ Hm))). lia. }
  assert (Roomq : forall q, In q (block_requests (br_chans br) prs) -> c * n - s <= N.of_nat (rq_room q)).
  { intros q Hq. apply in_requests in Hq. destruct Hq as [i [ci [si [pr [Hi [Hpr [_ ->]]]]]]].
    specialize (A i pr Hpr). unfold planned in A. cbn [flat_map] in A. rewrite Hi in A. cbn [map concat app] in A.
    rewrite app_length, (Len _ _ _ Hi) in A. cbn [rq_room]. unfold room_of. lia. }
  intros k Ck. split.
  - intros q Hq. destruct Ck as [_ Ck].
    assert (Ne : block_requests (br_chans br) prs <> []) by (intros Z; rewrite Z in Hq; contradiction).
    specialize (Ck Ne). right. destruct (b_layout b); destruct Ck as [q' [Hq' [_ ->]]]; specialize (Roomq q' Hq'); lia.
  - intros _. pose proof (counted_le _ _ _ _ Ck) as Kle. apply (IH nch); auto; [now rewrite advance_length|].
    intros i pr' Hpr'.
    assert (Hi : (i < length prs)%nat) by (rewrite <- (advance_length k (br_chans br) prs); apply nth_error_Some; congruence).
    destruct (nth_error prs i) as [pr|] eqn:Hpr; [|apply nth_error_None in Hpr; lia].
    destruct (nth_error (br_chans br) i) as [p|] eqn:Hp; [|apply nth_error_None in Hp; lia].
    rewrite (nth_advance k _ _ _ _ _ Hp Hpr) in Hpr'. injection Hpr' as <-.
    specialize (A i pr Hpr). unfold planned in A. cbn [flat_map] in A. fold (planned i plan) in A. rewrite Hp in A.
    destruct p as [[ci si]|]; [|exact A].
    cbn [map concat app] in A. rewrite app_length, (Len _ _ _ Hp) in A. cbn [pr_read pr_target]. lia.
Qed.
End Plans.

(** ** Reading several channels *)
Section Session.
Context (E : env) (H : list segment) (F : tfile) (t : sty).
Hypothesis (Se : session E H F) (Fx : fixed t) (Ad : addressable E (tf_bytes F)).
Local Notation V := (carrier t).

Definition samples (p : str) : list V := samples_after (tf_bytes F) t H p.

Lemma lookup_ok chans : Forall (mentioned (all_objs H)) chans ->
  lookup_positions (tf_ix F) chans = Ok (map (locs_after H) chans).
Proof.
  induction 1 as [|p chans M A IH]; cbn [lookup_positions map]; [reflexivity|].
  destruct (session_locs E H F p Se M) as [-> _]. rewrite IH. reflexivity.
Qed.

(** All planned entries of a block have the same skip. *)
Definition same_skips (plan : list blockread) : Prop :=
  forall br, In br plan -> exists s, forall i c si, nth_error (br_chans br) i = Some (Some (c, si)) -> si = s.

Lemma combine_nth {A B} (a : list A) (b : list B) : forall i x y, nth_error a i = Some x -> nth_error b i = Some y ->
  nth_error (combine a b) i = Some (x, y).
Proof.
  revert b. induction a as [|x0 a IH]; intros [|y0 b] i x y Ha Hb; try (destruct i; discriminate).
  destruct i; cbn [nth_error combine] in *; [congruence|eauto].
Qed.
Lemma nth_repeat {A} (x : A) k i : (i < k)%nat -> nth_error (repeat x k) i = Some x.
Proof. revert i. induction k as [|k IH]; intros [|i] Hi; cbn [repeat nth_error]; try lia; [reflexivity|apply IH; lia]. Qed.

Lemma plan_ok chans start : Forall (mentioned (all_objs H)) chans ->
  exists plan, read_plan (map (locs_after H) chans) (repeat start (length chans)) = Ok plan
    /\ StronglySorted lt (map br_block plan)
    /\ Forall (fun br => length (br_chans br) = length chans /\ exists c s, In (Some (c, s)) (br_chans br)) plan
    /\ forall i p, nth_error chans i = Some p -> planned i plan = needed (locs_after H p) start.
Proof.
  intros M. unfold read_plan. set (st := combine (map (locs_after H) chans) (repeat start (length chans))).
  assert (Nst : forall i p, nth_error chans i = Some p -> nth_error st i = Some (locs_after H p, start)).
  { intros i p Hi. unfold st. apply combine_nth; [now rewrite nth_error_map, Hi|].
    apply nth_repeat. apply nth_error_Some. congruence. }
  assert (Lst : length st = length chans) by (unfold st; rewrite combine_length, map_length, repeat_length; lia).
  destruct (plan_terminates (S (total_locs st)) st ltac:(lia)) as [plan Hp]. exists plan. split; [exact Hp|].
  assert (As : Forall (fun c => ascending (fst c)) st).
  { apply Forall_forall. intros c Hc. apply In_nth_error in Hc. destruct Hc as [i Hi].
    assert (Hl : (i < length chans)%nat) by (rewrite <- Lst; apply nth_error_Some; congruence).
    destruct (nth_error chans i) as [p|] eqn:Hp'; [|apply nth_error_None in Hp'; lia].
    rewrite (Nst i p Hp') in Hi. injection Hi as <-. cbn [fst].
    rewrite Forall_forall in M. apply (session_locs E H F p Se). apply M. eapply nth_error_In; eauto. }
  destruct (plan_ascending _ _ _ As Hp) as [So _]. split; [exact So|].
  split; [rewrite <- Lst; exact (plan_shape _ _ _ Hp)|].
  intros i p Hi. eapply plan_needed; eauto.
Qed.

Lemma plan_readable chans start plan : Forall (mentioned (all_objs H)) chans -> NoDup chans ->
  Forall (stored (tf_bytes F) t H) chans -> same_skips plan ->
  Forall (fun br => length (br_chans br) = length chans /\ exists c s, In (Some (c, s)) (br_chans br)) plan ->
  (forall i p, nth_error chans i = Some p -> planned i plan = needed (locs_after H p) start) ->
  readable_plan (tf_bytes F) t (tf_ix F) (length chans) plan.
Proof.
  intros M ND Hst Ss Sh Hn. destruct (C14_incremental E H F Se) as [_ [_ [_ [Hb [Gp _]]]]].
  pose proof (C18_sessions E H F (session_any _ _ _ Se)) as Va.
  unfold readable_plan. apply Forall_forall. intros br Hbr. rewrite Forall_forall in Sh.
  destruct (Sh br Hbr) as [Ln [c0 [s0 Hc0]]]. split; [exact Ln|].
  destruct (Ss br Hbr) as [s Hs].
  assert (Ent : forall i ci si, nth_error (br_chans br) i = Some (Some (ci, si)) ->
     exists p l b m, nth_error chans i = Some p /\ In l (locs_after H p) /\ l_block l = br_block br /\ l_chan l = ci
       /\ s < l_n l /\ nth_error (blocks_after H) (br_block br) = Some b /\ whole_block (tf_bytes F) b
       /\ nth_error (b_chans b) ci = Some m /\ supports t (rm_type m) = true /\ l_n l = rm_n m * whole_chunks b).
  { intros i ci si Hi. assert (Hl : (i < length chans)%nat) by (rewrite <- Ln; apply nth_error_Some; congruence).
    destruct (nth_error chans i) as [p|] eqn:Hp; [|apply nth_error_None in Hp; lia].
    pose proof (planned_in i plan br ci si Hbr Hi) as Pl. rewrite (Hn i p Hp) in Pl.
    apply needed_in in Pl. destruct Pl as [l [Hin [Lb [Lc Lt]]]].
    rewrite Forall_forall in Hst. specialize (Hst p (nth_error_In _ _ Hp)). unfold stored in Hst.
    rewrite Forall_forall in Hst. destruct (Hst l Hin) as [b [m [Hb1 [Hw [Hm Ht]]]]].
    pose proof (locs_located H p) as Lo. rewrite Forall_forall in Lo. destruct (Lo l Hin) as [b' [m' [Hb2 [Hm2 Hl2]]]].
    rewrite Hb1 in Hb2. injection Hb2 as <-. rewrite Hm in Hm2. injection Hm2 as <-.
    exists p, l, b, m. rewrite <- Lb, <- Lc. rewrite (Hs _ _ _ Hi) in Lt.
    repeat (split; [first [assumption|reflexivity]|]).
    split; [now apply stored_as_supports|exact Hl2]. }
  apply In_nth_error in Hc0. destruct Hc0 as [i0 Hi0].
  destruct (Ent _ _ _ Hi0) as [p0 [l0 [b [m0 [Hp0 [Hl0 [Lb0 [Lc0 [Lt0 [Hb0 [Hw0 [Hm0 [Hs0 Ln0]]]]]]]]]]]]].
  destruct Hw0 as [n [c [Pn [Pc [Ne [Fu [Ck Pr]]]]]]].
  assert (Wc : whole_chunks b = c).
  { apply whole_chunks_of; [eapply Forall_impl; [|exact Fu]; cbv beta; tauto|apply (sub_bytes_pos n); assumption|exact Ck]. }
  exists b, n, c, s. unfold readable_block. rewrite Hb.
  do 7 (split; [assumption|]). split.
  { rewrite Wc in Ln0. rewrite Forall_forall in Fu. rewrite (proj1 (Fu m0 (nth_error_In _ _ Hm0))) in Ln0. lia. }
  split; [|split].
  - intros i ci si Hi. split; [exact (Hs _ _ _ Hi)|].
    destruct (Ent _ _ _ Hi) as [p [l [b' [m [_ [_ [_ [_ [_ [Hb' [_ [Hm [Hsu _]]]]]]]]]]]]].
    rewrite Hb0 in Hb'. injection Hb' as <-. eauto.
  - intros As. pose proof (Hs _ _ _ Hi0) as E0. subst s.
    assert (Q : (0 <? s0) = false).
    { apply not_true_iff_false. intros Q. apply not_true_iff_false in As. apply As. apply existsb_exists.
      exists (Some (c0, s0)). split; [eapply nth_error_In; eauto|exact Q]. }
    lia.
  - intros i j ci si sj Hi Hj.
    destruct (Ent _ _ _ Hi) as [p [l [_ [_ [Hp [Hl [Lb [Lc _]]]]]]]].
    destruct (Ent _ _ _ Hj) as [p' [l' [_ [_ [Hp' [Hl' [Lb' [Lc' _]]]]]]]].
    destruct (list_eq_dec Byte.byte_eq_dec p p') as [Epp|Npp].
    + subst p'. apply (proj1 (NoDup_nth_error chans) ND); [apply nth_error_Some; congruence|congruence].
    + exfalso. rewrite Forall_forall in M.
      pose proof (Gp p (M p (nth_error_In _ _ Hp))) as G1. pose proof (Gp p' (M p' (nth_error_In _ _ Hp'))) as G2.
      destruct (Va p _ G1) as [_ [_ Di]]. apply (Di p' _ l l' (not_eq_sym Npp) G2 Hl Hl'); congruence.
Qed.

(** The result of reading [chans] from [start] into [outs]. *)
Definition expected (chans : list str) (start : N) (outs : list (list V)) : list (list V) :=
  map (fun po => overlay (snd po) (firstn (length (snd po)) (skipn (N.to_nat start) (samples (fst po))))) (combine chans outs).

Lemma execute_plan chans start outs plan : length outs = length chans -> Forall (mentioned (all_objs H)) chans ->
  (forall i p, nth_error chans i = Some p -> planned i plan = needed (locs_after H p) start) ->
  fair_run (tf_bytes F) t (tf_ix F) plan (map (fun o => mkPr 0 (lenN o)) outs) ->
  execute_read_plan E (tf_bytes F) t (tf_ix F) plan outs = (expected chans start outs, Ok tt).
Proof.
  intros Lo M Hn Fr. destruct (C14_incremental E H F Se) as [_ [_ [_ [Hb [Gp _]]]]].
  set (data := map (fun p => skipn (N.to_nat start) (samples p)) chans).
  unfold execute_read_plan.
  destruct (execute_ok E (tf_bytes F) t (tf_ix F) Fx Ad data outs) with (plan := plan)
    (prs := map (fun o => mkPr 0 (lenN o)) outs) (outs := outs) as [outs' [R [Lo' No]]]; auto.
  - unfold data. rewrite map_length. congruence.
  - now rewrite map_length.
  - intros i D o0 pr o HD H0 Hpr Ho. rewrite H0 in Ho. injection Ho as <-.
    rewrite nth_error_map, H0 in Hpr. cbn [option_map] in Hpr. injection Hpr as <-.
    unfold data in HD. rewrite nth_error_map in HD. destruct (nth_error chans i) as [p|] eqn:Hp; [|discriminate].
    cbn [option_map] in HD. injection HD as <-. split; [reflexivity|].
    destruct (complete (mkPr 0 (lenN o0))) eqn:C; unfold complete in C; cbn [pr_read pr_target] in C.
    + left. split; [reflexivity|]. destruct o0 as [|x o0]; [|unfold lenN in C; cbn [length] in C; lia].
      split; [apply N.le_0_l|reflexivity].
    + right. split; [reflexivity|]. cbn [pr_read N.to_nat firstn skipn]. split; [apply N.le_0_l|]. split; [reflexivity|].
      rewrite (Hn i p Hp), Hb. symmetry. apply needed_samples. apply locs_located.
  - rewrite R. f_equal. apply nth_ext_error. intros i. unfold expected. rewrite nth_error_map.
    destruct (nth_error chans i) as [p|] eqn:Hp.
    + assert (Hl : (i < length outs)%nat) by (rewrite Lo; apply nth_error_Some; congruence).
      destruct (nth_error outs i) as [o|] eqn:Ho; [|apply nth_error_None in Ho; lia].
      rewrite (combine_nth _ _ i p o Hp Ho). cbn [option_map fst snd].
      apply No; [|exact Ho]. unfold data. now rewrite nth_error_map, Hp.
    + apply nth_error_None in Hp. rewrite (proj2 (nth_error_None outs' i)) by lia.
      rewrite (proj2 (nth_error_None (combine chans outs) i)); [reflexivity|]. rewrite combine_length. lia.
Qed.
End Session.
