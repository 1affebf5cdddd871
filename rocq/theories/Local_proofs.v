(** * Reads need only the blocks they cover *)
From Coq Require Import Sorting.Sorted.
From Verif Require Import Base Lib DataTypes MetaData Maps DataBlock Index RawData ChannelReader TdmsFile
  SpecIndex SpecSession SpecRead SpecLocal Block_proofs Request_proofs Plan_proofs Read_proofs Session_proofs
  Thm_Index.

(** The plan of one channel, from what it needs. *)
Definition entry (x : nat * nat * N) : blockread := mkBR (fst (fst x)) [Some (snd (fst x), snd x)].
Lemma single_plan : forall plan,
  Forall (fun br => length (br_chans br) = 1%nat /\ exists c s, In (Some (c, s)) (br_chans br)) plan ->
  plan = map entry (planned 0 plan).
Proof.
  induction 1 as [|br plan [Ln [c [s Hin]]] _ IH]; [reflexivity|].
  destruct br as [b chans]. cbn [br_chans] in *. destruct chans as [|x [|]]; try discriminate.
  destruct Hin as [->|[]]. unfold planned. cbn [flat_map br_chans nth_error map app].
  fold (planned 0 plan). rewrite IH at 1. reflexivity.
Qed.

Section Local.
Context (E : env) (H : list segment) (F : tfile) (t : sty).
Hypothesis (Se : session E H F) (Fx : fixed t) (Ad : addressable E (tf_bytes F)).

Lemma fair_touched : forall ls s pr, Forall (located (blocks_after H)) ls ->
  Forall (stored_at (tf_bytes F) t H) (touched ls s (pr_target pr - pr_read pr)) ->
  fair_run (tf_bytes F) t (tf_ix F) (map entry (needed ls s)) [pr].
Proof.
  destruct (C14_incremental E H F Se) as [_ [_ [_ [Hb _]]]].
  induction ls as [|l ls IH]; intros s pr Lo St; cbn [needed touched] in *; [exact Logic.I|].
  inversion Lo as [|y l0 Ll Lr]; subst y l0.
  destruct (l_n l <=? s) eqn:Q; [now apply IH|].
  inversion St as [|y l0 [b [m [Hb1 [[n [c [Pn [Pc [Ne [Fu [Ck Pr]]]]]]] [Hm Ht]]]]] Sr]; subst y l0.
  destruct Ll as [b' [m' [Hb2 [Hm2 Hl2]]]]. rewrite Hb1 in Hb2. injection Hb2 as <-. rewrite Hm in Hm2. injection Hm2 as <-.
  assert (Wc : whole_chunks b = c).
  { apply whole_chunks_of; [eapply Forall_impl; [|exact Fu]; cbv beta; tauto|apply (sub_bytes_pos n); assumption|exact Ck]. }
  assert (Nm : rm_n m = n) by (rewrite Forall_forall in Fu; exact (proj1 (Fu m (nth_error_In _ _ Hm)))).
  rewrite Wc, Nm in Hl2. cbn [map fair_run]. unfold entry at 1 2 3 4 5. cbn [fst snd].
  exists b, n, c, s. split.
  { unfold readable_block. cbn [br_block br_chans]. rewrite Hb. do 7 (split; [assumption|]). split; [lia|].
    split; [|split].
    - intros [|[|i]] ci si Hi; cbn [nth_error] in Hi; try discriminate. injection Hi as <- <-.
      split; [reflexivity|]. exists m. split; [exact Hm|]. now apply stored_as_supports.
    - intros As. unfold any_skip in As. cbn [existsb] in As. rewrite orb_false_r in As. lia.
    - intros i j ci si sj Hi Hj. destruct i as [|[|i]], j as [|[|j]]; try discriminate; reflexivity. }
  split; [reflexivity|]. intros k Kc. cbn [block_requests advance br_chans] in *.
  destruct (complete pr) eqn:Cp.
  - split; [intros q []|]. intros X. exfalso. cbn [forallb] in X. rewrite andb_true_r in X.
    unfold complete in *. cbn [pr_read pr_target] in X. lia.
  - set (rq := mkReq (l_chan l) (N.to_nat (pr_target pr - pr_read pr)) s) in *.
    assert (Kv : k = N.min (pr_target pr - pr_read pr) (c * n - s)).
    { destruct Kc as [_ Kc]. specialize (Kc ltac:(discriminate)).
      destruct (b_layout b); destruct Kc as [q [[<-|[]] [_ ->]]]; unfold rq; cbn [rq_room]; lia. }
    split.
    + intros q [<-|[]]. unfold rq. cbn [rq_room]. lia.
    + intros X. cbn [forallb] in X. rewrite andb_true_r in X. unfold complete in X. cbn [pr_read pr_target] in X.
      apply IH; [exact Lr|]. cbn [pr_read pr_target].
      destruct (pr_target pr - pr_read pr <=? l_n l - s) eqn:Q2; [lia|].
      replace (pr_target pr - (pr_read pr + k)) with (pr_target pr - pr_read pr - (l_n l - s)) by lia. exact Sr.
Qed.

Lemma read_touched p start out : mentioned (all_objs H) p ->
  Forall (stored_at (tf_bytes F) t H) (touched (locs_after H p) start (lenN out)) ->
  read_channel_from E F t p start out
  = (overlay out (firstn (length out) (skipn (N.to_nat start) (samples_after (tf_bytes F) t H p))), Ok tt).
Proof.
  intros M St. unfold read_channel_from. destruct (session_locs E H F p Se M) as [-> _].
  assert (Mf : Forall (mentioned (all_objs H)) [p]) by (repeat constructor; exact M).
  destruct (plan_ok E H F Se [p] start Mf) as [plan [Hp [Ps [Sh Hn]]]]. cbn [map length repeat] in Hp. rewrite Hp.
  rewrite (execute_plan E H F t Se Fx Ad [p] start [out] plan); auto.
  pose proof (single_plan plan Sh) as Sp. rewrite (Hn 0%nat p eq_refl) in Sp. rewrite Sp. cbn [map].
  apply fair_touched; [apply locs_located|]. cbn [pr_read pr_target]. now rewrite N.sub_0_r.
Qed.
End Local.
