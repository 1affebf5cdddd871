(** * Claim C113: several channels in step from a file that has lost its end *)
From Coq Require Import Strings.String Sorted.
From Verif Require Import Base Lib DataTypes MetaData Maps DataBlock Index RawData ChannelReader TdmsFile
  SpecIndex SpecSession SpecShortStep SpecRead Block_proofs Request_proofs Plan_proofs Read_proofs Session_proofs Parse_proofs
  Short_proofs ShortStep_proofs Index_proofs Vectors Thm_Open Thm_Index Thm_Read.
Close Scope string_scope.

Section Step.
Context (E : env) (H : list segment) (W : tfile) (f x : list byte) (t : sty) (chans : list str) (start : N)
        (outs : list (list (carrier t))).
Hypothesis (Se : session E H W) (By : tf_bytes W = f ++ x) (Fx : fixed t) (Ad : addressable E (tf_bytes W))
  (M : Forall (mentioned (all_objs H)) chans) (St : Forall (stored (tf_bytes W) t H) chans)
  (ND : NoDup chans) (Lo : length outs = length chans)
  (In_step : stay_in_step (samples_after (tf_bytes W) t H) H chans start outs).

(** The plan of the read keeps all channels in step. *)
Lemma step_plan plan : StronglySorted lt (map br_block plan) ->
  Forall (fun br => length (br_chans br) = length chans /\ exists c s, In (Some (c, s)) (br_chans br)) plan ->
  (forall i p, nth_error chans i = Some p -> planned i plan = needed (locs_after H p) start) ->
  fair_run (tf_bytes W) t (tf_ix W) plan (map (fun o => mkPr 0 (lenN o)) outs).
Proof.
  intros Ps Sh Hn.
  assert (Zero : start = 0 -> same_skips plan).
  { intros Z br Hbr. exists 0. intros i c si Hi. rewrite Forall_forall in Sh. destruct (Sh br Hbr) as [Ln _].
    destruct (nth_error chans i) as [p|] eqn:Pi.
    - pose proof (planned_in i plan br c si Hbr Hi) as X. rewrite (Hn _ _ Pi), Z in X. now apply needed_0 in X.
    - apply nth_error_None in Pi. assert (i < length (br_chans br))%nat by (apply nth_error_Some; congruence). lia. }
  assert (Rd : same_skips plan -> readable_plan (tf_bytes W) t (tf_ix W) (length chans) plan).
  { intros Ss. apply (plan_readable E H W t Se chans start); auto. }
  destruct In_step as [[Al [k Lk]]|[[Z Big]|[Il St0]]].
  - destruct (aligned_plan H chans start plan Al Ps Sh Hn) as [Ss All].
    replace (map (fun o => mkPr 0 (lenN o)) outs) with (repeat (mkPr 0 (N.of_nat k)) (length chans)).
    + apply fair_equal; auto.
    + rewrite <- Lo. clear - Lk. induction Lk as [|o outs Hk Lk IH]; [reflexivity|].
      cbn [length repeat map]. unfold lenN at 1. now rewrite Hk, IH.
  - pose proof (Zero Z) as Ss. apply (fair_roomy (tf_bytes W) t (tf_ix W) plan (length chans)); auto.
    { now rewrite map_length. }
    intros i pr Hi. rewrite nth_error_map in Hi. destruct (nth_error outs i) as [o|] eqn:Oi; [|discriminate].
    injection Hi as <-. cbn [pr_read pr_target].
    destruct (nth_error chans i) as [p|] eqn:Pi.
    2:{ apply nth_error_None in Pi. assert (i < length outs)%nat by (apply nth_error_Some; congruence). lia. }
    rewrite (Hn _ _ Pi), Z. destruct (C14_incremental E H W Se) as [_ [_ [_ [Hb [Gp _]]]]].
    rewrite Hb, needed_samples by apply locs_located. cbn [N.to_nat skipn].
    specialize (Big p o (nth_error_In _ _ (combine_nth _ _ _ _ _ Pi Oi))).
    unfold samples_after in Big. unfold lenN. change (skipn _ ?x) with x. lia.
  - assert (Ss : same_skips plan) by (destruct St0 as [Z|Al]; [now apply Zero|now destruct (aligned_plan H chans start plan Al Ps Sh Hn)]).
    apply (fair_interleaved (tf_bytes W) t (tf_ix W) plan (length chans)); auto.
    { now rewrite map_length. }
    apply Forall_forall. intros br Hbr b Hb. rewrite Forall_forall in Sh. destruct (Sh br Hbr) as [Ln [c [s Hc]]].
    apply In_nth_error in Hc. destruct Hc as [i Hi].
    assert (Hi0 : (i < length chans)%nat) by (rewrite <- Ln; apply nth_error_Some; congruence).
    destruct (nth_error chans i) as [p|] eqn:Pi; [|apply nth_error_Some in Hi0; contradiction].
    pose proof (planned_in i plan br c s Hbr Hi) as X. rewrite (Hn _ _ Pi) in X.
    apply needed_in in X. destruct X as [l [Hl [El _]]].
    apply (Il p l b); [eapply nth_error_In; eauto|exact Hl|].
    destruct (C14_incremental E H W Se) as [_ [_ [_ [Hbs _]]]]. rewrite <- Hbs. now rewrite El.
Qed.
Lemma step_read : exists outs1 r outs2,
  read_channels_from E (mkTF (tf_ix W) f) t chans start outs = (outs1, r)
  /\ read_channels_from E W t chans start outs = (outs2, Ok tt)
  /\ all_ahead (map (fun o => mkPr 0 (lenN o)) outs) outs outs1 outs2
  /\ ((r = Ok tt /\ outs1 = outs2) \/ r = EOF).
Proof.
  unfold read_channels_from, ix_read_channels_from. cbn [tf_ix tf_bytes]. rewrite (lookup_ok E H W Se) by exact M. cbn [bind].
  destruct (plan_ok E H W Se chans start M) as [plan [Hp [Ps [Sh Hn]]]]. rewrite Hp.
  pose proof (step_plan plan Ps Sh Hn) as Fr. rewrite By in Fr, Ad |- *. unfold execute_read_plan.
  apply (fair_short E f x t (tf_ix W) Fx Ad plan _ outs Fr (fits_start outs)).
Qed.
Lemma step_whole : read_channels_from E W t chans start outs = (singly E W t chans start outs, Ok tt).
Proof.
  unfold read_channels_from, ix_read_channels_from. rewrite (lookup_ok E H W Se) by exact M. cbn [bind].
  destruct (plan_ok E H W Se chans start M) as [plan [Hp [Ps [Sh Hn]]]]. rewrite Hp.
  rewrite <- (expected_singly E H W) by assumption. apply (execute_plan E H W t Se Fx Ad); auto. now apply step_plan.
Qed.
End Step.

Lemma overlay_first {A} (o D : list A) n k : (n <= length o)%nat -> (length o <= k)%nat ->
  firstn n (overlay o (firstn k D)) ++ skipn n o = overlay o (firstn n D).
Proof.
  intros Ln Lk. unfold overlay. destruct (Nat.le_gt_cases n (length D)) as [L|L].
  - rewrite firstn_app, firstn_firstn, firstn_length, (Nat.min_l n k) by lia.
    replace (n - Nat.min k (length D))%nat with 0%nat by lia. rewrite firstn_O, app_nil_r, firstn_length, Nat.min_l by lia. reflexivity.
  - rewrite (firstn_all2 (n := k) D), (firstn_all2 (n := n) D), firstn_app, firstn_all2 by lia. rewrite <- app_assoc. f_equal.
    rewrite <- (firstn_skipn (n - length D) (skipn (length D) o)) at 2. f_equal. rewrite skipn_skipn. f_equal. lia.
Qed.

(** Channels read in step from a file of which only a beginning is left: every buffer holds a first part of the
    samples asked for, the rest of it is as it was, and the read succeeds with all samples or reports the end of the file. *)
Theorem C113_first_parts : forall E H W f x t chans start outs,
  session E H W -> tf_bytes W = f ++ x -> fixed t -> addressable E (tf_bytes W) ->
  Forall (mentioned (all_objs H)) chans -> Forall (stored (tf_bytes W) t H) chans ->
  NoDup chans -> length outs = length chans ->
  stay_in_step (samples_after (tf_bytes W) t H) H chans start outs ->
  let wanted p := skipn (N.to_nat start) (samples_after (tf_bytes W) t H p) in
  exists outs' r,
    read_channels_from E (mkTF (tf_ix W) f) t chans start outs = (outs', r)
    /\ length outs' = length outs
    /\ (forall i p o, nth_error chans i = Some p -> nth_error outs i = Some o ->
          exists n, (n <= length o)%nat /\ nth_error outs' i = Some (overlay o (firstn n (wanted p)))
                    /\ (r = Ok tt -> n = length o))
    /\ (r = Ok tt \/ r = Err (EIo UnexpectedEof)).
Proof.
  intros E H W f x t chans start outs Se By Fx Ad M St ND Lo Sp. cbv zeta.
  destruct (step_read E H W f x t chans start outs Se By Fx Ad M St ND Lo Sp) as (outs1 & r & outs2 & R1 & R2 & A & Rr).
  pose proof (step_whole E H W f t chans start outs Se Fx Ad M St ND Lo Sp) as R3. rewrite R2 in R3. injection R3 as R3.
  destruct (ahead_start _ _ _ A) as [L1 [L2 K]]. exists outs1, r. split; [exact R1|]. split; [exact L1|]. split.
  - intros i p o Hp Ho.
    assert (Hi : (i < length outs)%nat) by (apply nth_error_Some; congruence).
    destruct (nth_error outs1 i) as [o1|] eqn:H1; [|apply nth_error_None in H1; lia].
    destruct (nth_error outs2 i) as [o2|] eqn:H2; [|apply nth_error_None in H2; lia].
    assert (V2 : o2 = overlay o (firstn (length o) (skipn (N.to_nat start) (samples_after (tf_bytes W) t H p)))).
    { rewrite R3 in H2. unfold singly in H2. rewrite nth_error_map, (combine_nth _ _ _ _ _ Hp Ho) in H2. cbn [option_map fst snd] in H2.
      injection H2 as <-. rewrite Forall_forall in M, St.
      rewrite (C28_window E H W t p start o Se Fx Ad (M p (nth_error_In _ _ Hp)) (St p (nth_error_In _ _ Hp))). reflexivity. }
    destruct Rr as [[-> Eq]| ->].
    + exists (length o). split; [lia|]. split; [|reflexivity]. rewrite Eq, H2 in H1. injection H1 as <-. now rewrite V2.
    + destruct (K i o o1 o2 Ho H1 H2) as [n [Ln ->]]. exists n. split; [exact Ln|]. split; [|discriminate]. f_equal. rewrite V2. apply overlay_first; lia.
  - destruct Rr as [[-> _]| ->]; [left|right]; reflexivity.
Qed.
Print Assumptions C113_first_parts.

(** [pair_file] (256 bytes) with its last 9, 20 and 129 bytes gone: a and b from sample 2. *)
Example C113_case :
  (exists H, session dbg H pair_F
    /\ Forall (mentioned (all_objs H)) [ch "g" "a"; ch "g" "b"]
    /\ Forall (stored (tf_bytes pair_F) SI32 H) [ch "g" "a"; ch "g" "b"]
    /\ stay_in_step (samples_after (tf_bytes pair_F) SI32 H) H [ch "g" "a"; ch "g" "b"] 2 [[7; 7; 7]; [8; 8; 8]]%Z)
  /\ tf_bytes pair_F = firstn 247 pair_file ++ skipn 247 pair_file
  /\ map (fun n => read_channels_from dbg (mkTF (tf_ix pair_F) (firstn n pair_file)) SI32 [ch "g" "a"; ch "g" "b"] 2
                     [[7; 7; 7]; [8; 8; 8]]%Z) [256; 247; 236; 127]%nat
     = [([[3; 4; 5]; [103; 104; 105]], Ok tt);
        ([[3; 4; 7]; [103; 104; 105]], Err (EIo UnexpectedEof));
        ([[3; 7; 7]; [103; 104; 8]], Err (EIo UnexpectedEof));
        ([[3; 7; 7]; [8; 8; 8]], Err (EIo UnexpectedEof))]%Z.
Proof.
  split; [|vm_compute; split; reflexivity].
  destruct C30_case as [[H [Se [M [St Al]]]] _]. exists H. do 3 (split; [assumption|]).
  left. split; [exact Al|]. exists 3%nat. repeat constructor.
Qed.
