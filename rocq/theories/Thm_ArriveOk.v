(** * Claim C115: when channels in the same blocks are read without error from a file that has lost its end *)
From Coq Require Import Strings.String Sorted.
From Verif Require Import Base Lib DataTypes MetaData Maps DataBlock Index RawData ChannelReader TdmsFile
  SpecIndex SpecSession SpecShortStep SpecCutFile SpecArrive SpecRead Block_proofs Request_proofs Plan_proofs Read_proofs Session_proofs Parse_proofs
  Short_proofs ShortStep_proofs ArriveRun_proofs Told_proofs Again_proofs Index_proofs Vectors Thm_Open Thm_Index Thm_Read Thm_CutFile Thm_ShortStep.
Close Scope string_scope.

(** Channels in the same blocks with equal buffers that are not empty: the read succeeds exactly if the samples asked
    for of all channels are in the file, and with them the sample behind the window of each channel if the window ends
    inside an interleaved block. *)
Theorem C115_succeeds : forall E H W f x t chans start outs k,
  session E H W -> tf_bytes W = f ++ x -> fixed t -> addressable E (tf_bytes W) ->
  Forall (mentioned (all_objs H)) chans -> Forall (stored (tf_bytes W) t H) chans ->
  NoDup chans -> chans <> [] -> length outs = length chans ->
  same_places H chans -> Forall (fun o => length o = k) outs -> (0 < k)%nat ->
  snd (read_channels_from E (mkTF (tf_ix W) f) t chans start outs) = Ok tt
  <-> forall p q, In p chans -> In q (looked_at (blocks_after H) (needed (locs_after H p) start) k) ->
        snd q + size_bytes t <= lenN f.
Proof.
  intros E H W f x t chans start outs k Se By Fx Ad M St ND Ne Lo Al Lk Hk.
  unfold read_channels_from, ix_read_channels_from. cbn [tf_ix tf_bytes]. rewrite (lookup_ok E H W Se) by exact M. cbn [bind].
  destruct (plan_ok E H W Se chans start M) as [plan [Hpl [Ps [Sh Hn]]]]. rewrite Hpl.
  destruct (aligned_plan H chans start plan Al Ps Sh Hn) as [Ss All].
  assert (R : readable_plan (tf_bytes W) t (tf_ix W) (length chans) plan) by (apply (plan_readable E H W t Se chans start); auto).
  rewrite By in R, Ad. destruct (C14_incremental E H W Se) as [_ [_ [_ [Hb _]]]].
  unfold execute_read_plan.
  replace (map (fun o => mkPr 0 (lenN o)) outs) with (repeat (mkPr 0 (N.of_nat k)) (length chans)).
  2:{ rewrite <- Lo. clear - Lk. induction Lk as [|o outs Hk Lk IH]; [reflexivity|].
      cbn [length repeat map]. unfold lenN at 1. now rewrite Hk, IH. }
  assert (Nch : (0 < length chans)%nat) by (destruct chans; [congruence|cbn [length]; lia]).
  assert (C : complete (mkPr 0 (N.of_nat k)) = false) by (unfold complete; cbn [pr_read pr_target]; lia).
  rewrite (exec_ok E f x t (tf_ix W) (length chans) Fx Ad Nch plan _ outs R All C).
  unfold room_of. cbn [pr_read pr_target]. rewrite N.sub_0_r, Nat2N.id, Hb. split.
  - intros X p q Hp Hq. destruct (In_nth_error _ _ Hp) as [i Hi]. 
    assert (Li : (i < length chans)%nat) by (apply nth_error_Some; congruence). specialize (X i Li).
    rewrite (Hn _ _ Hi), Forall_forall in X. specialize (X q Hq). unfold present in X. lia.
  - intros X i Hi. destruct (nth_error chans i) as [p|] eqn:Pi; [|apply nth_error_None in Pi; lia].
    rewrite (Hn _ _ Pi). apply Forall_forall. intros q Hq. specialize (X p q (nth_error_In _ _ Pi) Hq). unfold present. lia.
Qed.
Print Assumptions C115_succeeds.

(** So it succeeds exactly if the reads of the single channels do. *)
Theorem C115_singly : forall E H W f x t chans start outs k,
  session E H W -> tf_bytes W = f ++ x -> fixed t -> addressable E (tf_bytes W) ->
  Forall (mentioned (all_objs H)) chans -> Forall (stored (tf_bytes W) t H) chans ->
  NoDup chans -> chans <> [] -> length outs = length chans ->
  same_places H chans -> Forall (fun o => length o = k) outs -> (0 < k)%nat ->
  snd (read_channels_from E (mkTF (tf_ix W) f) t chans start outs) = Ok tt
  <-> forall p o, In (p, o) (combine chans outs) -> snd (read_channels_from E (mkTF (tf_ix W) f) t [p] start [o]) = Ok tt.
Proof.
  intros E H W f x t chans start outs k Se By Fx Ad M St ND Ne Lo Al Lk Hk.
  rewrite (C115_succeeds E H W f x t chans start outs k) by assumption.
  assert (One : forall p o, In p chans -> In o outs -> (snd (read_channels_from E (mkTF (tf_ix W) f) t [p] start [o]) = Ok tt
            <-> forall q, In q (looked_at (blocks_after H) (needed (locs_after H p) start) k) -> snd q + size_bytes t <= lenN f)).
  { intros p o Hp Ho. rewrite Forall_forall in M, St, Lk.
    rewrite (C115_succeeds E H W f x t [p] start [o] k); auto; try discriminate.
    - split; [intros X q; apply X; now left|]. intros X p' q [<-|[]]. apply X.
    - repeat constructor. intros [].
    - intros a b [<-|[]] [<-|[]]. reflexivity. }
  split.
  - intros X p o Hin. apply One; [eapply in_combine_l; eauto|eapply in_combine_r; eauto|]. intros q. apply X. eapply in_combine_l; eauto.
  - intros X p q Hp. destruct (In_nth_error _ _ Hp) as [i Hi].
    destruct (nth_error outs i) as [o|] eqn:Oi.
    2:{ apply nth_error_None in Oi. assert (i < length chans)%nat by (apply nth_error_Some; congruence). lia. }
    revert q. apply (One p o Hp (nth_error_In _ _ Oi)). apply X. eapply nth_error_In. eapply combine_nth; eassumption.
Qed.
Print Assumptions C115_singly.

(** a and b of [C113_case].  One sample from number 2 on is in the first block, contiguous: that of b ends at byte 128.  One
    sample from number 3 on is in the second block, interleaved: that of a ends at byte 240, but the next one is read as well. *)
Example C115_case :
  (exists H, session dbg H pair_F /\ tf_bytes pair_F = firstn 247 pair_file ++ skipn 247 pair_file
    /\ Forall (mentioned (all_objs H)) [ch "g" "a"; ch "g" "b"]
    /\ Forall (stored (tf_bytes pair_F) SI32 H) [ch "g" "a"; ch "g" "b"]
    /\ same_places H [ch "g" "a"; ch "g" "b"]
    /\ map (fun s => map snd (looked_at (blocks_after H) (needed (locs_after H (ch "g" "a")) s) 1)) [2; 3] = [[112]; [236; 244]]
    /\ map (fun s => map snd (looked_at (blocks_after H) (needed (locs_after H (ch "g" "b")) s) 1)) [2; 3] = [[124]; [232; 240]])
  /\ map (fun n => (snd (read_channels_from dbg (mkTF (tf_ix pair_F) (firstn n pair_file)) SI32 [ch "g" "a"; ch "g" "b"] 2 [[7]; [8]]%Z),
                    snd (read_channels_from dbg (mkTF (tf_ix pair_F) (firstn n pair_file)) SI32 [ch "g" "a"; ch "g" "b"] 3 [[7]; [8]]%Z)))
       [127; 128; 247; 248]%nat
     = [(Err (EIo UnexpectedEof), Err (EIo UnexpectedEof)); (Ok tt, Err (EIo UnexpectedEof));
        (Ok tt, Err (EIo UnexpectedEof)); (Ok tt, Ok tt)].
Proof.
  split; [|vm_compute; reflexivity].
  destruct C30_case as [[H [Se [M [St Al]]]] _]. exists H. split; [exact Se|]. split; [vm_compute; reflexivity|]. do 3 (split; [assumption|]).
  destruct (C14_incremental _ _ _ Se) as [_ [_ [_ [Bs [Gp _]]]]].
  assert (Ga : locs_after H (ch "g" "a") = [mkLoc 0 0 3; mkLoc 1 1 3]).
  { assert (X : get_positions (tf_ix pair_F) (ch "g" "a") = Some [mkLoc 0 0 3; mkLoc 1 1 3]) by (vm_compute; reflexivity).
    rewrite (Gp _ (Forall_inv M)) in X. now apply some_eq in X. }
  assert (Gb : locs_after H (ch "g" "b") = [mkLoc 0 1 3; mkLoc 1 0 3]).
  { assert (X : get_positions (tf_ix pair_F) (ch "g" "b") = Some [mkLoc 0 1 3; mkLoc 1 0 3]) by (vm_compute; reflexivity).
    rewrite (Gp _ (Forall_inv (Forall_inv_tail M))) in X. now apply some_eq in X. }
  rewrite Ga, Gb, <- Bs. clear. vm_compute. split; reflexivity.
Qed.
