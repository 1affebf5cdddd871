(** * Claim C70: what a failed read of several channels leaves in the buffers *)
From Coq Require Import Strings.String Sorting.Sorted.
From Verif Require Import Base Lib DataTypes MetaData Maps DataBlock Index RawData ChannelReader TdmsFile ReaderIO
  SpecIndex SpecSession SpecRead SpecMulti SpecReadIO ReadIO_proofs Cut_proofs Block_proofs Request_proofs Plan_proofs Read_proofs Session_proofs
  Serve_proofs Deliver_proofs MultiCut_proofs Thm_Index Thm_Read Thm_Multi Thm_MultiExact Thm_ReadIO Vectors.
Close Scope string_scope.

(** ** C70 *)
(** Whatever the device does and whenever it fails: afterwards every slot of
    every buffer holds what it held before the call or a sample of the channel
    the buffer was given for.  (The claim for one channel, C60, is stronger: there
    the buffer starts with the faultless result.) *)
Theorem C70_own_samples : forall E D cap H F t chans start outs s s' xs outs' r,
  session E H F -> fixed t -> addressable E (tf_bytes F) ->
  Forall (mentioned (all_objs H)) chans -> Forall (stored (tf_bytes F) t H) chans ->
  NoDup chans -> length outs = length chans -> lenN (tf_bytes F) <= seek_max E ->
  run_prog E D cap (tf_bytes F) (read_channels_from_p E t (tf_ix F) chans start outs) s = (s', xs, (outs', r)) ->
  length outs' = length chans
  /\ forall i p o o', nth_error chans i = Some p -> nth_error outs i = Some o -> nth_error outs' i = Some o' ->
       length o' = length o
       /\ forall a x, nth_error o' a = Some x -> nth_error o a = Some x \/ In x (samples_after (tf_bytes F) t H p).
Proof.
  intros E D cap H F t chans start outs s s' xs outs' r Se Fx Ad M St ND Lo Fits R.
  destruct (C65_own_samples E H F t chans start outs Se Fx Ad M St ND Lo) as [of [Rf [Lf Of]]].
  destruct (read_channels_pure E (tf_bytes F) t (tf_ix F) chans start outs Lost) as [w Pu].
  destruct (prog_stops _ E D cap (tf_bytes F) _ _ Fits (st_channels E t (tf_ix F) chans start outs) s Lost _ _ _ _ _ Logic.I Pu R) as [(G & _)|(_ & _ & C)].
  - unfold read_channels_from in Rf. rewrite Rf in G. injection G as <- _. split; assumption.
  - unfold read_channels_from_p in C. rewrite (lookup_ok E H F Se) in C by exact M. cbn [bind] in C.
    destruct (plan_ok E H F Se chans start M) as [plan [Hp [Ps [Sh Hn]]]]. rewrite Hp in C. unfold execute_read_plan_p in C.
    pose proof (plan_skips E H F t Se chans start plan M ND St Sh Hn) as Sk.
    destruct (C14_incremental E H F Se) as [_ [_ [_ [Hb _]]]].
    set (src := fun i => match nth_error chans i with Some p => samples_after (tf_bytes F) t H p | None => [] end).
    eapply (mcut_execute E (tf_bytes F) t (tf_ix F) Fx Ad src outs) in C.
    + destruct C as [Lc Fc]. split; [congruence|]. intros i p o o' Pi Oi Oi'. specialize (Fc i o o' Oi Oi'). unfold src in Fc. rewrite Pi in Fc. exact Fc.
    + apply Forall_forall. intros br Hbr. rewrite Forall_forall in Sk. destruct (Sk br Hbr) as [Ln (b & n & c & Sb)].
      exists b, n, c. split; [exact Sb|]. intros i ci si x Hi Hx. unfold src.
      assert (Hl : (i < length chans)%nat) by (rewrite <- Ln; apply nth_error_Some; congruence).
      destruct (nth_error chans i) as [p|] eqn:Pi; [|apply nth_error_None in Pi; lia].
      pose proof (planned_in i plan br ci si Hbr Hi) as Pl. rewrite (Hn i p Pi) in Pl.
      apply needed_in in Pl. destruct Pl as [l [Hl' [Lb [Lc _]]]].
      pose proof (locs_located H p) as Ll. rewrite Forall_forall in Ll. destruct (Ll l Hl') as [b' [m [Hb2 [Hm2 Hl2]]]].
      destruct Sb as [Bb [Pn [Pc [Ne [Fu [Ck _]]]]]]. rewrite Hb, <- Lb, Hb2 in Bb. injection Bb as ->.
      assert (Wc : whole_chunks b = c).
      { apply whole_chunks_of; [eapply Forall_impl; [|exact Fu]; cbv beta; tauto|apply (sub_bytes_pos n); assumption|exact Ck]. }
      rewrite Forall_forall in Fu. rewrite (proj1 (Fu m (nth_error_In _ _ Hm2))), Wc in Hl2.
      unfold samples_after, samples_at. apply in_concat. exists (loc_samples (tf_bytes F) t (blocks_after H) l).
      split; [now apply in_map|]. unfold loc_samples. rewrite Hb2, Lc, Hl2, N.mul_comm. exact Hx.
    + split; [now rewrite map_length|]. split; [reflexivity|]. intros i pr o0 o Pi O0 O1. rewrite O0 in O1. injection O1 as <-.
      rewrite nth_error_map, O0 in Pi. injection Pi as <-. split; [reflexivity|]. split; [reflexivity|auto].
Qed.

(** The theorem applies to a file whose channels are read out of step; the
    device fails in the middle of the second block. *)
Example C70_case :
  let chans := [ch "g" "a"; ch "g" "b"] in
  let outs := [[70; 71; 72; 73]; [80; 81; 82; 83]]%Z in
  (exists H, session dbg H offset_F /\ addressable dbg (tf_bytes offset_F)
     /\ Forall (mentioned (all_objs H)) chans /\ Forall (stored (tf_bytes offset_F) SI32 H) chans)
  /\ NoDup chans /\ lenN (tf_bytes offset_F) <= seek_max dbg
  /\ last3 (run_prog dbg (flaky 17) 8 (tf_bytes offset_F) (read_channels_from_p dbg SI32 (tf_ix offset_F) chans 2 outs) C57_used)
     = ([[4; 71; 5; 73]; [102; 103; 104; 83]]%Z, Err (EIo DeviceError)).
Proof.
  cbv zeta. split.
  - assert (O : tdms_new dbg (offset_file true) = Ok offset_F) by (vm_compute; reflexivity).
    destruct (C14_open_is_session _ _ _ O) as [H [_ [Se _]]]. exists H. split; [exact Se|].
    split; [split; vm_compute; congruence|].
    assert (Ga : get_positions (tf_ix offset_F) (ch "g" "a") = Some [mkLoc 0 0 1; mkLoc 1 1 3; mkLoc 2 1 3]) by (vm_compute; reflexivity).
    assert (Gb : get_positions (tf_ix offset_F) (ch "g" "b") = Some [mkLoc 1 0 3; mkLoc 2 0 3]) by (vm_compute; reflexivity).
    destruct (session_stored dbg _ _ H SI32 _ _ O Se Ga) as [Ma Sa]; [vm_compute; reflexivity|].
    destruct (session_stored dbg _ _ H SI32 _ _ O Se Gb) as [Mb Sb]; [vm_compute; reflexivity|].
    split; repeat constructor; assumption.
  - split; [repeat constructor; cbn [In]; intuition discriminate|]. split; [vm_compute; discriminate|]. vm_compute. reflexivity.
Qed.

Print Assumptions C70_own_samples.
