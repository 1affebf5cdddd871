(** * Claims C57-C60: reading through a buffer from a device that may fail *)
From Coq Require Import Strings.String.
From Verif Require Import Base Lib Utf8 DataTypes MetaData Maps DataBlock Index RawData ChannelReader TdmsFile
  ReaderIO SpecIndex SpecReadIO Open_proofs Plan_proofs ReadIO_proofs Cut_proofs Vectors Thm_Open Thm_Index Thm_Read
  Thm_Reopen.
Close Scope string_scope.
Local Notation a := (ch "g" "a").
Local Notation b := (ch "g" "b").

Lemma index_ends E f : build_index E f <> Diverge.
Proof. pose proof (C11_open_total E f) as H. unfold tdms_new in H. intros D. now rewrite D in H. Qed.

(** The program and the function on lists agree from any state of the stream. *)
Lemma agree A B E D cap f (p : prog (A * res B)) m s s' xs x : lenN f <= seek_max E ->
  stops snd_gave_up p -> ends m (run_pure E f p Lost) -> run_prog E D cap f p s = (s', xs, x) ->
  (x = m /\ ~ device_failed xs) \/ (device_failed xs /\ ~ reliable_reader D /\ snd x = Err (EIo DeviceError)).
Proof.
  intros Fits St [w Pu] R.
  destruct (prog_stops _ E D cap f _ _ Fits St s Lost _ _ _ _ _ Logic.I Pu R) as [(G1 & _ & G2)|(G1 & G2 & C)].
  - left. split; assumption.
  - right. split; [exact G1|]. split; [exact G2|exact (stops_cut _ _ _ _ _ St _ _ C)].
Qed.

(** ** C57 Buffering does not change what is read *)
(** On a device that never fails, whatever number of bytes it returns at a time,
    whatever the size of the buffer and whatever state earlier operations left
    the stream in: opening and reading give exactly what the model that reads
    from a list of bytes gives (about which C11-C36 speak). *)
Theorem C57_open : forall E D cap f s s' xs x,
  reliable_reader D -> lenN f <= seek_max E ->
  run_prog E D cap f (build_index_p E (S (length f))) s = (s', xs, x) ->
  tdms_new E f = (ix <- x ;; Ok (mkTF ix f)).
Proof.
  intros E D cap f s s' xs x [Rg Rs] Fits R. unfold tdms_new.
  destruct (build_index_pure E f Lost (index_ends E f)) as [w Pu].
  destruct (prog_refines E D cap f Fits _ _ s Lost _ _ _ _ _ Logic.I Pu R) as [[-> _]|[_ Fl]]; [reflexivity|].
  destruct (Fl (conj Rg Rs)).
Qed.
Theorem C57_read_channels : forall E D cap f ix t chans start outs s s' xs x,
  reliable_reader D -> lenN f <= seek_max E ->
  run_prog E D cap f (read_channels_from_p E t ix chans start outs) s = (s', xs, x) ->
  x = read_channels_from E (mkTF ix f) t chans start outs.
Proof.
  intros E D cap f ix t chans start outs s s' xs x Re Fits R.
  destruct (agree _ _ E D cap f _ _ s s' xs x Fits (st_channels E t ix chans start outs)
              (read_channels_pure E f t ix chans start outs Lost) R) as [[G _]|(_ & G & _)]; [exact G|destruct (G Re)].
Qed.
Theorem C57_read_channel : forall E D cap f ix t chan start out s s' xs x,
  reliable_reader D -> lenN f <= seek_max E ->
  run_prog E D cap f (read_channel_from_p E t ix chan start out) s = (s', xs, x) ->
  x = read_channel_from E (mkTF ix f) t chan start out.
Proof.
  intros E D cap f ix t chan start out s s' xs x Re Fits R.
  destruct (agree _ _ E D cap f _ _ s s' xs x Fits (st_channel E t ix chan start out)
              (read_channel_pure E f t ix chan start out Lost) R) as [[G _]|(_ & G & _)]; [exact G|destruct (G Re)].
Qed.

(** A device that returns at most three bytes at a time, a buffer of 8 bytes, and
    a stream left with something in its buffer. *)
Definition drip : rdevice := mkRD (fun _ _ => Some 3) (fun _ => true).
Lemma drip_reliable : reliable_reader drip.
Proof. split; [discriminate|reflexivity]. Qed.
Definition C57_file : list byte := tf_bytes C44_F.
Definition C57_used : rstate := mkRS 17 5 (firstn 9 C57_file) 2.
Definition last3 {A B C} (x : A * B * C) : C := snd x.
Example C57_case : reliable_reader drip /\ lenN C57_file <= seek_max dbg
  /\ last3 (run_prog dbg drip 8 C57_file (build_index_p dbg (S (length C57_file))) C57_used) = Ok (tf_ix C44_F)
  /\ last3 (run_prog dbg drip 8 C57_file (read_channel_from_p dbg SI32 (tf_ix C44_F) a 1 [0;0;0;0;0;0]%Z) C57_used)
     = ([3;5;9;10;0;0]%Z, Ok tt)
  /\ (rs_calls (fst (fst (run_prog dbg drip 8 C57_file (build_index_p dbg (S (length C57_file))) C57_used))) > 100)%nat.
Proof.
  split; [exact drip_reliable|]. split; [vm_compute; discriminate|]. split; [vm_compute; reflexivity|].
  split; [vm_compute; reflexivity|]. apply Nat.ltb_lt. vm_compute. reflexivity.
Qed.

(** ** C58 A read during which the device fails reports it *)
(** For any device: either no operation failed because of the device and the
    read gives what the faultless model gives, or one did and the read returns
    that error (never success). *)
Theorem C58_read_channels : forall E D cap f ix t chans start outs s s' xs x,
  lenN f <= seek_max E ->
  run_prog E D cap f (read_channels_from_p E t ix chans start outs) s = (s', xs, x) ->
  (~ device_failed xs /\ x = read_channels_from E (mkTF ix f) t chans start outs)
  \/ (device_failed xs /\ snd x = Err (EIo DeviceError)).
Proof.
  intros E D cap f ix t chans start outs s s' xs x Fits R.
  destruct (agree _ _ E D cap f _ _ s s' xs x Fits (st_channels E t ix chans start outs)
              (read_channels_pure E f t ix chans start outs Lost) R) as [[G1 G2]|(G1 & _ & G2)].
  - left. split; assumption.
  - right. split; assumption.
Qed.
Theorem C58_read_channel : forall E D cap f ix t chan start out s s' xs x,
  lenN f <= seek_max E ->
  run_prog E D cap f (read_channel_from_p E t ix chan start out) s = (s', xs, x) ->
  (~ device_failed xs /\ x = read_channel_from E (mkTF ix f) t chan start out)
  \/ (device_failed xs /\ snd x = Err (EIo DeviceError)).
Proof.
  intros E D cap f ix t chan start out s s' xs x Fits R.
  destruct (agree _ _ E D cap f _ _ s s' xs x Fits (st_channel E t ix chan start out)
              (read_channel_pure E f t ix chan start out Lost) R) as [[G1 G2]|(G1 & _ & G2)].
  - left. split; assumption.
  - right. split; assumption.
Qed.
(** The stream is usable again afterwards: the theorems above hold from any
    state, in particular from the one a failed read left behind.  Here the read
    fails in call 15 of the device and is simply repeated. *)
Definition flaky (k : nat) : rdevice := mkRD (fun n _ => if Nat.eqb n k then None else Some 3) (fun _ => true).
Example C58_case :
  let read := read_channel_from_p dbg SI32 (tf_ix C44_F) a 1 [0;0;0;0;0;0]%Z in
  let '(s1, xs1, x1) := run_prog dbg (flaky 15) 8 C57_file read C57_used in
  let '(s2, xs2, x2) := run_prog dbg (flaky 15) 8 C57_file read s1 in
  device_failed xs1 /\ snd x1 = Err (EIo DeviceError) /\ ~ device_failed xs2 /\ x2 = ([3;5;9;10;0;0]%Z, Ok tt).
Proof.
  vm_compute. split; [repeat (first [left; reflexivity|right])|]. split; [reflexivity|]. split; [|reflexivity].
  intros H. repeat (destruct H as [H|H]; [discriminate H|]). exact H.
Qed.

(** ** C59 Opening on a failing device *)
(** Opening returns the faultless result or the error of the device; the one
    exception is a failing seek to the next segment, which the code takes for
    the end of the file: then it may return an index of only the first segments
    (the refutation below). *)
Theorem C59_open_partial : forall E D cap f s s' xs x,
  lenN f <= seek_max E ->
  run_prog E D cap f (build_index_p E (S (length f))) s = (s', xs, x) ->
  (~ device_failed xs /\ tdms_new E f = (ix <- x ;; Ok (mkTF ix f)))
  \/ (device_failed xs
      /\ (x = Err (EIo DeviceError)
          \/ ((exists n, rd_seeks D n = false)
              /\ exists ix K, x = Ok ix /\ K <> [] /\ accepted E K ix /\ first_segments E f K))).
Proof.
  intros E D cap f s s' xs x Fits R.
  destruct (open_run E D cap f Fits s s' xs x (index_ends E f) R) as [[-> G]|[G Q]].
  - left. split; [exact G|reflexivity].
  - right. split; [exact G|exact Q].
Qed.
(** With a device whose seeks work, opening reports every failure. *)
Theorem C59_seeks_work : forall E D cap f s s' xs x,
  lenN f <= seek_max E -> (forall n, rd_seeks D n = true) ->
  run_prog E D cap f (build_index_p E (S (length f))) s = (s', xs, x) ->
  (~ device_failed xs /\ tdms_new E f = (ix <- x ;; Ok (mkTF ix f)))
  \/ (device_failed xs /\ x = Err (EIo DeviceError)).
Proof.
  intros E D cap f s s' xs x Fits Rs R. destruct (C59_open_partial E D cap f s s' xs x Fits R) as [G|[G1 [G2|[[n G2] _]]]].
  - left. exact G.
  - right. split; assumption.
  - rewrite Rs in G2. discriminate.
Qed.
Example C59_case :
  (forall n, rd_seeks (flaky 21) n = true)
  /\ match run_prog dbg (flaky 21) 8 C57_file (build_index_p dbg (S (length C57_file))) C57_used with
     | (_, xs, x) => device_failed xs /\ x = Err (EIo DeviceError)
     end.
Proof. split; [reflexivity|]. vm_compute. split; [repeat (first [left; reflexivity|right])|reflexivity]. Qed.
(** The property "opening reports every failure of the device" is false: here
    one seek fails, opening succeeds, and the channel has 3 values instead of 5. *)
Definition bad_seek (k : nat) : rdevice := mkRD (fun _ _ => Some 3) (fun n => negb (Nat.eqb n k)).
Theorem C59_swallowed_refuted : exists D cap f s,
  lenN f <= seek_max dbg /\
  match run_prog dbg D cap f (build_index_p dbg (S (length f))) s with
  | (_, xs, Ok ix) => device_failed xs
      /\ channel_length dbg (mkTF ix f) a = Ok (Some 3)
      /\ channel_length dbg (open_bytes dbg f) a = Ok (Some 5)
  | _ => False
  end.
Proof.
  exists (bad_seek 42), 8, C57_file, C57_used. split; [vm_compute; discriminate|]. vm_compute.
  split; [repeat (first [left; reflexivity|right])|]. split; reflexivity.
Qed.

(** ** C60 A failed read of a channel leaves only right values *)
(** Whatever the device does, after [read_channel_from] the buffer holds the
    first [k] values of the faultless result and its old contents after them. *)
Theorem C60_prefix : forall E D cap f ix t chan start out s s' xs out' r,
  lenN f <= seek_max E ->
  run_prog E D cap f (read_channel_from_p E t ix chan start out) s = (s', xs, (out', r)) ->
  exists k, (k <= length out)%nat
    /\ out' = firstn k (fst (read_channel_from E (mkTF ix f) t chan start out)) ++ skipn k out.
Proof.
  intros E D cap f ix t chan start out s s' xs out' r Fits R.
  destruct (read_channel_pure E f t ix chan start out Lost) as [w Pu].
  (* what the faultless read leaves *)
  assert (Pure : exists v, (length v <= length out)%nat /\ fst (read_channel_from E (mkTF ix f) t chan start out) = splice out 0 v).
  { unfold read_channel_from. cbn [tf_ix tf_bytes].
    assert (Nil : exists v, (length v <= length out)%nat /\ out = splice out 0 v) by (exists []; rewrite splice_nil; cbn [length]; split; [lia|reflexivity]).
    destruct (get_positions ix chan) as [l|]; [|exact Nil].
    destruct (read_plan [l] [start]) as [plan|y|y|] eqn:Pl; try exact Nil.
    unfold execute_read_plan. destruct (execute E f t ix plan _ [out]) as [outs r'] eqn:Ex. cbn [map] in Ex.
    apply execute_one in Ex; cbn [pr_read pr_target] in *; try reflexivity; try lia.
    - destruct Ex as [v [L ->]]. exists v. split; [unfold lenN in L; lia|reflexivity].
    - unfold read_plan in Pl. apply plan_shape in Pl. eapply Forall_impl; [|exact Pl]. cbn. intros br [H _]. exact H. }
  assert (Splice : forall v : list (carrier t), splice out 0 v = v ++ skipn (length v) out) by reflexivity.
  destruct (prog_stops _ E D cap f _ _ Fits (st_channel E t ix chan start out) s Lost _ _ _ _ _ Logic.I Pu R) as [(G & _)|(_ & _ & C)].
  - apply (f_equal fst) in G. cbn [fst] in G. subst out'. destruct Pure as [v [L ->]]. exists (length out). split; [lia|].
    rewrite skipn_all, app_nil_r, firstn_all2; [reflexivity|]. rewrite Splice, app_length, skipn_length. lia.
  - unfold read_channel_from_p in C. unfold read_channel_from. cbn [tf_ix tf_bytes].
    destruct (get_positions ix chan) as [l|]; [|destruct (cut_ret _ _ _ _ _ _ C)].
    destruct (read_plan [l] [start]) as [plan|y|y|] eqn:Pl; try destruct (cut_ret _ _ _ _ _ _ C).
    apply cut_bind in C. destruct C as [[[outs y] [C Q]]|[z [w1 [_ C]]]]; [|destruct (cut_ret _ _ _ _ _ _ C)].
    cbn [fst snd] in Q. injection Q as <- _. unfold execute_read_plan_p, execute_read_plan in *. cbn [map] in *.
    apply cut_execute in C; cbn [pr_read pr_target] in *; try reflexivity; try lia.
    + destruct C as (v & rest & L & -> & Ex). destruct (execute E f t ix plan _ [out]) as [op rp]. cbn [fst] in Ex. subst op.
      cbn [hd fst]. rewrite !Splice. unfold lenN in L. rewrite app_length in L. exists (length v). split; [lia|]. f_equal.
      rewrite <- app_assoc, firstn_app, Nat.sub_diag, firstn_all. cbn [firstn]. symmetry. apply app_nil_r.
    + unfold read_plan in Pl. apply plan_shape in Pl. eapply Forall_impl; [|exact Pl]. cbn. intros br [H _]. exact H.
Qed.
(** The read interrupted after its first block. *)
Example C60_case : lenN C57_file <= seek_max dbg
  /\ fst (last3 (run_prog dbg (flaky 15) 8 C57_file (read_channel_from_p dbg SI32 (tf_ix C44_F) a 1 [70;71;72;73;74;75]%Z) C57_used))
     = [3;5;72;73;74;75]%Z
  /\ fst (read_channel_from dbg (mkTF (tf_ix C44_F) C57_file) SI32 a 1 [70;71;72;73;74;75]%Z) = [3;5;9;10;74;75]%Z.
Proof. split; [vm_compute; discriminate|]. split; vm_compute; reflexivity. Qed.

Print Assumptions C57_open.
Print Assumptions C57_read_channels.
Print Assumptions C57_read_channel.
Print Assumptions C58_read_channels.
Print Assumptions C58_read_channel.
Print Assumptions C59_open_partial.
Print Assumptions C59_seeks_work.
Print Assumptions C59_swallowed_refuted.
Print Assumptions C60_prefix.
