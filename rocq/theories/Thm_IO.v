(** * Claims C53-C56: writing through a buffer to a device that may fail *)
From Coq Require Import Strings.String.
From Verif Require Import Base Lib Utf8 DataTypes MetaData Maps DataBlock Index RawData ChannelReader TdmsFile
  WriterIO SpecCodec SpecIndex SpecSession SpecRead SpecWrite SpecLocal SpecIO Open_proofs Session_proofs Write_proofs
  Program_proofs Reopen_proofs IO_proofs Vectors Thm_Open Thm_Index Thm_Read Thm_Write Thm_Reopen.
Close Scope string_scope.
Local Notation a := (ch "g" "a").
Local Notation b := (ch "g" "b").

Lemma fresh_writes cap F : writes_to cap (fresh_writer F) F.
Proof.
  unfold writes_to, fresh_writer, handed. cbn [ws_ix ws_w bw_dev bw_buf dv_bytes].
  split; [reflexivity|]. split; [apply app_nil_r|]. unfold lenN. cbn. lia.
Qed.

(** ** C53 Buffering does not change what is written *)
(** On a device that never refuses to write, whatever pieces it takes at a time
    and whatever the size of the buffer: the results of the calls, the index and,
    once the writer is dropped, the bytes are those of the model that appends
    each segment at once (about which C37-C50 speak). *)
Theorem C53_buffering_transparent : forall E D cap F ops s' xs F' ys,
  reliable D ->
  run_ops E D cap (fresh_writer F) ops = (s', xs) -> run_calls E F (calls_of ops) = (F', ys) ->
  after_drop D s' = tf_bytes F' /\ ws_ix s' = tf_ix F'
  /\ call_results ops xs = ys
  /\ forall i, nth_error ops i = Some IoSync -> nth_error xs i = Some (Ok tt).
Proof.
  intros E D cap F ops s' xs F' ys R H C.
  destruct (ops_spec E D cap ops (fresh_writer F) F true s' xs F' ys (fresh_writes cap F) (fun _ => eq_refl)
              (or_intror R) H C) as ((W1 & W2 & _) & O & Y).
  split; [|split; [exact W1|split; [exact O|exact (Y R)]]].
  unfold after_drop. destruct (drop_spec D (ws_w s')) as (_ & _ & P & _). rewrite (P R). exact W2.
Qed.

(** A device taking at most seven bytes at a time, a buffer of 16 bytes. *)
Definition slow : device := mkDevice (fun _ _ => Some 7) (fun _ => true).
Lemma slow_reliable : reliable slow.
Proof. split; [intros; exists 7; split; [reflexivity|lia]|reflexivity]. Qed.
Definition C53_ops : list io_op :=
  match map IoCall C40_prog with
  | c1 :: c2 :: c3 :: r => c1 :: IoSync :: c2 :: IoNew :: c3 :: IoSync :: IoSync :: r
  | l => l
  end.
Example C53_case : reliable slow
  /\ calls_of C53_ops = C40_prog
  /\ snd (run_ops dbg slow 16 (fresh_writer empty_file) C53_ops) = repeat (Ok tt) 10
  /\ after_drop slow (fst (run_ops dbg slow 16 (fresh_writer empty_file) C53_ops))
     = tf_bytes (fst (run_calls dbg empty_file C40_prog))
  /\ (dv_calls (bw_drop slow (ws_w (fst (run_ops dbg slow 16 (fresh_writer empty_file) C53_ops)))) > 50)%nat.
Proof.
  split; [exact slow_reliable|]. split; [reflexivity|]. vm_compute.
  split; [reflexivity|]. split; [reflexivity|]. repeat constructor.
Qed.

(** ** C54 A successful sync puts everything on the device *)
(** For any device: if no call failed because of it, and writers were dropped
    only right after a successful sync, then after a successful sync the device
    holds exactly the bytes of the faultless run.  Failed syncs in between do no
    harm. *)
Theorem C54_synced : forall E D cap F ops s' xs F' ys,
  run_ops E D cap (fresh_writer F) (ops ++ [IoSync]) = (s', xs ++ [Ok tt]) ->
  List.length xs = List.length ops -> clean true ops xs ->
  run_calls E F (calls_of ops) = (F', ys) ->
  on_device s' = tf_bytes F' /\ after_drop D s' = tf_bytes F' /\ ws_ix s' = tf_ix F'
  /\ call_results ops xs = ys.
Proof.
  intros E D cap F ops s' xs F' ys H L Cl C. rewrite run_ops_app in H.
  destruct (run_ops E D cap (fresh_writer F) ops) as [s1 xs1] eqn:E1.
  cbn [run_ops do_op] in H. destruct (sync_io D s1) as [s2 x] eqn:Es. injection H as -> Hx.
  apply app_inj_tail in Hx. destruct Hx as [-> ->].
  destruct (ops_spec E D cap ops (fresh_writer F) F true s1 xs F' ys (fresh_writes cap F) (fun _ => eq_refl)
              (or_introl Cl) E1 C) as (W & O & _).
  destruct (sync_op_spec D cap s1 F' s' (Ok tt) W Es) as ((W1 & W2 & _) & B & _).
  specialize (B eq_refl). unfold handed in W2. rewrite B, app_nil_r in W2.
  split; [exact W2|]. split; [|split; [exact W1|exact O]].
  unfold after_drop. destruct (drop_spec D (ws_w s')) as (_ & _ & _ & P). rewrite (P B). exact W2.
Qed.

(** What is on the device stays there, whatever the device does afterwards: so
    what was synced is never lost. *)
Theorem C54_stays : forall E D cap s ops s' xs,
  run_ops E D cap s ops = (s', xs) ->
  prefix (on_device s) (on_device s') /\ prefix (on_device s') (after_drop D s').
Proof.
  intros E D cap s ops s' xs H. split; [exact (ops_grow _ _ _ _ _ _ _ H)|].
  exact (proj1 (drop_spec D (ws_w s'))).
Qed.

(** A device that fails in its third and fourth call. *)
Definition hiccup : device :=
  mkDevice (fun n _ => if Nat.eqb n 2 || Nat.eqb n 3 then None else Some 30) (fun _ => true).
Definition C54_ops : list io_op :=
  match map IoCall C40_prog with
  | c1 :: r => c1 :: IoSync :: IoSync :: r
  | l => l
  end.
Example C54_case :
  let '(s', xs) := run_ops dbg hiccup 8192 (fresh_writer empty_file) (C54_ops ++ [IoSync; IoNew; IoSync]) in
  clean true (C54_ops ++ [IoSync; IoNew]) (removelast xs)
  /\ xs = [Ok tt; Err (EIo DeviceError); Err (EIo DeviceError); Ok tt; Ok tt; Ok tt; Ok tt; Ok tt; Ok tt; Ok tt; Ok tt]
  /\ on_device s' = tf_bytes (fst (run_calls dbg empty_file C40_prog)).
Proof. vm_compute. repeat split; discriminate. Qed.

(** Without a sync an acknowledged write may be lost: dropping the writer ignores
    the errors of the device.  Here every call returned [Ok], the session lists the
    samples, and the file is empty. *)
Definition full_disk : device := mkDevice (fun _ _ => None) (fun _ => true).
Theorem C54_unsynced_refuted : exists D ops s' xs,
  run_ops dbg D 8192 (fresh_writer empty_file) ops = (s', xs) /\ xs = [Ok tt; Ok tt]
  /\ channel_length dbg (mkTF (ws_ix s') (after_drop D s')) a = Ok (Some 3)
  /\ after_drop D s' = [].
Proof.
  exists full_disk, [IoCall (CallChans LittleE SI32 [a] [1; 2; 3]%Z Interleaved); IoNew].
  eexists. eexists. split; [vm_compute; reflexivity|]. vm_compute. repeat split.
Qed.

(** ** C55 A failing device receives only a beginning of what a faultless one would *)
(** As long as no call has failed because of the device, and in the first call
    that does: what the device holds, also after dropping the writer, is a
    beginning of what the calls write on a faultless device. *)
Theorem C55_only_a_prefix : forall E D cap F ops c s1 xs F1 ys s' x,
  run_ops E D cap (fresh_writer F) ops = (s1, xs) -> clean true ops xs ->
  run_calls E F (calls_of ops) = (F1, ys) ->
  do_op E D cap s1 (IoCall c) = (s', x) ->
  prefix (on_device s1) (after_drop D s')
  /\ prefix (after_drop D s') (tf_bytes (fst (do_call E F1 c)))
  /\ (device_error x \/ (ws_ix s' = tf_ix (fst (do_call E F1 c)) /\ x = snd (do_call E F1 c))).
Proof.
  intros E D cap F ops c s1 xs F1 ys s' x H Cl C O.
  destruct (ops_spec E D cap ops (fresh_writer F) F true s1 xs F1 ys (fresh_writes cap F) (fun _ => eq_refl)
              (or_introl Cl) H C) as (W & _ & _).
  pose proof (op_grows _ _ _ _ _ _ _ O) as G.
  destruct (drop_spec D (ws_w s')) as (P1 & P2 & _).
  destruct (call_spec E D cap s1 F1 c s' x W O) as (_ & _ & P3 & P4).
  split; [eapply prefix_trans; eassumption|]. split; [eapply prefix_trans; eassumption|].
  destruct x as [u|[]| |]; try (right; destruct P4 as [P4 P5]; [left; discriminate|]; exact (conj (proj1 P4) P5)).
  destruct k; try (right; destruct P4 as [P4 P5]; [left; discriminate|]; exact (conj (proj1 P4) P5)).
  left. reflexivity.
Qed.

(** So the analysis of cut files (C46) covers devices that fail: with a writer on
    a complete file, after one call whose outcome is [x] and dropping the writer,
    the file opens as before the call, or as after it, or the end of its metadata
    is missing.  (The hypotheses on the call are those of C46.) *)
Theorem C55_reopen_partial : forall E D cap f H F cl F' s' x,
  tdms_new E f = Ok F -> file_segments E f H -> ix_next (tf_ix F) = lenN f -> lenN f <= seek_max E ->
  good_call E cl -> zero_if_left_out E (active_after H) cl -> do_call E F cl = (F', Ok tt) ->
  do_op E D cap (fresh_writer F) (IoCall cl) = (s', x) ->
  let g := after_drop D s' in
  tdms_new E g = Ok (mkTF (tf_ix F) g) \/ tdms_new E g = Ok (mkTF (tf_ix F') g)
  \/ tdms_new E g = Err (EIo UnexpectedEof).
Proof.
  intros E D cap f H F cl F' s' x Op Fs Hn Hm Gc Zl Ew O. cbv zeta.
  destruct (C46_cut_partial E f H F cl F' Op Fs Hn Hm Gc Zl Ew) as [head [_ [_ [_ C]]]].
  destruct (C55_only_a_prefix E D cap F [] cl (fresh_writer F) [] F [] s' x eq_refl Logic.I eq_refl O) as (P1 & P2 & _).
  rewrite Ew in P2. cbn [fst] in P2. destruct P1 as [p P1], P2 as [q P2].
  destruct (tdms_new_ok _ _ _ Op) as [_ Ef]. unfold on_device in P1. cbn [fresh_writer ws_w bw_dev dv_bytes] in P1.
  assert (Eg : after_drop D s' = firstn (List.length (after_drop D s')) (tf_bytes F')).
  { rewrite P2, firstn_app, Nat.sub_diag, firstn_all2 by lia. cbn [firstn]. symmetry. apply app_nil_r. }
  specialize (C (List.length (after_drop D s'))).
  assert (L : (List.length f <= List.length (after_drop D s') <= List.length (tf_bytes F'))%nat).
  { rewrite P2, app_length. rewrite P1, Ef, app_length. lia. }
  specialize (C L). cbv zeta in C. rewrite <- Eg in C. rewrite C.
  destruct (_ <? _); [left; reflexivity|]. destruct (_ <? _); [right; right; reflexivity|right; left; reflexivity].
Qed.

(** The device fills up in the middle of the call of the example of C46. *)
Definition filling (n : N) : device :=
  mkDevice (fun k _ => match k with O => Some n | _ => None end) (fun _ => true).
Example C55_case :
  let run n := do_op dbg (filling n) 8192 (fresh_writer C44_F) (IoCall C46_call) in
  let g n := after_drop (filling n) (fst (run n)) in
  snd (run 3) = Ok tt
  /\ tdms_new dbg (g 3) = Ok (mkTF (tf_ix C44_F) (g 3))
  /\ tdms_new dbg (g 50) = Err (EIo UnexpectedEof)
  /\ tdms_new dbg (g 95) = Ok (mkTF (tf_ix C46_after) (g 95)).
Proof. vm_compute. repeat split. Qed.

(** ** C56 After a failed call the session still works *)
(** What holds: a call refused by the device leaves the index as it was, and what
    was on the device stays. *)
Theorem C56_index_unchanged_partial : forall E D cap F s c s',
  writes_to cap s F -> do_op E D cap s (IoCall c) = (s', Err (EIo DeviceError)) ->
  ws_ix s' = ws_ix s /\ prefix (on_device s) (on_device s').
Proof.
  intros E D cap F s c s' W O. pose proof (do_call_no_io E F c DeviceError) as N. split; [|exact (op_grows _ _ _ _ _ _ _ O)].
  pose proof (proj1 W) as W1.
  destruct c as [e path kvs|e t chans vs lay]; cbn [do_op do_call] in *.
  - unfold write_properties_io in O. unfold write_properties_e in N.
    destruct (write_segment e toc_default (Some [mkObj path kvs RINone]) None) as [bs sg]. cbn [snd] in O, N.
    unfold emit_segment in O. destruct (bw_emit D cap (ws_w s) _) as [w [|]].
    + rewrite W1 in O. destruct (add_segment E (tf_ix F) sg) as [ix r]. cbn [snd] in N.
      injection O as _ O. exfalso. exact (N O).
    + injection O as <-. reflexivity.
  - unfold write_channels_io in O. unfold write_channels_e in N. rewrite W1 in O.
    destruct (stream_segment e t (tf_ix F) chans vs lay) as [[bs sg]|er|pa|]; cbn [snd recast] in N.
    + unfold emit_segment in O. destruct (bw_emit D cap (ws_w s) _) as [w [|]].
      * rewrite W1 in O. destruct (add_segment E (tf_ix F) sg) as [ix r]. cbn [snd] in N.
        injection O as _ O. exfalso. exact (N O).
      * injection O as <-. cbn [ws_ix]. symmetry. exact W1 || reflexivity.
    + exfalso. injection O as _ O. apply N. rewrite O. reflexivity.
    + discriminate.
    + discriminate.
Qed.

(** The full claim is false: the bytes of the failed call stay in front of the
    next segment, which the library does not take into account.  A call of 2100
    values does not fit the buffer and the device refuses once; the next call is
    acknowledged; reading back gives something else than was written, and the
    re-opened file does not have the samples either. *)
Definition once : device := mkDevice (fun n l => match n with O => None | _ => Some l end) (fun _ => true).
Definition C56_first : call := CallChans LittleE SI32 [a] (repeat 5%Z 2100) Interleaved.
Definition C56_second : call := CallChans LittleE SI32 [b] [1; 2; 3]%Z Interleaved.
Theorem C56_next_write_refuted : exists D s' xs g,
  run_ops dbg D 8192 (fresh_writer empty_file) [IoCall C56_first; IoCall C56_second; IoSync] = (s', xs)
  /\ xs = [Err (EIo DeviceError); Ok tt; Ok tt]
  /\ g = after_drop D s'
  /\ read_channel dbg (mkTF (ws_ix s') g) SI32 b (repeat 0%Z 3) <> ([1; 2; 3]%Z, Ok tt)
  /\ snd (read_channel dbg (mkTF (ws_ix s') g) SI32 b (repeat 0%Z 3)) = Ok tt
  /\ match tdms_new dbg g with Ok F => channel_length dbg F b = Ok None | _ => False end.
Proof.
  exists once. eexists. eexists. eexists. split; [vm_compute; reflexivity|]. split; [reflexivity|].
  split; [vm_compute; reflexivity|]. split; [vm_compute; discriminate|]. split; [vm_compute; reflexivity|].
  vm_compute. reflexivity.
Qed.
Example C56_case : exists s, writes_to 8192 s empty_file
  /\ snd (do_op dbg once 8192 s (IoCall C56_first)) = Err (EIo DeviceError).
Proof.
  exists (fresh_writer empty_file). split; [apply fresh_writes|]. vm_compute. reflexivity.
Qed.

Print Assumptions C53_buffering_transparent.
Print Assumptions C54_synced.
Print Assumptions C54_stays.
Print Assumptions C54_unsynced_refuted.
Print Assumptions C55_only_a_prefix.
Print Assumptions C55_reopen_partial.
Print Assumptions C56_index_unchanged_partial.
Print Assumptions C56_next_write_refuted.
