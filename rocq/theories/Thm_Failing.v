(** * C94 Going on after the device has failed *)
From Coq Require Import Strings.String.
From Verif Require Import Base Lib Utf8 DataTypes MetaData Maps DataBlock Index RawData ChannelReader TdmsFile
  WriterIO SpecCodec SpecIndex SpecSession SpecRead SpecWrite SpecLocal SpecIO Segment_proofs History_proofs Open_proofs Session_proofs
  Write_proofs Program_proofs Reopen_proofs IO_proofs Vectors Thm_Open Thm_Index Thm_Read Thm_Write Thm_Reopen Thm_IO
  SpecExact SpecAppend Thm_Exact Thm_Append SpecFailing.
Close Scope string_scope.
Local Notation a := (ch "g" "a").
Local Notation b := (ch "g" "b").

(** A run never changes the file in another way. *)
Theorem C94_runs : forall E D cap ops s F s' xs,
  writes_to cap s F -> run_ops E D cap s ops = (s', xs) ->
  exists F' left lost, goes E F ops xs F' left lost /\ writes_to cap s' F'.
Proof.
  intros E D cap ops. induction ops as [|o ops IH]; intros s F s' xs W R; cbn [run_ops] in R.
  { injection R as <- <-. exists F, 0, 0. split; [constructor|exact W]. }
  destruct (do_op E D cap s o) as [s1 x] eqn:O. destruct (run_ops E D cap s1 ops) as [s2 ys] eqn:R2. injection R as <- <-.
  destruct o as [c| |].
  - destruct (call_spec E D cap s F c s1 x W O) as [Lb [[p P1] [[q P2] P3]]].
    assert (Dc : {device_error x} + {~ device_error x}).
    { unfold device_error. destruct x as [u|er|pa|]; try (right; discriminate).
      destruct er; try (right; discriminate). destruct k; try (right; discriminate). now left. }
    destruct Dc as [Dx|Nx].
    + assert (W' : writes_to cap s1 (mkTF (tf_ix F) (tf_bytes F ++ p))).
      { split; [|split; [exact P1|exact Lb]]. cbn [tf_ix]. unfold device_error in Dx. subst x.
        rewrite (proj1 (C56_index_unchanged_partial E D cap F s c s1 W O)). apply W. }
      destruct (IH _ _ _ _ W' R2) as [F' [lf [ls [G W2]]]]. exists F', (lenN p + lf), ls. split; [|exact W2].
      eapply goes_failed; eauto. rewrite P2, P1, app_assoc. reflexivity.
    + destruct (P3 (or_introl Nx)) as [W' Ex]. destruct (do_call E F c) as [F1 y] eqn:Dc. cbn [fst snd] in *. subst y.
      destruct (IH _ _ _ _ W' R2) as [F' [lf [ls [G W2]]]]. exists F', lf, ls. split; [|exact W2]. eapply goes_done; eauto.
  - cbn [do_op] in O. destruct (sync_op_spec D cap s F s1 x W O) as [W' _].
    destruct (IH _ _ _ _ W' R2) as [F' [lf [ls [G W2]]]]. exists F', lf, ls. split; [|exact W2]. now constructor.
  - cbn [do_op] in O. injection O as <- <-.
    destruct (drop_spec D (ws_w s)) as [_ [[g Q] _]]. destruct W as [W1 [W2 W3]].
    set (f := dv_bytes (bw_drop D (ws_w s))) in *.
    assert (W' : writes_to cap (new_writer_io D s) (mkTF (tf_ix F) f)).
    { split; [exact W1|]. split; [unfold handed, new_writer_io; cbn [ws_w bw_dev bw_buf]; apply app_nil_r|].
      unfold new_writer_io. cbn [ws_w bw_buf]. apply N.le_0_l. }
    destruct (IH _ _ _ _ W' R2) as [F' [lf [ls [G X]]]]. exists F', lf, (lenN g + ls). split; [|exact X].
    eapply goes_new; [|exact G]. rewrite <- W2. exact Q.
Qed.

(** ** The index stays that of the calls that succeeded *)
Lemma call_wrote E F c F1 : do_call E F c = (F1, Ok tt) -> exists s, wrote E F s F1 (Ok tt)
  /\ (sized_op (IoCall c) -> lenN (tf_bytes F1) = lenN (tf_bytes F) + 28 + sg_next s).
Proof.
  destruct c as [e path kvs|e t chans vs lay]; cbn [do_call sized_op].
  - intros Ew. destruct (write_segment e toc_default (Some [mkObj path kvs RINone]) None) as [bs s] eqn:Es.
    exists s. split; [eapply wrote_props; eauto|]. intros _.
    assert (Eb : tf_bytes F1 = tf_bytes F ++ bs).
    { unfold write_properties_e in Ew. rewrite Es in Ew. destruct (add_segment E (tf_ix F) s). injection Ew as <- _. reflexivity. }
    rewrite Eb, lenN_app. replace bs with (fst (write_segment e toc_default (Some [mkObj path kvs RINone]) None)) by now rewrite Es.
    replace s with (snd (write_segment e toc_default (Some [mkObj path kvs RINone]) None)) by now rewrite Es.
    rewrite write_segment_len, snd_write. cbn [sg_next]. unfold LEAD_IN. change (lenN (@nil byte)) with 0. lia.
  - intros Ew. destruct (stream_segment e t (tf_ix F) chans vs lay) as [[bs s]|x|x|] eqn:Es;
      try (unfold write_channels_e in Ew; rewrite Es in Ew; discriminate).
    exists s. split; [eapply wrote_chans; eauto|]. intros Fx.
    assert (Eb : tf_bytes F1 = tf_bytes F ++ bs).
    { unfold write_channels_e in Ew. rewrite Es in Ew. destruct (add_segment E (tf_ix F) s). injection Ew as <- _. reflexivity. }
    rewrite Eb, lenN_app. clear Eb Ew. unfold stream_segment in Es. destruct chans as [|c0 cs]; [discriminate|].
    cbv zeta in Es. destruct (negb _); [discriminate|]. destruct (check_write_values _ _) as [om ids].
    set (md := if om then None else _) in Es. set (tc := mkToc _ _ _ _ _ _) in Es.
    assert (Q : write_segment e tc md (Some (slice_block e t vs)) = (bs, s)) by congruence.
    replace bs with (fst (write_segment e tc md (Some (slice_block e t vs)))) by now rewrite Q.
    replace s with (snd (write_segment e tc md (Some (slice_block e t vs)))) by now rewrite Q.
    rewrite write_segment_len, snd_write. cbn [sg_next]. unfold slice_block, LEAD_IN. cbn [wb_bytes wb_size].
    rewrite (data_len e t vs Fx). lia.
Qed.

Theorem C94_session : forall E H F ops xs F' left lost,
  session E H F -> goes E F ops xs F' left lost -> Forall ok_or_device xs ->
  exists H', session E (H ++ H') F' /\ length H' = succeeded ops xs
    /\ (Forall sized_op ops -> lenN (tf_bytes F') + lost + offset H = lenN (tf_bytes F) + left + offset (H ++ H')).
Proof.
  intros E H F ops xs F' left lost Se G. revert H Se.
  induction G as [F|F c F1 x ops xs F' lf ls Dc Nd G IH|F c p q x ops xs F' lf ls Eb Dx G IH|F x ops xs F' lf ls G IH
    |F f g x ops xs F' lf ls Eb G IH]; intros H Se Ok0.
  - exists []. rewrite app_nil_r. split; [exact Se|]. split; [reflexivity|]. intros _. lia.
  - inversion Ok0 as [|? ? O1 O2]; subst. destruct O1 as [->|O1]; [|contradiction].
    destruct (call_wrote E F c F1 Dc) as [s [Wr Ln]].
    destruct (IH (H ++ [s]) (ss_write E H F s F1 Se Wr) O2) as [H' [Se' [Lh Lb]]].
    exists (s :: H'). rewrite <- app_assoc in Se', Lb. cbn [app] in Se', Lb. split; [exact Se'|].
    split; [cbn [length succeeded is_ok]; lia|]. intros So. inversion So as [|? ? S1 S2]; subst.
    specialize (Lb S2). specialize (Ln S1). rewrite offset_snoc in Lb. lia.
  - inversion Ok0 as [|? ? O1 O2]; subst.
    destruct (IH H (ss_bytes E H F _ Se) O2) as [H' [Se' [Lh Lb]]]. exists H'. split; [exact Se'|]. unfold device_error in Dx. subst x.
    split; [exact Lh|]. intros So. inversion So as [|? ? S1 S2]; subst. specialize (Lb S2). cbn [tf_bytes] in Lb. rewrite lenN_app in Lb. lia.
  - inversion Ok0 as [|? ? O1 O2]; subst. destruct (IH H Se O2) as [H' [Se' [Lh Lb]]]. exists H'. split; [exact Se'|].
    split; [exact Lh|]. intros So. inversion So as [|? ? S1 S2]; subst. now apply Lb.
  - inversion Ok0 as [|? ? O1 O2]; subst.
    destruct (IH H (ss_bytes E H F _ Se) O2) as [H' [Se' [Lh Lb]]]. exists H'. split; [exact Se'|]. split; [exact Lh|].
    intros So. inversion So as [|? ? S1 S2]; subst. specialize (Lb S2). cbn [tf_bytes] in Lb. rewrite Eb, lenN_app. lia.
Qed.

(** ** When further calls work *)
(** The file ends with its last segment, so that further segments arrive where the
    index expects them, exactly when as many bytes were lost as were left. *)
Theorem C94_end : forall E H F ops xs F' left lost,
  session E H F -> exact_end H F -> goes E F ops xs F' left lost -> Forall ok_or_device xs -> Forall sized_op ops ->
  exists H', session E (H ++ H') F' /\ length H' = succeeded ops xs /\ (exact_end (H ++ H') F' <-> left = lost).
Proof.
  intros E H F ops xs F' lf ls Se Ex G Ok0 So. destruct (C94_session E H F ops xs F' lf ls Se G Ok0) as [H' [Se' [Lh Lb]]].
  exists H'. split; [exact Se'|]. split; [exact Lh|]. specialize (Lb So). unfold exact_end in *. lia.
Qed.

(** So after failed calls that left bytes behind, without a drop that lost as many,
    no data call is served for all values; and after failed calls that left none,
    further calls are served as if the failed ones had not been made. *)
Theorem C94_exactly : forall E H F ops xs F' left lost,
  session E H F -> exact_end H F -> goes E F ops xs F' left lost -> Forall ok_or_device xs -> Forall sized_op ops ->
  exists H', session E (H ++ H') F' /\ length H' = succeeded ops xs
    /\ forall e t lay k chans, fixed t -> NoDup chans -> chans <> [] -> 0 < k ->
       sized_now (H ++ H') -> roomy E e (H ++ H') F' t lay k chans -> (forall q, length_after (H ++ H') q < 2 ^ 63) ->
       (left <> lost -> ~ all_served E e (H ++ H') F' t lay k chans)
       /\ (Forall (stored (tf_bytes F') t (H ++ H')) chans ->
           all_served E e (H ++ H') F' t lay k chans <-> left = lost /\ described_call (H ++ H') t lay k chans).
Proof.
  intros E H F ops xs F' lf ls Se Ex G Ok0 So. destruct (C94_end E H F ops xs F' lf ls Se Ex G Ok0 So) as [H' [Se' [Lh Eq]]].
  exists H'. split; [exact Se'|]. split; [exact Lh|]. intros e t lay k chans Fx Nd Ne Pk Sd Rm Ls. split.
  - intros N As. apply N, Eq. now apply (C82_needs_end E e (H ++ H') F' t lay k chans).
  - intros St. rewrite (C82_exactly E e (H ++ H') F' t lay k chans Se' Fx Nd Ne Pk Sd Rm Ls St). now rewrite Eq.
Qed.

(** A file of one segment.  The next call fails when nothing of it has been taken:
    a further call is served.  It fails after one byte: a further call is not
    served. *)
Definition C94_failed : list (res unit) := [Err (EIo DeviceError)].
Definition C94_after (n : nat) : tfile :=
  mkTF (tf_ix C77_F) (tf_bytes C77_F ++ firstn n (skipn (length (tf_bytes C77_F)) (tf_bytes (fst (do_call dbg C77_F C56_second))))).
Lemma C94_case_goes n : goes dbg C77_F [IoCall C56_second] C94_failed (C94_after n)
  (lenN (firstn n (skipn (length (tf_bytes C77_F)) (tf_bytes (fst (do_call dbg C77_F C56_second))))) + 0) 0.
Proof.
  eapply goes_failed; [|reflexivity|apply goes_end]. rewrite firstn_skipn.
  assert (Q : firstn (length (tf_bytes C77_F)) (tf_bytes (fst (do_call dbg C77_F C56_second))) = tf_bytes C77_F) by (vm_compute; reflexivity).
  transitivity (firstn (length (tf_bytes C77_F)) (tf_bytes (fst (do_call dbg C77_F C56_second)))
    ++ skipn (length (tf_bytes C77_F)) (tf_bytes (fst (do_call dbg C77_F C56_second)))); [symmetry; apply firstn_skipn|now rewrite Q].
Qed.
Example C94_case : exists s0 s1,
  run_ops dbg once 1 (fresh_writer C77_F) [IoCall C56_second] = (s0, C94_failed) /\ writes_to 1 s0 (C94_after 0)
  /\ run_ops dbg (filling 1) 1 (fresh_writer C77_F) [IoCall C56_second] = (s1, C94_failed) /\ writes_to 1 s1 (C94_after 1)
  /\ all_served dbg LittleE [C77_s] (C94_after 0) SI32 Interleaved 4 [a; b]
  /\ ~ all_served dbg LittleE [C77_s] (C94_after 1) SI32 Interleaved 4 [a; b].
Proof.
  eexists. eexists. split; [vm_compute; reflexivity|]. split; [vm_compute; repeat split; discriminate|].
  split; [vm_compute; reflexivity|]. split; [vm_compute; repeat split; discriminate|].
  destruct (C82_case (tf_bytes C77_F) ltac:(auto)) as [Se [Fx [Nd [Sd [Ls [_ [_ [Ds [_ Ex]]]]]]]]].
  replace (open_bytes dbg (tf_bytes C77_F)) with C77_F in Se by (vm_compute; reflexivity).
  assert (Rm : forall n, lenN (tf_bytes (C94_after n)) < 1000 -> roomy dbg LittleE [C77_s] (C94_after n) SI32 Interleaved 4 [a; b]).
  { intros n Hn. assert (M : 28 + metadata_size (call_objs (tf_ix (C94_after n)) (mkRaw (natural SI32) 4 None) [a; b])
      + lenN [a; b] * 4 * size_bytes SI32 < 1000) by (vm_compute; reflexivity).
    assert (O : offset [C77_s] < 1000) by (vm_compute; reflexivity).
    set (m := 28 + metadata_size _ + _) in M.
    apply roomy_bound; [apply ss_bytes; exact Se|exact Fx|exact Nd|discriminate|reflexivity|..]; fold m; clearbody m;
      try change (seek_max dbg) with (2 ^ 64 - 1); lia. }
  assert (Ok0 : Forall ok_or_device C94_failed) by (constructor; [right; reflexivity|constructor]).
  assert (So : Forall sized_op [IoCall C56_second]) by (constructor; [exact Fx|constructor]).
  assert (X : forall n left, lenN (tf_bytes (C94_after n)) < 1000 -> goes dbg C77_F [IoCall C56_second] C94_failed (C94_after n) left 0 ->
    (left <> 0 -> ~ all_served dbg LittleE [C77_s] (C94_after n) SI32 Interleaved 4 [a; b])
    /\ (Forall (stored (tf_bytes (C94_after n)) SI32 [C77_s]) [a; b] ->
        all_served dbg LittleE [C77_s] (C94_after n) SI32 Interleaved 4 [a; b] <-> left = 0 /\ described_call [C77_s] SI32 Interleaved 4 [a; b])).
  { intros n lf Hn G. destruct (C94_exactly dbg [C77_s] C77_F _ _ _ _ _ Se Ex G Ok0 So) as [H' [_ [Lh X]]].
    destruct H'; [|discriminate]. cbn [app] in X. apply (X LittleE SI32 Interleaved 4 [a; b]); auto; [discriminate|lia]. }
  split.
  - apply (X 0%nat 0); [vm_compute; reflexivity|exact (C94_case_goes 0)| |split; [reflexivity|exact Ds]].
    change (tf_bytes (C94_after 0)) with (tf_bytes C77_F ++ []). rewrite app_nil_r.
    assert (O1 : tdms_new dbg (tf_bytes C77_F) = Ok C77_F) by (vm_compute; reflexivity).
    constructor; [|constructor; [|constructor]].
    + apply (session_stored dbg _ _ _ SI32 a [mkLoc 0 0 2] O1 Se); vm_compute; reflexivity.
    + apply (session_stored dbg _ _ _ SI32 b [mkLoc 0 1 2] O1 Se); vm_compute; reflexivity.
  - apply (X 1%nat 1); [vm_compute; reflexivity| |discriminate].
    replace 1 with (lenN (firstn 1 (skipn (length (tf_bytes C77_F)) (tf_bytes (fst (do_call dbg C77_F C56_second))))) + 0) by (vm_compute; reflexivity).
    exact (C94_case_goes 1).
Qed.
Print Assumptions C94_runs.
Print Assumptions C94_session.
Print Assumptions C94_end.
Print Assumptions C94_exactly.
