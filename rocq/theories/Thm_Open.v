(** * Claims C11-C13: opening a file *)
From Coq Require Import Strings.String.
From Verif Require Import Base Lib DataTypes MetaData DataBlock Index TdmsFile SpecIndex
  Parse_proofs Index_proofs History_proofs Open_proofs Vectors.
Close Scope string_scope.

(** ** C11 Opening any byte sequence terminates without panicking *)
Theorem C11_open_total : forall (E : env) (f : list byte),
  match tdms_new E f with
  | Ok F => tf_bytes F = f
  | Err _ => True
  | Panic p =>
    (* only with overflow checks, and only on a raw data offset that does not
       fit a 64-bit address *)
    p = POverflow /\ overflow_checks E = true
    /\ exists pos s, segment_read E f pos = Ok s /\ toc_raw (sg_toc s) = true
                     /\ 2 ^ 64 <= pos + 28 + sg_raw s
  | Diverge => False
  end.
Proof.
  intros E f. unfold tdms_new, build_index.
  pose proof (loop_total E f (S (length f)) index_new inv_new) as H.
  cbn [index_new ix_next] in H. fold index_new in H.
  destruct (build_loop E f (S (length f)) index_new 0) as [ix|e|p|]; cbn [bind];
    [reflexivity|exact I| |]; apply H; unfold lenN; lia.
Qed.

Theorem C11_release_never_panics : forall (E : env) (f : list byte),
  overflow_checks E = false ->
  (exists F, tdms_new E f = Ok F) \/ (exists e, tdms_new E f = Err e).
Proof.
  intros E f He. pose proof (C11_open_total E f) as H.
  destruct (tdms_new E f) as [F|e|p|]; [eauto|eauto| |contradiction].
  destruct H as [_ [H _]]. congruence.
Qed.

(** The exception does occur: a 68-byte file on which opening panics in a build
    with overflow checks. *)
Definition overflowing_file : list byte :=
  TDSm ++ bytes [14;0;0;0; 105;18;0;0; 255;255;255;255;255;255;255;255; 254;255;255;255;255;255;255;255]
  ++ write_metadata LittleE [mkObj (B "/'g'/'c'") [] (RIRaw (mkRaw I32 1 None))].
Theorem C11_overflow_checks_refuted :
  exists f, lenN f = 68 /\ tdms_new dbg f = Panic POverflow
            /\ tdms_new rel f = Err ESegmentAddressOverflow.
Proof. exists overflowing_file. vm_compute. repeat split. Qed.
(** A build without overflow checks on that file, on its first 28 bytes, on a file with a wrong tag and on an empty one. *)
Example C11_case :
  overflow_checks rel = false
  /\ tdms_new rel overflowing_file = Err ESegmentAddressOverflow
  /\ tdms_new rel (bytes [84;68;83;104]) = Err (EHeaderPattern (bytes [84;68;83;104]))
  /\ tdms_new rel (firstn 28 overflowing_file) = Err (EIo UnexpectedEof)
  /\ tdms_new rel [] = Ok (mkTF index_new []).
Proof. do 4 (split; [vm_compute; reflexivity|]). vm_compute. reflexivity. Qed.

(** ** C12 Opening cost is bounded by file size *)
(** Whatever the outcome, the scan needs no more than one iteration per 28
    bytes (plus one): with that much fuel it has its final result. *)
Theorem C12_iterations : forall (E : env) (f : list byte) (k : nat),
  lenN f < 28 * N.of_nat k ->
  build_loop E f k index_new 0 = build_index E f /\ build_index E f <> Diverge.
Proof.
  intros E f k Hk. assert (Hp : (0 < k)%nat) by (destruct k; lia).
  split; [now apply build_fuel|].
  pose proof (C11_open_total E f) as H. unfold tdms_new in H. intros D. now rewrite D in H.
Qed.

(** The segments of an opened file start at strictly increasing addresses, at
    least 28 bytes apart and inside the file; there are at most (size / 28). *)
Theorem C12_segment_starts : forall (E : env) (f : list byte) (F : tfile),
  tdms_new E f = Ok F ->
  exists H, file_segments E f H
    /\ (forall i j, (i <= j <= length H)%nat ->
          offset (firstn i H) + 28 * N.of_nat (j - i) <= offset (firstn j H))
    /\ (forall i, (i < length H)%nat -> offset (firstn i H) + 32 <= lenN f)
    /\ 28 * lenN H <= lenN f.
Proof.
  intros E f F HF. unfold tdms_new in HF. apply bind_ok in HF. destruct HF as [ix [B _]].
  destruct (open_history E f ix B) as [H [A [FS P]]]. exists H. split; [exact FS|].
  assert (St : forall i j, (i <= j <= length H)%nat ->
          offset (firstn i H) + 28 * N.of_nat (j - i) <= offset (firstn j H)).
  { intros i j Hij. replace j with (i + (j - i))%nat at 2 by lia.
    assert (S1 : firstn (i + (j - i)) H = firstn i H ++ firstn (j - i) (skipn i H)).
    { rewrite <- (firstn_skipn i H) at 1. rewrite firstn_app.
      rewrite firstn_firstn, firstn_length.
      replace (Nat.min (i + (j - i)) i) with i by lia.
      replace (i + (j - i) - Nat.min i (length H))%nat with (j - i)%nat by lia. reflexivity. }
    rewrite S1, offset_app.
    pose proof (offset_grows (firstn (j - i) (skipn i H)) (offset (firstn i H))) as G.
    unfold lenN in G. rewrite firstn_length, skipn_length in G.
    replace (Nat.min (j - i) (length H - i)) with (j - i)%nat in G by lia. exact G. }
  assert (In : forall i, (i < length H)%nat -> offset (firstn i H) + 32 <= lenN f).
  { intros i Hi. apply nth_error_Some in Hi. destruct (nth_error H i) as [s|] eqn:N; [|contradiction].
    destruct FS as [R _]. destruct (R i s N) as [R' _]. now apply segment_read_len in R'. }
  split; [exact St|]. split; [exact In|].
  destruct (length H) as [|n] eqn:L; [destruct H; [cbn; apply N.le_0_l|discriminate]|].
  specialize (St 0%nat n ltac:(lia)). specialize (In n ltac:(lia)). unfold lenN in *. rewrite L.
  cbn [firstn] in St. change (offset []) with 0 in St. lia.
Qed.
(** Both hold of the example file of two segments in [Vectors]. *)
Definition two_segments : list byte :=
  tf_bytes (fst (write_properties dbg
    (fst (write_channels dbg SI32 empty_file [ch "g" "a"; ch "g" "b"] [1;2;3;4;5;6]%Z Interleaved))
    (B "/'g'") [(B "unit", PString (B "V"))])).
Example C12_case : exists F, tdms_new dbg two_segments = Ok F /\ lenN two_segments = 193.
Proof. eexists. vm_compute. split; reflexivity. Qed.

(** ** C13 Only TDSm-tagged segments are accepted; short tails are ignored *)
Theorem C13_empty : forall (E : env) (f : list byte),
  lenN f < 4 -> tdms_new E f = Ok (mkTF index_new f).
Proof.
  intros E f Hl. unfold tdms_new, build_index. cbn [build_loop].
  assert (R : segment_read E f 0 = Err EEndOfFile) by (apply segment_read_eof; lia).
  now rewrite R.
Qed.

(** [rest]: the bytes at the address where the last segment of [f] says it
    ends (for a file whose last segment is complete, the appended bytes). *)
Theorem C13_tails : forall (E : env) (f : list byte) (F : tfile) (t : list byte),
  tdms_new E f = Ok F ->
  ix_next (tf_ix F) <= seek_max E ->
  let rest := dropN (ix_next (tf_ix F)) (f ++ t) in
  (lenN rest < 4 -> tdms_new E (f ++ t) = Ok (mkTF (tf_ix F) (f ++ t)))
  /\ (4 <= lenN rest -> firstn 4 rest <> TDSm ->
      tdms_new E (f ++ t) = Err (EHeaderPattern (firstn 4 rest))).
Proof.
  intros E f F t HF Hm. unfold tdms_new in *. apply bind_ok in HF. destruct HF as [ix [B HF]].
  injection HF as <-. cbn [tf_ix] in *. cbn zeta.
  set (k := S (length (f ++ t))).
  rewrite (open_extend E f ix t B Hm k) by (unfold k, lenN; lia). unfold k. cbn [build_loop].
  split.
  - intros Hr. rewrite lenN_dropN in Hr.
    assert (R : segment_read E (f ++ t) (ix_next ix) = Err EEndOfFile) by (apply segment_read_eof; lia).
    now rewrite R.
  - intros Hr Hn. rewrite segment_read_eq. unfold read_exact.
    replace (4 <=? lenN (dropN (ix_next ix) (f ++ t))) with true by lia.
    change (N.to_nat 4) with 4%nat.
    destruct (str_eqb (firstn 4 (dropN (ix_next ix) (f ++ t))) TDSm) eqn:K; [|reflexivity].
    apply str_eqb_eq in K. contradiction.
Qed.
Example C13_case :
  exists F, tdms_new dbg two_segments = Ok F /\ ix_next (tf_ix F) = lenN two_segments
    /\ tdms_new dbg (two_segments ++ bytes [84;68;83]) = Ok (mkTF (tf_ix F) (two_segments ++ bytes [84;68;83]))
    /\ tdms_new dbg (two_segments ++ bytes [84;68;83;104]) = Err (EHeaderPattern (bytes [84;68;83;104])).
Proof. eexists. vm_compute. repeat split. Qed.

Print Assumptions C11_open_total.
Print Assumptions C11_release_never_panics.
Print Assumptions C11_overflow_checks_refuted.
Print Assumptions C12_iterations.
Print Assumptions C12_segment_starts.
Print Assumptions C13_empty.
Print Assumptions C13_tails.
