(** * Claim C71: exactly what is refused, and how *)
From Coq Require Import Strings.String.
From Verif Require Import Base Lib DataTypes Paths MetaData DataBlock Index TdmsFile SpecIndex SpecSession SpecVerdict
  Parse_proofs Index_proofs History_proofs Open_proofs Session_proofs Verdict_proofs Vectors Thm_Index.
Close Scope string_scope.

(** ** C71 Each refusal names the first defect *)
(** Adding a segment to an index, from the segments before it. *)
Theorem C71_verdict : forall E H ix s,
  accepted E H ix -> Forall plain H -> plain s ->
  snd (add_segment E ix s) = verdict (overflow_checks E) H s.
Proof. exact verdict_exact. Qed.

(** Opening fails with an error exactly when some segments can be read and
    accepted from the start, and what follows them cannot be read or is not
    accepted, with that error. *)
Theorem C71_error : forall E f x,
  tdms_new E f = Err x <->
  x <> EEndOfFile /\
  exists H, good_start E f H /\ offset H <= seek_max E
    /\ (segment_read E f (offset H) = Err x
        \/ exists s, segment_read E f (offset H) = Ok s /\ verdict (overflow_checks E) H s = Err x).
Proof.
  intros E f x. split.
  - intros O. pose proof (open_outcome E f) as Q. rewrite O in Q. destruct Q as [H [G [L [Nx Ah]]]].
    split; [exact Nx|]. exists H. split; [exact G|]. split; [exact L|]. unfold ahead in Ah.
    destruct (segment_read E f (offset H)) as [s|y|p|]; cbn [bind] in Ah; try discriminate; [eauto|].
    injection Ah as ->. now left.
  - intros [Nx [H [G [L Q]]]]. pose proof (good_ahead E f H G L) as Ga. unfold ahead in Ga.
    destruct Q as [R|[s [R V]]]; rewrite R in Ga; cbn [bind] in Ga; [now apply Ga|]. rewrite V in Ga. now apply Ga.
Qed.
Theorem C71_panic : forall E f p,
  tdms_new E f = Panic p <->
  exists H s, good_start E f H /\ offset H <= seek_max E
    /\ segment_read E f (offset H) = Ok s /\ verdict (overflow_checks E) H s = Panic p.
Proof.
  intros E f p. split.
  - intros O. pose proof (open_outcome E f) as Q. rewrite O in Q. destruct Q as [H [G [L Ah]]].
    unfold ahead in Ah. pose proof (segment_read_fine E f (offset H)) as Fi.
    destruct (segment_read E f (offset H)) as [s|y|q|] eqn:R; cbn [bind] in Ah; try discriminate; try contradiction. exists H, s. auto.
  - intros [H [s [G [L [R V]]]]]. pose proof (good_ahead E f H G L) as Ga. unfold ahead in Ga.
    rewrite R in Ga. cbn [bind] in Ga. rewrite V in Ga. exact Ga.
Qed.
(** It succeeds exactly when this goes on to the end of the file. *)
Theorem C71_opens : forall E f,
  (exists F, tdms_new E f = Ok F) <->
  exists H, good_start E f H /\ (lenN f < offset H + 4 \/ seek_max E < offset H).
Proof.
  intros E f. split.
  - intros [F O]. pose proof (open_outcome E f) as Q. rewrite O in Q. destruct Q as [_ [H [G [_ En]]]]. eauto.
  - intros [H [G En]]. now apply (good_opens E f H).
Qed.
(** Writing: the result of a write that passes the checks of its arguments. *)
Theorem C71_write : forall E H F s F' r,
  session E H F -> wrote E F s F' r ->
  r = match verdict (overflow_checks E) H s with
      | Ok _ => Ok tt | Err x => Err x | Panic p => Panic p | Diverge => Diverge end.
Proof.
  intros E H F s F' r Se W. destruct (session_accepted _ _ _ Se) as [A P].
  pose proof (wrote_plain _ _ _ _ _ W) as Ps. pose proof (verdict_exact _ _ _ _ A P Ps) as V.
  apply wrote_add in W. destruct W as [bs [n [_ [Ha ->]]]]. rewrite Ha in V. cbn [snd] in V. rewrite <- V.
  destruct n; reflexivity.
Qed.

(** A file for each defect. *)
Definition hand (t : toc) (next raw : N) (os : list objmeta) (data : list byte) : list byte :=
  TDSm ++ write_toc t ++ enc_uint LittleE 4 4713 ++ enc_uint LittleE 8 next ++ enc_uint LittleE 8 raw
  ++ write_metadata LittleE os ++ data.
Definition c71_raw (n : N) (t : dtype) : list objmeta := [mkObj (ch "g" "c") [] (RIRaw (mkRaw t n None))].
Definition c71_toc : toc := mkToc true true false false false true.
Definition c71_bad : list (list byte * res tfile) :=
  [ (hand c71_toc 34 24 [mkObj (ch "g" "c") [] RIMatch] (repeat x00 10), Err ENoPreviousType);
    (hand c71_toc 34 24 [mkObj (ch "g" "c") [] RINone] (repeat x00 10), Err ESegmentTocDataBlockWithoutDataChannels);
    (hand c71_toc 39 40 (c71_raw 1 U8) [], Err EInvalidRawOffset);
    (hand c71_toc 40 40 (c71_raw 1 U8) [], Err EZeroLengthDataBlock);
    (hand c71_toc (2 ^ 64 - 1) (2 ^ 64 - 2) (c71_raw 1 U8) [], Panic POverflow);
    (hand c71_toc 50 40 (c71_raw (2 ^ 61) DoubleFloat) (repeat x00 10), Err EChunkSizeOverflow);
    (hand c71_toc 50 40 (mkObj (ch "g" "v") [] (RIRaw (mkRaw Void (2 ^ 63) None)) :: c71_raw 1 U8) (repeat x00 10), Err EChunkSizeOverflow);
    (hand c71_toc (2 ^ 64 - 1) 40 (c71_raw 1 U8) [], Err ESegmentAddressOverflow) ].
Example C71_case_errors : map (fun p => tdms_new dbg (fst p)) c71_bad = map snd c71_bad.
Proof. vm_compute. reflexivity. Qed.
(** The defects are found in later segments too, where they depend on what came
    before: "same as before" is right here and wrong at the start. *)
Definition c71_first : list byte := hand c71_toc 43 40 (c71_raw 3 U8) (repeat x05 3).
Definition c71_second : list byte := hand (mkToc true true false false false false) 28 24 [mkObj (ch "g" "c") [] RIMatch] (repeat x06 4).
Example C71_case : exists H F,
  good_start dbg (c71_first ++ c71_second) H /\ length H = 2%nat /\ tdms_new dbg (c71_first ++ c71_second) = Ok F
  /\ tdms_new dbg (c71_second ++ c71_first) = Err ENoPreviousType
  /\ tdms_new dbg (c71_first ++ c71_second ++ hand c71_toc 40 40 (c71_raw 1 U8) []) = Err EZeroLengthDataBlock.
Proof.
  assert (O : exists F, tdms_new dbg (c71_first ++ c71_second) = Ok F)
    by (exists (open_bytes dbg (c71_first ++ c71_second)); vm_compute; reflexivity).
  pose proof (proj1 (C71_opens dbg (c71_first ++ c71_second)) O) as [H [G En]].
  destruct O as [F O]. exists H, F. split; [exact G|]. split; [|split; [exact O|split; vm_compute; reflexivity]].
  assert (R0 : exists s0, segment_read dbg (c71_first ++ c71_second) 0 = Ok s0 /\ sg_next s0 = 43).
  { assert (Q : match segment_read dbg (c71_first ++ c71_second) 0 with Ok s => sg_next s | _ => 0 end = 43) by (vm_compute; reflexivity).
    destruct (segment_read dbg (c71_first ++ c71_second) 0) as [s| | |]; try discriminate Q. eauto. }
  assert (R1 : exists s1, segment_read dbg (c71_first ++ c71_second) 71 = Ok s1 /\ sg_next s1 = 28).
  { assert (Q : match segment_read dbg (c71_first ++ c71_second) 71 with Ok s => sg_next s | _ => 0 end = 28) by (vm_compute; reflexivity).
    destruct (segment_read dbg (c71_first ++ c71_second) 71) as [s| | |]; try discriminate Q. eauto. }
  assert (Lf : lenN (c71_first ++ c71_second) = 127) by (vm_compute; reflexivity).
  destruct R0 as [s0 [R0 N0]]. destruct R1 as [s1 [R1 N1]].
  destruct H as [|h0 [|h1 [|h2 H]]].
  - exfalso. change (offset []) with 0 in En. rewrite Lf in En. cbn [seek_max dbg] in En. lia.
  - exfalso. destruct (G 0%nat h0 eq_refl) as [X _]. cbn [firstn] in X. change (offset []) with 0 in X.
    rewrite R0 in X. injection X as <-. unfold offset in En. cbn [fold_left] in En. rewrite N0, Lf in En.
    cbn [seek_max dbg] in En. unfold two64 in En. lia.
  - reflexivity.
  - exfalso. destruct (G 0%nat h0 eq_refl) as [X _]. cbn [firstn] in X. change (offset []) with 0 in X.
    rewrite R0 in X. injection X as <-.
    destruct (G 1%nat h1 eq_refl) as [X _]. cbn [firstn] in X. unfold offset in X. cbn [fold_left] in X.
    rewrite N0 in X. change (0 + 28 + 43) with 71 in X. rewrite R1 in X. injection X as <-.
    destruct (G 2%nat h2 eq_refl) as [X _]. cbn [firstn] in X. unfold offset in X. cbn [fold_left] in X.
    rewrite N0, N1 in X. apply segment_read_len in X. rewrite Lf in X. lia.
Qed.

Print Assumptions C71_verdict.
Print Assumptions C71_error.
Print Assumptions C71_panic.
Print Assumptions C71_opens.
Print Assumptions C71_write.
