(** * C72: exactly which bytes are read as a segment *)
From Coq Require Import Strings.String.
From Verif Require Import Base Lib Utf8 DataTypes MetaData SpecCodec SpecGrammar Grammar_proofs Codec_proofs Vectors.
Close Scope string_scope.

(** A segment is read from a position of a file exactly when bytes of the
    grammar stand there. *)
Theorem C72_grammar : forall E f pos s,
  segment_read E f pos = Ok s <->
  exists pre bs rest, f = pre ++ bs ++ rest /\ lenN pre = pos /\ segment_bytes E s bs.
Proof. exact segment_grammar. Qed.

(** The bytes determine the segment, and no segment is the beginning of
    another. *)
Theorem C72_unambiguous : forall E s1 s2 b1 b2 r1 r2,
  segment_bytes E s1 b1 -> segment_bytes E s2 b2 -> b1 ++ r1 = b2 ++ r2 ->
  s1 = s2 /\ b1 = b2 /\ r1 = r2.
Proof.
  intros E s1 s2 b1 b2 r1 r2 H1 H2 Q.
  assert (S1 : exists c, b1 = TDSm ++ c) by (destruct H1 as [w [t [v [n [r [m [os [-> _]]]]]]]]; eexists; reflexivity).
  assert (S2 : exists c, b2 = TDSm ++ c) by (destruct H2 as [w [t [v [n [r [m [os [-> _]]]]]]]]; eexists; reflexivity).
  destruct S1 as [c1 ->]. destruct S2 as [c2 ->]. rewrite <- !app_assoc in Q. apply app_inv_head in Q.
  destruct (exact_tagless E) as [_ X]. pose proof (X _ _ r1 H1) as A1. pose proof (X _ _ r2 H2) as A2.
  rewrite Q, A2 in A1. injection A1 as <- <-. apply app_inv_tail in Q. subst. auto.
Qed.

(** Cut short, the bytes of a segment are never read as one: the file ends too
    early. *)
Theorem C72_cut : forall E s pre b1 b2,
  segment_bytes E s (b1 ++ b2) -> b2 <> [] ->
  segment_read E (pre ++ b1) (lenN pre) = if lenN b1 <? 4 then Err EEndOfFile else Err (EIo UnexpectedEof).
Proof. intros. eapply segment_cut; eassumption. Qed.

(** A big-endian segment with liberties the format does not grant: no metadata
    flag, an offset of 7, version 0xdeadbeef, a raw data index of length 5 and
    dimension 2, and a property marked as a float with unit. *)
Definition c72_pieces : list (list byte) :=
  [[x54; x44; x53; x6d]; [x40; x00; x00; x00]; [xde; xad; xbe; xef];
   [x00; x00; x00; x00; x00; x00; x00; x07]; [x00; x00; x00; x00; x00; x00; x00; x03];
   [x00; x00; x00; x01];
     [x00; x00; x00; x02]; B "/x"%string;
     [x00; x00; x00; x05]; [x00; x00; x00; x03]; [x00; x00; x00; x02]; [x00; x00; x00; x00; x00; x00; x01; x00];
     [x00; x00; x00; x02];
       [x00; x00; x00; x01]; B "u"%string; [x00; x00; x00; x19]; [x3f; x80; x00; x00];
       [x00; x00; x00; x01]; B "n"%string; [x00; x00; x00; x02]; [xff; xfe]].
Definition c72_seg : segment :=
  mkSeg (mkToc false false false false true false) 7 3
    (Some [mkObj (B "/x"%string) [(B "u"%string, PSingle 1065353216); (B "n"%string, PI16 (-2)%Z)] (RIRaw (mkRaw I32 256 None))]).
Ltac number := split; vm_compute; reflexivity.
Ltac text l := exists l; split; [reflexivity|]; split; [number|]; split; [apply utf8_valid_iff; vm_compute; reflexivity|vm_compute; reflexivity].
Lemma c72_is_segment : segment_bytes dbg c72_seg (concat c72_pieces).
Proof.
  unfold segment_bytes. change (toc_big (sg_toc c72_seg)) with true. cbv zeta iota.
  exists 64, [x40; x00; x00; x00], [xde; xad; xbe; xef],
    [x00; x00; x00; x00; x00; x00; x00; x07], [x00; x00; x00; x00; x00; x00; x00; x03], (concat (skipn 5 c72_pieces)).
  eexists. split; [reflexivity|]. split; [number|]. split; [reflexivity|]. split; [reflexivity|].
  split; [number|]. split; [number|]. split; [reflexivity|].
  exists [x00; x00; x00; x01], (concat (skipn 6 c72_pieces)). split; [reflexivity|]. split; [number|]. split; [reflexivity|].
  exists [concat (skipn 6 c72_pieces)]. split; [reflexivity|]. constructor; [|constructor].
  exists (concat (firstn 2 (skipn 6 c72_pieces))), (concat (firstn 4 (skipn 8 c72_pieces))), [x00; x00; x00; x02], (concat (skipn 13 c72_pieces)).
  split; [reflexivity|]. split; [text [x00; x00; x00; x02]|]. split; [|split; [number|split; [reflexivity|]]].
  - exists 5, [x00; x00; x00; x05], [x00; x00; x00; x03], [x00; x00; x00; x02], [x00; x00; x00; x00; x00; x00; x01; x00].
    split; [reflexivity|]. split; [number|]. split; [discriminate|]. split; [discriminate|]. split; [discriminate|]. split; [discriminate|].
    split; [number|]. split; [reflexivity|]. split; [number|reflexivity].
  - exists [concat (firstn 4 (skipn 13 c72_pieces)); concat (skipn 17 c72_pieces)]. split; [reflexivity|].
    constructor; [|constructor; [|constructor]].
    + exists (concat (firstn 2 (skipn 13 c72_pieces))), [x00; x00; x00; x19], [x3f; x80; x00; x00], SingleFloatWithUnit.
      split; [reflexivity|]. split; [text [x00; x00; x00; x01]|]. split; [number|]. split; [right; reflexivity|number].
    + exists (concat (firstn 2 (skipn 17 c72_pieces))), [x00; x00; x00; x02], [xff; xfe], I16.
      split; [reflexivity|]. split; [text [x00; x00; x00; x01]|]. split; [number|]. split; [reflexivity|].
      exists 65534. split; [number|]. split; [split; vm_compute; congruence|reflexivity].
Qed.
Example C72_case : segment_read dbg ([x11; x22] ++ concat c72_pieces ++ [x33]) 2 = Ok c72_seg.
Proof. apply C72_grammar. exists [x11; x22], (concat c72_pieces), [x33]. split; [reflexivity|]. split; [reflexivity|exact c72_is_segment]. Qed.
(** The same, by running the model. *)
Example C72_case_run : segment_read dbg ([x11; x22] ++ concat c72_pieces ++ [x33]) 2 = Ok c72_seg.
Proof. vm_compute. reflexivity. Qed.
Example C72_case_cut : segment_read dbg ([x11] ++ firstn 40 (concat c72_pieces)) 1 = Err (EIo UnexpectedEof).
Proof.
  change 1 with (lenN [x11]). rewrite (C72_cut dbg c72_seg [x11] (firstn 40 (concat c72_pieces)) (skipn 40 (concat c72_pieces))).
  - reflexivity.
  - rewrite firstn_skipn. exact c72_is_segment.
  - vm_compute. discriminate.
Qed.

Print Assumptions C72_grammar.
Print Assumptions C72_unambiguous.
Print Assumptions C72_cut.
