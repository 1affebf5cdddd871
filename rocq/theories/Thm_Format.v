(** * C78 and C79: codes of the TDMS format description *)
From Coq Require Import Strings.String.
From Verif Require Import Base Lib DataTypes MetaData Maps DataBlock Index RawData ChannelReader TdmsFile Vectors
  SpecCodec Codec_proofs Segment_proofs Thm_Codec.
Close Scope string_scope.

(** ** C78 Type codes are those of the TDMS format *)
(** The enumeration of the format description ("TDMS File Format Internal
    Structure", National Instruments), numbered as in C: an entry without a
    number is one more than the entry before. *)
Definition tdms_codes : list (N * dtype) :=
  [(0, Void); (1, I8); (2, I16); (3, I32); (4, I64); (5, U8); (6, U16); (7, U32); (8, U64);
   (9, SingleFloat); (10, DoubleFloat); (11, ExtendedFloat);
   (25, SingleFloatWithUnit); (26, DoubleFloatWithUnit); (27, ExtendedFloatWithUnit);
   (32, TdmsString); (33, Boolean); (68, Timestamp); (79, FixedPoint);
   (524300, ComplexSingleFloat); (1048589, ComplexDoubleFloat); (4294967295, DAQmxRawData)].

(** True except for the two types with units that have no number of their own. *)
Theorem C78_codes_partial : forall e c d rest,
  In (c, d) tdms_codes -> d <> DoubleFloatWithUnit -> d <> ExtendedFloatWithUnit ->
  read_dtype e (enc_uint e 4 c ++ rest) = Ok (d, rest) /\ write_dtype e d = enc_uint e 4 c.
Proof.
  intros e c d rest Hin N1 N2.
  assert (Hc : c < 2 ^ 32 /\ dtype_code d = c).
  { unfold tdms_codes in Hin. cbn [In] in Hin.
    repeat match type of Hin with _ \/ _ => destruct Hin as [Hin|Hin] | False => destruct Hin end;
      injection Hin as <- <-; try congruence; split; reflexivity. }
  destruct Hc as [Hc Hd]. split; [|unfold write_dtype; now rewrite Hd].
  now apply (proj2 C05_type_codes e c rest Hc).
Qed.
Example C78_case : In (68, Timestamp) tdms_codes /\ Timestamp <> DoubleFloatWithUnit
  /\ read_dtype BigE (bytes [0; 0; 0; 68]) = Ok (Timestamp, []).
Proof. split; [unfold tdms_codes; cbn [In]; auto 30|]. split; [discriminate|vm_compute; reflexivity]. Qed.

(** A file with one property of type 0x1A (a double with unit): it cannot be
    opened.  The same file with code 12, which the format does not have, can. *)
Definition C78_file (code : N) : list byte :=
  B "TDSm" ++ bytes [6; 0; 0; 0; 105; 18; 0; 0; 38; 0; 0; 0; 0; 0; 0; 0; 38; 0; 0; 0; 0; 0; 0; 0]
  ++ bytes [1; 0; 0; 0; 1; 0; 0; 0] ++ B "/" ++ bytes [255; 255; 255; 255; 1; 0; 0; 0]
  ++ bytes [1; 0; 0; 0] ++ B "u" ++ bytes [code; 0; 0; 0; 0; 0; 0; 0; 0; 0; 240; 63].
Theorem C78_unit_codes_refuted : exists F,
  In (26, DoubleFloatWithUnit) tdms_codes
  /\ tdms_new dbg (C78_file 26) = Err (EUnknownPropertyType 26)
  /\ (forall d, ~ In (12, d) tdms_codes)
  /\ tdms_new dbg (C78_file 12) = Ok F
  /\ read_property F (B "/") (B "u") = Ok (Some (PDouble 4607182418800017408)).
Proof.
  exists (match tdms_new dbg (C78_file 12) with Ok F => F | _ => empty_file end).
  split; [unfold tdms_codes; cbn [In]; auto 30|]. split; [vm_compute; reflexivity|].
  split; [intros d Hin; unfold tdms_codes in Hin; cbn [In] in Hin; intuition discriminate|].
  split; vm_compute; reflexivity.
Qed.

(** ** C79 DAQmx data is refused as such *)
Lemma read_objs_error E e x X : read_obj E e X = Err x -> forall objs fuel count,
  Forall (good_obj E) objs -> lenN objs < count -> (length objs < fuel)%nat ->
  read_objs E e fuel count (concat (map (write_obj e) objs) ++ X) = Err x.
Proof.
  intros Hx. induction objs as [|o objs IH]; intros [|fuel] count Go Lo Lf; try (cbn [length] in Lf; lia); cbn [read_objs].
  - change (lenN []) with 0 in Lo. replace (count =? 0) with false by lia. cbn [map concat app]. now rewrite Hx.
  - rewrite lenN_cons in Lo. replace (count =? 0) with false by lia. cbn [map concat]. rewrite <- app_assoc.
    inversion Go; subst. rewrite read_obj_app by assumption. cbn [bind].
    rewrite IH; [reflexivity|assumption|lia|cbn [length] in Lf; lia].
Qed.

(** True for the index words from 0x69120000 to 0x6913FFFF in the byte order of
    the segment: whatever objects come before and whatever follows. *)
Theorem C79_refused_partial : forall E t ver next raw count objs path i rest,
  let e := toc_endian t in
  ver < 2 ^ 32 -> next < 2 ^ 64 -> raw < 2 ^ 64 -> count < 2 ^ 32 -> alloc_ok E AObjects count = true ->
  Forall (good_obj E) objs -> lenN objs < count -> good_str E path ->
  0x69120000 <= i <= 0x6913FFFF ->
  tdms_new E (TDSm ++ write_toc t ++ enc_uint e 4 ver ++ enc_uint e 8 next ++ enc_uint e 8 raw
    ++ enc_uint e 4 count ++ concat (map (write_obj e) objs) ++ enc e SStr path ++ enc_uint e 4 i ++ rest)
  = Err EDaqmxChannelsNotSupported.
Proof.
  intros E t ver next raw count objs path i rest e Lv Ln Lr Lc Al Go Lo Gp Hi.
  unfold tdms_new, build_index, build_loop.
  match goal with |- context [segment_read E ?f 0] => assert (Sr : segment_read E f 0 = Err EDaqmxChannelsNotSupported) end.
  { pose proof (segment_read_toc E [] t) as Q. cbn [app] in Q. change (lenN []) with 0 in Q. rewrite Q. clear Q. fold e.
    unfold read_segment. fold e. rewrite !dec_uint_app by assumption. cbn [bind].
    rewrite dec_uint_app by assumption. cbn [bind]. rewrite dec_uint_app by assumption. cbn [bind].
    unfold read_metadata. rewrite dec_uint_app by assumption. cbn [bind]. rewrite Al.
    rewrite (read_objs_error E e EDaqmxChannelsNotSupported); [reflexivity| |assumption|exact Lo|].
    - unfold read_obj. rewrite dec_str_app by assumption. cbn [bind]. unfold read_rawidx.
      rewrite dec_uint_app by (change (2 ^ (8 * 4)) with (2 ^ 32); lia). cbn [bind].
      replace (i =? 0) with false by lia. replace (i =? 4294967295) with false by lia.
      destruct ((1762787328 <=? i) && (i <=? 1762852863)) eqn:C1; [reflexivity|].
      replace ((1762852864 <=? i) && (i <=? 1762918399)) with true by lia. reflexivity.
    - pose proof (lenN_concat_lower (write_obj e) 12 objs (write_obj_pos e)) as L.
      rewrite app_length. unfold lenN in L. lia. }
  rewrite Sr. reflexivity.
Qed.
Example C79_case : let t := mkToc true true true false true true in
  toc_endian t = BigE /\ good_str dbg (ch "g" "a") /\ 0x69120000 <= 0x69130000 <= 0x6913FFFF
  /\ tdms_new dbg (B "TDSm" ++ bytes [206; 0; 0; 0; 0; 0; 18; 105; 0; 0; 0; 0; 0; 0; 0; 80; 0; 0; 0; 0; 0; 0; 0; 70]
       ++ bytes [0; 0; 0; 1; 0; 0; 0; 8] ++ ch "g" "a" ++ bytes [105; 19; 0; 0; 255; 255; 255; 255])
     = Err EDaqmxChannelsNotSupported.
Proof.
  split; [reflexivity|]. split; [split; [apply utf8_valid_iff; vm_compute; reflexivity|split; vm_compute; congruence]|].
  split; [lia|vm_compute; reflexivity].
Qed.

(** A little endian segment of one DAQmx channel as the format describes it: flag
    for DAQmx data, the index word 69 12 00 00, type, dimension, number of values,
    one scaler (U8, buffer 0, offset 0, bitmap 0, identifier 0), one buffer of
    width 1.  It is opened: the channel has a quarter of its values, a nameless
    property, and reading it names the type. *)
Definition C79_file : list byte :=
  B "TDSm" ++ bytes [142; 0; 0; 0; 105; 18; 0; 0; 80; 0; 0; 0; 0; 0; 0; 0; 72; 0; 0; 0; 0; 0; 0; 0]
  ++ bytes [1; 0; 0; 0; 8; 0; 0; 0] ++ ch "g" "a"
  ++ bytes [0x69; 0x12; 0; 0] ++ bytes [255; 255; 255; 255] ++ bytes [1; 0; 0; 0] ++ bytes [2; 0; 0; 0; 0; 0; 0; 0]
  ++ bytes [1; 0; 0; 0] ++ bytes [0; 0; 0; 0] ++ bytes [0; 0; 0; 0] ++ bytes [0; 0; 0; 0] ++ bytes [0; 0; 0; 0] ++ bytes [0; 0; 0; 0]
  ++ bytes [1; 0; 0; 0; 1; 0; 0; 0] ++ bytes [0; 0; 0; 0]
  ++ bytes [1; 2; 3; 4; 5; 6; 7; 8].
Theorem C79_little_endian_refuted : exists F,
  lenN C79_file = 28 + 80
  /\ toc_daqmx (toc_of_u32 142) = true
  /\ tdms_new dbg C79_file = Ok F
  /\ channel_length dbg F (ch "g" "a") = Ok (Some 2)
  /\ read_all_properties F (ch "g" "a") = Some [([], PVoid)].
Proof. eexists. split; [reflexivity|]. split; [reflexivity|]. split; [vm_compute; reflexivity|]. vm_compute. split; reflexivity. Qed.

Print Assumptions C78_codes_partial.
Print Assumptions C78_unit_codes_refuted.
Print Assumptions C79_refused_partial.
Print Assumptions C79_little_endian_refuted.
