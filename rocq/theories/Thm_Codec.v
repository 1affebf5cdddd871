(** * Claims C01-C10: encoding and decoding *)
From Verif Require Import Base Lib Utf8 DataTypes MetaData SpecCodec Codec_proofs
  Segment_proofs Vectors.

(** ** C01 Values survive a write/read cycle in both byte orders *)
Theorem C01_value_round_trip :
  forall (E : env) (e : endian) (t : sty) (v : carrier t) (rest : list byte),
    rust_value t v -> storable t v -> can_alloc E t v ->
    dec E e t (enc e t v ++ rest) = Ok (v, rest).
Proof. exact dec_enc. Qed.

Example C01_case_i16 : rust_value SI16 (-300)%Z /\ enc BigE SI16 (-300)%Z = bytes [254; 212]
  /\ dec dbg BigE SI16 (bytes [254; 212; 7]) = Ok ((-300)%Z, bytes [7]).
Proof. vm_compute. repeat split; discriminate || reflexivity. Qed.
Example C01_case_str : rust_value SStr (bytes [97;195;169;226;130;172]) /\ storable SStr (bytes [97;195;169;226;130;172]) /\ can_alloc dbg SStr (bytes [97;195;169;226;130;172]).
Proof.
  split; [|split]; [|reflexivity|reflexivity].
  exists [97; 233; 8364]. split; [|reflexivity].
  repeat constructor; unfold scalar; lia.
Qed.

(** Extended floats above 80 bits are outside [storable]: the upper bits are
    dropped on writing. *)
Theorem C01_extended_overflow_refuted :
  exists (E : env) (e : endian) (v : carrier SExt),
    rust_value SExt v /\ dec E e SExt (enc e SExt v) <> Ok (v, []).
Proof. exists dbg, LittleE, (2 ^ 80). split; [reflexivity|]. vm_compute. discriminate. Qed.

(** ** C02 Reported size equals bytes written *)
Theorem C02_sizes :
  (forall e t (v : carrier t), lenN (enc e t v) = val_size t v)
  /\ (forall e p, lenN (write_pval e p) = pval_size p)
  /\ (forall e x, lenN (write_rawidx e x) = rawidx_size x)
  /\ (forall e o, lenN (write_obj e o) = obj_size o)
  /\ (forall e m, lenN (write_metadata e m) = metadata_size m).
Proof.
  exact (conj enc_size (conj pval_size_eq (conj rawidx_size_eq (conj obj_size_eq metadata_size_eq)))).
Qed.
Example C02_case : metadata_size ni_meta = 107 /\ lenN (write_metadata BigE ni_meta) = 107.
Proof. vm_compute. split; reflexivity. Qed.

(** ** C03 String encoding accepts exactly valid UTF-8 *)
Theorem C03_strings :
  (* success, exactly *)
  (forall E e bs s rest,
     dec E e SStr bs = Ok (s, rest) <->
     lenN s < 2 ^ 32 /\ bs = enc_uint e 4 (lenN s) ++ s ++ rest
     /\ alloc_ok E AString (lenN s) = true /\ well_formed_utf8 s)
  (* the three ways to fail once the length prefix is there *)
  /\ (forall E e len body,
        len < 2 ^ 32 ->
        let bs := enc_uint e 4 len ++ body in
        (alloc_ok E AString len = false -> dec E e SStr bs = Err EStringAllocationFailed)
        /\ (alloc_ok E AString len = true -> lenN body < len ->
            dec E e SStr bs = Err (EIo UnexpectedEof))
        /\ (alloc_ok E AString len = true -> len <= lenN body ->
            ~ well_formed_utf8 (firstn (N.to_nat len) body) ->
            dec E e SStr bs = Err EStringFormat))
  (* the length prefix is written modulo 2^32 *)
  /\ (forall e s, enc e SStr s = enc_uint e 4 (lenN s mod 2 ^ 32) ++ s).
Proof.
  split; [exact dec_str_iff|]. split; [|reflexivity].
  intros E e len body Hl bs. unfold bs. rewrite dec_str_err by exact Hl.
  repeat split.
  - intros ->. reflexivity.
  - intros -> H. replace (lenN body <? len) with true by lia. reflexivity.
  - intros -> H Hw. replace (lenN body <? len) with false by lia.
    destruct (utf8_valid (firstn (N.to_nat len) body)) eqn:K; [|reflexivity].
    apply utf8_valid_iff in K. contradiction.
Qed.
(** "é" is two bytes; a lone continuation byte is refused. *)
Example C03_case : dec dbg BigE SStr (bytes [0;0;0;2;195;169;5]) = Ok (bytes [195;169], bytes [5])
  /\ dec dbg BigE SStr (bytes [0;0;0;1;169]) = Err EStringFormat.
Proof. vm_compute. split; reflexivity. Qed.

(** ** C04 ToC flags are independent and reversible *)
Theorem C04_toc :
  (forall t, toc_of_u32 (toc_word t) = t /\ toc_word t < 2 ^ 32)
  /\ (forall v, let t := toc_of_u32 v in
        toc_meta t = N.testbit v 1 /\ toc_newlist t = N.testbit v 2
        /\ toc_raw t = N.testbit v 3 /\ toc_inter t = N.testbit v 5
        /\ toc_big t = N.testbit v 6 /\ toc_daqmx t = N.testbit v 7)
  /\ (forall v, toc_word (toc_of_u32 v) = N.land v 238)   (* 0xEE: bits 1,2,3,5,6,7 *)
  /\ (forall t, write_toc t = enc_uint LittleE 4 (toc_word t)).
Proof.
  split; [|split; [|split]].
  - intros t. split; [apply toc_of_word|apply toc_word_bound].
  - intros v. cbv zeta. unfold toc_of_u32.
    cbn [toc_meta toc_raw toc_daqmx toc_inter toc_big toc_newlist].
    rewrite !mask_bit_testbit. repeat split.
  - exact toc_word_of.
  - reflexivity.
Qed.
Example C04_case : toc_word (mkToc true true false true false true) = 46
  /\ toc_of_u32 4294967295 = mkToc true true true true true true.
Proof. vm_compute. split; reflexivity. Qed.

(** ** C05 Type codes are a bijection and unknown codes are refused *)
Theorem C05_type_codes :
  (forall a b, dtype_code a = dtype_code b -> a = b)
  /\ (forall e c rest, c < 2 ^ 32 ->
        (forall t, read_dtype e (enc_uint e 4 c ++ rest) = Ok (t, rest) <-> dtype_code t = c)
        /\ ((forall t, dtype_code t <> c) ->
            read_dtype e (enc_uint e 4 c ++ rest) = Err (EUnknownPropertyType c))).
Proof.
  split; [|exact read_dtype_code].
  intros a b H. assert (K : dtype_of_code (dtype_code a) = dtype_of_code (dtype_code b)) by now rewrite H.
  rewrite !dtype_of_to in K. now injection K.
Qed.
Example C05_case : read_dtype BigE (bytes [0;8;0;12]) = Ok (ComplexSingleFloat, [])
  /\ read_dtype BigE (bytes [0;0;0;14]) = Err (EUnknownPropertyType 14).
Proof. vm_compute. split; reflexivity. Qed.

(** ** C06 Property values survive a write/read cycle *)
Theorem C06_property_round_trip :
  (forall E e p rest, good_pval E p -> read_pval E e (write_pval e p ++ rest) = Ok (p, rest))
  /\ (forall E e t rest, t = FixedPoint \/ t = DAQmxRawData ->
        read_pval E e (write_dtype e t ++ rest) = Err (EUnsupportedType t)).
Proof. exact (conj read_pval_app read_pval_unsupported). Qed.
Example C06_case : good_pval dbg (PComplexSingle (1, 4294967295))
  /\ read_pval dbg BigE (write_pval BigE (PComplexSingle (1, 4294967295)))
     = Ok (PComplexSingle (1, 4294967295), []).
Proof. split; [|vm_compute; reflexivity]. repeat split; cbn; lia. Qed.

(** ** C07 Property value conversions are lossless and type-safe *)
Theorem C07_conversions :
  (forall t v p, pval_from t v = Some p -> pval_try_into t p = Some (Ok v))
  /\ (forall t, t <> SExt -> forall v, exists p, pval_from t v = Some p /\ pval_dtype p = natural t)
  /\ (forall t p, t <> SExt ->
        (exists v, pval_try_into t p = Some (Ok v) /\ pval_from t v = Some p)
        \/ (pval_try_into t p = Some (Err (EDataTypeMismatch (pval_dtype p) (natural t)))
            /\ pval_dtype p <> natural t)).
Proof.
  split; [exact pval_from_into|]. split; [|exact pval_conversions].
  intros t Ht v. destruct t; try contradiction; eexists; split; reflexivity.
Qed.
Example C07_case : pval_try_into SU8 (PString (bytes [120])) = Some (Err (EDataTypeMismatch TdmsString U8)).
Proof. reflexivity. Qed.

(** ** C08 Metadata blocks survive a write/read cycle *)
Theorem C08_metadata_round_trip :
  forall E e m rest, good_meta E m ->
    read_metadata E e (write_metadata e m ++ rest) = Ok (m, rest).
Proof. exact read_metadata_app. Qed.
Example C08_case : good_meta dbg ni_meta.
Proof.
  assert (S : forall s, utf8_valid s = true -> lenN s < 2 ^ 31 -> good_str dbg s).
  { intros s H1 H2. split; [now apply utf8_valid_iff|]. cbn [storable can_alloc dbg alloc_ok].
    split; lia. }
  unfold good_meta, ni_meta. split; [|split; reflexivity].
  repeat constructor; cbn; try (apply S; reflexivity); auto; try lia.
  all: apply utf8_valid_iff; reflexivity.
Qed.

(** ** C09 Segments survive a write/read cycle with correct offsets *)
(** Well-formed data to write: the size it reports is the size it has. *)
Definition honest (d : option wblock) : Prop :=
  match d with Some d => wb_size d = lenN (wb_bytes d) | None => True end.

Theorem C09_segment_round_trip :
  forall E e t m d before after,
    good_meta E m -> honest d ->
    let '(bs, returned) := write_segment e t (Some m) d in
    lenN bs < 2 ^ 64 ->
    firstn 4 bs = TDSm
    /\ segment_read E (before ++ bs ++ after) (lenN before) = Ok returned
    /\ sg_meta returned = Some m
    /\ sg_next returned = lenN bs - 28
    /\ sg_raw returned = lenN (write_metadata e m)
    /\ sg_toc returned = mkToc true (match d with Some _ => true | None => false end)
                               (toc_daqmx t) (toc_inter t)
                               (match e with BigE => true | LittleE => false end)
                               (toc_newlist t).
Proof.
  intros E e t m d before after Hm Hd.
  pose proof (write_segment_len e t (Some m) d) as Hl.
  pose proof (segment_round_trip E e t m d before after Hm) as Hr.
  destruct (write_segment e t (Some m) d) as [bs sg] eqn:Hw. cbn [fst snd] in *.
  intros Hb. injection Hw as <- <-. unfold LEAD_IN in Hl.
  cbn [sg_meta sg_next sg_raw sg_toc].
  assert (Hsz : (match d with Some d => wb_size d | None => 0 end)
                = lenN (match d with Some d => wb_bytes d | None => [] end)).
  { destruct d; [exact Hd|reflexivity]. }
  split; [reflexivity|]. split; [apply Hr; lia|]. split; [reflexivity|].
  split; [lia|]. split; [|reflexivity]. now rewrite metadata_size_eq.
Qed.
Example C09_case :
  let d := Some (mkWB 8 (bytes [1;0;0;0;2;0;0;0])) in
  honest d /\ lenN (fst (write_segment BigE toc_default (Some ni_meta) d)) = 143.
Proof. vm_compute. split; reflexivity. Qed.

(** ** C10 Metadata-free segments can be read back
    Full statement: for every raw data block [d], reading the segment written
    with no metadata returns a segment with [sg_meta = None]. It is false for
    every block, and for some blocks reading even fails. *)
Theorem C10_never_read_back_refuted :
  (forall E e t d before after s,
     segment_read E (before ++ fst (write_segment e t None d) ++ after) (lenN before) = Ok s ->
     sg_meta s <> None)
  /\ exists (E : env) (vs : list N),
       (* one u32 sample with value 1, then end of file *)
       segment_read E (fst (write_segment LittleE toc_default None
           (Some (mkWB 4 (concat (map (enc LittleE SU32) vs)))))) 0 = Err (EIo UnexpectedEof).
Proof.
  split.
  - intros E e t d before after s H. unfold segment_read in H.
    destruct (read_exact 4 _) as [[tag r1]| | |]; try discriminate.
    destruct (str_eqb tag TDSm); [|discriminate].
    apply bind_ok in H. destruct H as [[tocb r2] [_ H]].
    apply bind_ok in H. destruct H as [[s' r3] [H K]]. injection K as <-.
    unfold read_segment in H. bind_inv. discriminate.
  - exists dbg, [1]. vm_compute. reflexivity.
Qed.

(** What holds: the segment is read exactly as if its raw data were metadata;
    so if the raw data starts with four zero bytes it is read as a segment with
    an empty object list, otherwise the raw data decides. *)
Theorem C10_metadata_free_partial :
  forall E e t d before after,
    honest d -> lenN (match d with Some d => wb_bytes d | None => [] end) < 2 ^ 64 ->
    let w := write_segment e t None d in
    let data := match d with Some d => wb_bytes d | None => [] end in
    segment_read E (before ++ fst w ++ after) (lenN before)
    = ('(m, _) <- read_metadata E e (data ++ after) ;;
       Ok (mkSeg (sg_toc (snd w)) (sg_next (snd w)) (sg_raw (snd w)) (Some m)))
    /\ (alloc_ok E AObjects 0 = true -> firstn 4 data = [x00; x00; x00; x00] ->
        segment_read E (before ++ fst w ++ after) (lenN before)
        = Ok (mkSeg (sg_toc (snd w)) (sg_next (snd w)) (sg_raw (snd w)) (Some []))).
Proof.
  intros E e t d before after Hh Hl. cbv zeta.
  assert (Hs : (match d with Some d => wb_size d | None => 0 end) < 2 ^ 64).
  { destruct d; [unfold honest in Hh; rewrite Hh; exact Hl|reflexivity]. }
  split; [now apply segment_no_meta|].
  intros Ha Hz. rewrite segment_no_meta by exact Hs.
  destruct (match d with Some d => wb_bytes d | None => [] end) as [|a0 [|a1 [|a2 [|a3 dr]]]];
    try discriminate.
  injection Hz as -> -> -> ->. cbn [app]. rewrite read_metadata_zero by exact Ha. reflexivity.
Qed.
(** f64 1.0 little endian starts with zero bytes. *)
Example C10_case : firstn 4 (enc LittleE SF64 4607182418800017408) = [x00; x00; x00; x00].
Proof. reflexivity. Qed.

Print Assumptions C01_value_round_trip.
Print Assumptions C01_extended_overflow_refuted.
Print Assumptions C02_sizes.
Print Assumptions C03_strings.
Print Assumptions C04_toc.
Print Assumptions C05_type_codes.
Print Assumptions C06_property_round_trip.
Print Assumptions C07_conversions.
Print Assumptions C08_metadata_round_trip.
Print Assumptions C09_segment_round_trip.
Print Assumptions C10_never_read_back_refuted.
Print Assumptions C10_metadata_free_partial.
