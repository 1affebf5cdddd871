(** * Proofs about the ToC, segments and property conversions *)
From Verif Require Import Base Lib Utf8 DataTypes MetaData SpecCodec Codec_proofs.

(** ** ToC *)
Lemma mask_bit_testbit v b : mask_bit_set v b = N.testbit v b.
Proof.
  unfold mask_bit_set. rewrite N.shiftl_1_l. destruct (N.testbit v b) eqn:H.
  - destruct (N.land v (2 ^ b) =? 0) eqn:K; [|reflexivity].
    apply N.eqb_eq in K. assert (N.testbit (N.land v (2 ^ b)) b = true).
    { rewrite N.land_spec, H, N.pow2_bits_true. reflexivity. }
    rewrite K, N.bits_0 in H0. discriminate.
  - assert (N.land v (2 ^ b) = 0) as ->; [|reflexivity].
    apply N.bits_inj. intros i. rewrite N.land_spec, N.bits_0.
    destruct (N.eq_dec b i) as [->|Hn]; [now rewrite H|].
    rewrite N.pow2_bits_false by congruence. now rewrite andb_false_r.
Qed.

Lemma toc_of_word t : toc_of_u32 (toc_word t) = t.
Proof. destruct t as [[] [] [] [] [] []]; reflexivity. Qed.

Lemma toc_word_bound t : toc_word t < 256 ^ N.of_nat 4.
Proof. destruct t as [[] [] [] [] [] []]; reflexivity. Qed.

Lemma toc_of_mask v : toc_of_u32 (N.land v 238) = toc_of_u32 v.
Proof.
  unfold toc_of_u32. rewrite !mask_bit_testbit, !N.land_spec.
  change (N.testbit 238 1) with true. change (N.testbit 238 3) with true.
  change (N.testbit 238 7) with true. change (N.testbit 238 5) with true.
  change (N.testbit 238 6) with true. change (N.testbit 238 2) with true.
  now rewrite !andb_true_r.
Qed.

Lemma toc_word_testbit t i : N.testbit (toc_word t) i =
  (toc_meta t && (i =? 1)) || (toc_newlist t && (i =? 2)) || (toc_raw t && (i =? 3))
  || (toc_inter t && (i =? 5)) || (toc_big t && (i =? 6)) || (toc_daqmx t && (i =? 7)).
Proof.
  destruct (N.ltb_spec i 8) as [H|H].
  - assert (C : i = 0 \/ i = 1 \/ i = 2 \/ i = 3 \/ i = 4 \/ i = 5 \/ i = 6 \/ i = 7) by lia.
    destruct t as [[] [] [] [] [] []];
    repeat (destruct C as [->|C]; [reflexivity|]); subst i; reflexivity.
  - replace (i =? 1) with false by lia. replace (i =? 2) with false by lia.
    replace (i =? 3) with false by lia. replace (i =? 5) with false by lia.
    replace (i =? 6) with false by lia. replace (i =? 7) with false by lia.
    rewrite !andb_false_r. cbn [orb].
    destruct (N.eq_dec (toc_word t) 0) as [->|Hz]; [apply N.bits_0|].
    apply N.bits_above_log2.
    assert (toc_word t < 2 ^ 8) by (destruct t as [[] [] [] [] [] []]; reflexivity).
    apply N.log2_lt_pow2 in H0; lia.
Qed.

Lemma toc_word_of v : toc_word (toc_of_u32 v) = N.land v 238.
Proof.
  apply N.bits_inj. intros i. rewrite toc_word_testbit, N.land_spec.
  unfold toc_of_u32. cbn [toc_meta toc_raw toc_daqmx toc_inter toc_big toc_newlist].
  rewrite !mask_bit_testbit.
  destruct (N.ltb_spec i 8) as [H|H].
  - assert (C : i = 0 \/ i = 1 \/ i = 2 \/ i = 3 \/ i = 4 \/ i = 5 \/ i = 6 \/ i = 7) by lia.
    repeat (destruct C as [->|C];
      [cbn; repeat match goal with |- context [N.testbit v ?k] => destruct (N.testbit v k) end;
       reflexivity|]);
    subst i; cbn; repeat match goal with |- context [N.testbit v ?k] => destruct (N.testbit v k) end;
       reflexivity.
  - replace (i =? 1) with false by lia. replace (i =? 2) with false by lia.
    replace (i =? 3) with false by lia. replace (i =? 5) with false by lia.
    replace (i =? 6) with false by lia. replace (i =? 7) with false by lia.
    rewrite !andb_false_r. cbn [orb].
    rewrite (N.bits_above_log2 238) by (change (N.log2 238) with 7; lia).
    now rewrite andb_false_r.
Qed.

(** ** Segments *)
Lemma segment_read_tag E pre r :
  segment_read E (pre ++ TDSm ++ r) (lenN pre) =
  ('(tocb, r2) <- read_exact 4 r ;;
   '(s, _) <- read_segment E (toc_of_u32 (le_val tocb)) r2 ;; Ok s).
Proof.
  unfold segment_read. rewrite dropN_app_exact.
  rewrite read_exact_app' by reflexivity. reflexivity.
Qed.

Lemma segment_read_toc E pre t r :
  segment_read E (pre ++ TDSm ++ write_toc t ++ r) (lenN pre) =
  ('(s, _) <- read_segment E t r ;; Ok s).
Proof.
  rewrite segment_read_tag. unfold write_toc.
  rewrite read_exact_app' by (unfold lenN; now rewrite le_bytes_length). cbn [bind].
  rewrite le_val_bytes, N.mod_small by apply toc_word_bound. now rewrite toc_of_word.
Qed.

Lemma toc_endian_flags e t a b : toc_endian (write_toc_flags e t a b) = e.
Proof. destruct e; reflexivity. Qed.

Lemma lenN_leadin e t n1 n2 :
  lenN (TDSm ++ write_toc t ++ enc_uint e 4 4713 ++ enc_uint e 8 n1 ++ enc_uint e 8 n2) = LEAD_IN.
Proof.
  rewrite !lenN_app. unfold write_toc, enc_uint. rewrite !lenN_uint_bytes.
  unfold lenN at 2. rewrite le_bytes_length. reflexivity.
Qed.

Lemma write_segment_len e t m d :
  lenN (fst (write_segment e t m d)) =
  LEAD_IN + (match m with Some m => metadata_size m | None => 0 end)
  + lenN (match d with Some d => wb_bytes d | None => [] end).
Proof.
  unfold write_segment. cbn [fst].
  rewrite !lenN_app. unfold write_toc, enc_uint. rewrite !lenN_uint_bytes.
  unfold lenN at 2. rewrite le_bytes_length.
  assert (lenN (match m with Some m => write_metadata e m | None => [] end)
          = match m with Some m => metadata_size m | None => 0 end) as ->.
  { destruct m; [apply metadata_size_eq|reflexivity]. }
  change (lenN TDSm) with 4. unfold LEAD_IN. lia.
Qed.

Lemma segment_round_trip E e t m d pre post :
  good_meta E m ->
  metadata_size m + (match d with Some d => wb_size d | None => 0 end) < 2 ^ 64 ->
  segment_read E (pre ++ fst (write_segment e t (Some m) d) ++ post) (lenN pre)
  = Ok (snd (write_segment e t (Some m) d)).
Proof.
  intros Hm Hs. unfold write_segment. cbn [fst snd]. rewrite <- !app_assoc.
  rewrite segment_read_toc. unfold read_segment. rewrite toc_endian_flags.
  rewrite dec_uint_app by reflexivity. cbn [bind].
  rewrite dec_uint_app by exact Hs. cbn [bind].
  rewrite dec_uint_app by (change (256 ^ N.of_nat 8) with (2 ^ 64); lia). cbn [bind].
  rewrite read_metadata_app by assumption. reflexivity.
Qed.

(** A segment without metadata is read as if its data were metadata. *)
Lemma segment_no_meta E e t d pre post :
  (match d with Some d => wb_size d | None => 0 end) < 2 ^ 64 ->
  segment_read E (pre ++ fst (write_segment e t None d) ++ post) (lenN pre)
  = ('(m, _) <- read_metadata E e ((match d with Some d => wb_bytes d | None => [] end) ++ post) ;;
     Ok (mkSeg (sg_toc (snd (write_segment e t None d)))
               (sg_next (snd (write_segment e t None d)))
               (sg_raw (snd (write_segment e t None d))) (Some m))).
Proof.
  intros Hs. unfold write_segment. cbn [fst snd]. rewrite <- !app_assoc.
  rewrite segment_read_toc. unfold read_segment. rewrite toc_endian_flags.
  rewrite dec_uint_app by reflexivity. cbn [bind].
  rewrite dec_uint_app by (rewrite N.add_0_l; exact Hs). cbn [bind].
  rewrite dec_uint_app by reflexivity. cbn [bind app].
  destruct (read_metadata E e _) as [[m r]| | |]; reflexivity.
Qed.

(** Zero bytes where metadata is expected read as an empty object list. *)
Lemma read_metadata_zero E e r : alloc_ok E AObjects 0 = true ->
  read_metadata E e (x00 :: x00 :: x00 :: x00 :: r) = Ok ([], r).
Proof.
  intros Ha. unfold read_metadata.
  change (x00 :: x00 :: x00 :: x00 :: r) with ([x00; x00; x00; x00] ++ r).
  assert (dec_uint e 4 ([x00; x00; x00; x00] ++ r) = Ok (0, r)) as ->.
  { unfold dec_uint. rewrite read_exact_app' by reflexivity. destruct e; reflexivity. }
  cbn [bind]. now rewrite Ha.
Qed.

(** ** Statements used by Thm_Codec *)
Lemma dec_uint_ok e w bs n r : dec_uint e w bs = Ok (n, r) ->
  n < 256 ^ N.of_nat w /\ bs = enc_uint e w n ++ r.
Proof.
  unfold dec_uint, enc_uint. intros H. bind_inv. apply read_exact_ok in Hb.
  destruct Hb as [-> Hl]. split.
  - rewrite <- Hl. apply uint_val_bound.
  - f_equal. replace w with (length l) by (unfold lenN in Hl; lia).
    now rewrite uint_bytes_val.
Qed.

Lemma dec_str_iff E e bs s r :
  dec E e SStr bs = Ok (s, r) <->
  lenN s < 2 ^ 32 /\ bs = enc_uint e 4 (lenN s) ++ s ++ r
  /\ alloc_ok E AString (lenN s) = true /\ well_formed_utf8 s.
Proof.
  cbn [dec]. unfold dec_str. split.
  - intros H. apply bind_ok in H. destruct H as [[len r1] [H1 H]].
    apply dec_uint_ok in H1. destruct H1 as [Hl ->].
    destruct (alloc_ok E AString len) eqn:Ha; [|discriminate].
    apply bind_ok in H. destruct H as [[b r2] [H2 H]].
    apply read_exact_ok in H2. destruct H2 as [-> <-].
    destruct (utf8_valid b) eqn:Hu; [|discriminate].
    injection H; intros; subst. repeat split; auto.
    now apply utf8_valid_iff.
  - intros [Hl [-> [Ha Hu]]]. rewrite dec_uint_app by exact Hl. cbn [bind]. rewrite Ha.
    rewrite read_exact_app. cbn [bind]. apply utf8_valid_iff in Hu. now rewrite Hu.
Qed.

Lemma dec_str_err E e len body :
  len < 2 ^ 32 ->
  dec E e SStr (enc_uint e 4 len ++ body) =
    if alloc_ok E AString len then
      if lenN body <? len then Err (EIo UnexpectedEof)
      else if utf8_valid (firstn (N.to_nat len) body)
           then Ok (firstn (N.to_nat len) body, skipn (N.to_nat len) body)
           else Err EStringFormat
    else Err EStringAllocationFailed.
Proof.
  intros H. cbn [dec]. unfold dec_str. rewrite dec_uint_app by exact H. cbn [bind].
  destruct (alloc_ok E AString len); [|reflexivity].
  unfold read_exact. destruct (len <=? lenN body) eqn:K.
  - replace (lenN body <? len) with false by lia. reflexivity.
  - replace (lenN body <? len) with true by lia. reflexivity.
Qed.

Lemma pval_conversions t p : t <> SExt ->
  (exists v, pval_try_into t p = Some (Ok v) /\ pval_from t v = Some p)
  \/ (pval_try_into t p = Some (Err (EDataTypeMismatch (pval_dtype p) (natural t)))
      /\ pval_dtype p <> natural t).
Proof.
  intros H. destruct t; try contradiction; destruct p;
    try (left; eexists; split; reflexivity); right; split; (reflexivity || discriminate).
Qed.

Lemma pval_from_into t v p : pval_from t v = Some p -> pval_try_into t p = Some (Ok v).
Proof. destruct t; cbn; intros H; try discriminate; injection H; intros <-; reflexivity. Qed.

Lemma read_dtype_code e c r : c < 2 ^ 32 ->
  (forall t, read_dtype e (enc_uint e 4 c ++ r) = Ok (t, r) <-> dtype_code t = c)
  /\ ((forall t, dtype_code t <> c) ->
      read_dtype e (enc_uint e 4 c ++ r) = Err (EUnknownPropertyType c)).
Proof.
  intros H. unfold read_dtype. rewrite dec_uint_app by exact H. cbn [bind]. split.
  - intros t. destruct (dtype_of_code c) eqn:K.
    + split; intros Q.
      * injection Q; intros; subst. now apply dtype_to_of.
      * rewrite <- Q in K. rewrite dtype_of_to in K. injection K; intros; subst. reflexivity.
    + split; intros Q; [discriminate|]. rewrite <- Q, dtype_of_to in K. discriminate.
  - intros Hn. destruct (dtype_of_code c) eqn:K; [|reflexivity].
    apply dtype_to_of in K. now destruct (Hn d).
Qed.

Lemma read_pval_unsupported E e t r : t = FixedPoint \/ t = DAQmxRawData ->
  read_pval E e (write_dtype e t ++ r) = Err (EUnsupportedType t).
Proof. intros H. unfold read_pval. rewrite read_dtype_app. destruct H as [-> | ->]; reflexivity. Qed.
