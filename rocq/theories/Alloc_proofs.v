(** * What opening a file asks memory for *)
From Verif Require Import Base Lib Utf8 DataTypes MetaData Maps DataBlock Index TdmsFile Codec_proofs Parse_proofs.

Lemma add_segment_env E E' ix s : overflow_checks E' = overflow_checks E -> add_segment E' ix s = add_segment E ix s.
Proof.
  intros O. unfold add_segment, add_raw, from_segment, uadd. rewrite O. reflexivity.
Qed.
Lemma seek_to_env E E' p : seek_max E' = seek_max E -> seek_to E' p = seek_to E p.
Proof. intros S. unfold seek_to. now rewrite S. Qed.

(** ** Files that open *)
Section Enough.
Context (E E' : env) (L : N).
Hypothesis (HS : forall n, n <= L -> alloc_ok E' AString n = true)
           (HO : forall n, 12 * n <= L -> alloc_ok E' AObjects n = true)
           (HP : forall n, 8 * n <= L -> alloc_ok E' AProps n = true).

Lemma str_enough e bs x : lenN bs <= L -> dec_str E e bs = Ok x -> dec_str E' e bs = Ok x.
Proof.
  intros Hl. unfold dec_str. destruct (dec_uint e 4 bs) as [[n r]| | |] eqn:D; try discriminate. cbn [bind].
  pose proof (good_shorter _ _ _ _ _ (good_dec_uint e 4) D) as L1.
  destruct (alloc_ok E AString n); [|discriminate]. destruct (read_exact n r) as [[b r']| | |] eqn:R; try discriminate.
  pose proof (good_shorter _ _ _ _ _ (good_read_exact n) R) as L2. rewrite HS by lia. cbn [bind]. now rewrite ?R.
Qed.
Lemma dec_enough e t bs x : lenN bs <= L -> dec E e t bs = Ok x -> dec E' e t bs = Ok x.
Proof. intros Hl. destruct t; cbn [dec]; try (intros H; exact H). now apply str_enough. Qed.
Lemma pval_enough e bs x : lenN bs <= L -> read_pval E e bs = Ok x -> read_pval E' e bs = Ok x.
Proof.
  intros Hl. unfold read_pval. destruct (read_dtype e bs) as [[d r]| | |] eqn:D; try discriminate. cbn [bind].
  pose proof (good_shorter _ _ _ _ _ (good_read_dtype e) D) as L1.
  assert (A : forall t c, read_as (dec E e t) c r = Ok x -> read_as (dec E' e t) c r = Ok x).
  { intros t c. unfold read_as. destruct (dec E e t r) as [[v r']| | |] eqn:V; try discriminate.
    rewrite (dec_enough e t r (v, r')) by (assumption || lia). auto. }
  destruct d; auto.
Qed.
Lemma props_enough e : forall fuel count bs x, lenN bs <= L -> read_props E e fuel count bs = Ok x ->
  read_props E' e fuel count bs = Ok x /\ 8 * count <= lenN bs.
Proof.
  induction fuel as [|fuel IH]; intros count bs x Hl; cbn [read_props];
    (destruct (count =? 0) eqn:C; [intros H; split; [exact H|lia]|]); [discriminate|].
  destruct (dec E e SStr bs) as [[nm r1]| | |] eqn:D; try discriminate. cbn [bind].
  pose proof (good_shorter _ _ _ _ _ (good_dec_str E e) D) as L1.
  rewrite (dec_enough e SStr bs (nm, r1)) by assumption. cbn [bind].
  destruct (read_pval E e r1) as [[v r2]| | |] eqn:V; try discriminate. cbn [bind].
  pose proof (good_shorter _ _ _ _ _ (good_read_pval E e) V) as L2.
  rewrite (pval_enough e r1 (v, r2)) by (assumption || lia). cbn [bind].
  destruct (read_props E e fuel (N.pred count) r2) as [[ps r3]| | |] eqn:Rp; try discriminate. cbn [bind].
  destruct (IH (N.pred count) r2 (ps, r3)) as [Q1 Q2]; [lia|exact Rp|]. rewrite Q1. cbn [bind]. intros H. split; [exact H|lia].
Qed.
Lemma obj_enough e bs x : lenN bs <= L -> read_obj E e bs = Ok x -> read_obj E' e bs = Ok x.
Proof.
  intros Hl. unfold read_obj.
  destruct (dec E e SStr bs) as [[p r1]| | |] eqn:D; try discriminate. cbn [bind].
  pose proof (good_shorter _ _ _ _ _ (good_dec_str E e) D) as L1.
  rewrite (dec_enough e SStr bs (p, r1)) by assumption. cbn [bind].
  destruct (read_rawidx e r1) as [[i r2]| | |] eqn:Ri; try discriminate. cbn [bind].
  pose proof (good_shorter _ _ _ _ _ (good_read_rawidx e) Ri) as L2.
  destruct (dec_uint e 4 r2) as [[c r3]| | |] eqn:Du; try discriminate. cbn [bind].
  pose proof (good_shorter _ _ _ _ _ (good_dec_uint e 4) Du) as L3.
  destruct (alloc_ok E AProps c); [|discriminate].
  destruct (read_props E e (S (length r3)) c r3) as [[ps r4]| | |] eqn:Rp; try discriminate. cbn [bind].
  destruct (props_enough e (S (length r3)) c r3 (ps, r4)) as [Q1 Q2]; [lia|exact Rp|]. rewrite HP by lia. now rewrite Q1.
Qed.
Lemma objs_enough e : forall fuel count bs x, lenN bs <= L -> read_objs E e fuel count bs = Ok x ->
  read_objs E' e fuel count bs = Ok x /\ 12 * count <= lenN bs.
Proof.
  induction fuel as [|fuel IH]; intros count bs x Hl; cbn [read_objs];
    (destruct (count =? 0) eqn:C; [intros H; split; [exact H|lia]|]); [discriminate|].
  destruct (read_obj E e bs) as [[o r1]| | |] eqn:D; try discriminate. cbn [bind].
  pose proof (good_shorter _ _ _ _ _ (good_read_obj E e) D) as L1.
  rewrite (obj_enough e bs (o, r1)) by assumption. cbn [bind].
  destruct (read_objs E e fuel (N.pred count) r1) as [[os r2]| | |] eqn:Rp; try discriminate. cbn [bind].
  destruct (IH (N.pred count) r1 (os, r2)) as [Q1 Q2]; [lia|exact Rp|]. rewrite Q1. cbn [bind]. intros H. split; [exact H|lia].
Qed.
Lemma metadata_enough e bs x : lenN bs <= L -> read_metadata E e bs = Ok x -> read_metadata E' e bs = Ok x.
Proof.
  intros Hl. unfold read_metadata. destruct (dec_uint e 4 bs) as [[n r]| | |] eqn:D; try discriminate. cbn [bind].
  pose proof (good_shorter _ _ _ _ _ (good_dec_uint e 4) D) as L1.
  destruct (alloc_ok E AObjects n); [|discriminate]. intros H. destruct (objs_enough e (S (length r)) n r x ltac:(lia) H) as [Q1 Q2].
  now rewrite HO by lia.
Qed.
Lemma read_segment_enough t bs x : lenN bs <= L -> read_segment E t bs = Ok x -> read_segment E' t bs = Ok x.
Proof.
  intros Hl. unfold read_segment. cbv zeta.
  destruct (dec_uint (toc_endian t) 4 bs) as [[n1 r1]| | |] eqn:D1; try discriminate. cbn [bind].
  destruct (dec_uint (toc_endian t) 8 r1) as [[n2 r2]| | |] eqn:D2; try discriminate. cbn [bind].
  destruct (dec_uint (toc_endian t) 8 r2) as [[n3 r3]| | |] eqn:D3; try discriminate. cbn [bind].
  pose proof (good_shorter _ _ _ _ _ (good_dec_uint _ 4) D1) as L1.
  pose proof (good_shorter _ _ _ _ _ (good_dec_uint _ 8) D2) as L2.
  pose proof (good_shorter _ _ _ _ _ (good_dec_uint _ 8) D3) as L3.
  destruct (read_metadata E (toc_endian t) r3) as [[m r4]| | |] eqn:M; try discriminate. cbn [bind].
  rewrite (metadata_enough _ r3 (m, r4)) by (assumption || lia). auto.
Qed.
Lemma segment_enough f pos s : lenN f <= L -> segment_read E f pos = Ok s -> segment_read E' f pos = Ok s.
Proof.
  intros Hl. unfold segment_read. cbv zeta.
  assert (Ld : lenN (dropN pos f) <= L) by (rewrite lenN_dropN; lia).
  destruct (read_exact 4 (dropN pos f)) as [[tag r1]| | |] eqn:R; try discriminate.
  pose proof (good_shorter _ _ _ _ _ (good_read_exact 4) R) as L1.
  destruct (str_eqb tag TDSm); [|discriminate].
  destruct (read_exact 4 r1) as [[tb r2]| | |] eqn:R2; try discriminate. cbn [bind].
  pose proof (good_shorter _ _ _ _ _ (good_read_exact 4) R2) as L2.
  destruct (read_segment E (toc_of_u32 (le_val tb)) r2) as [[sg r3]| | |] eqn:Rs; try discriminate.
  rewrite (read_segment_enough _ r2 (sg, r3)) by (assumption || lia). auto.
Qed.
Lemma build_enough f : lenN f <= L -> overflow_checks E' = overflow_checks E -> seek_max E' = seek_max E ->
  forall fuel ix pos ix', build_loop E f fuel ix pos = Ok ix' -> build_loop E' f fuel ix pos = Ok ix'.
Proof.
  intros Hl Ov Sm. induction fuel as [|fuel IH]; intros ix pos ix'; cbn [build_loop]; [discriminate|].
  destruct (segment_read E f pos) as [s|x| |] eqn:Sr; try discriminate.
  - rewrite (segment_enough f pos s Hl Sr), (add_segment_env E E' ix s Ov).
    destruct (add_segment E ix s) as [ix1 [n| | |]]; try discriminate. cbn [bind].
    rewrite (seek_to_env E E' n Sm). destruct (seek_to E n); auto.
  - destruct x; try discriminate. intros H.
    assert (X : segment_read E' f pos = Err EEndOfFile).
    { apply segment_read_eof. now apply segment_read_eof in Sr. }
    now rewrite X.
Qed.
End Enough.

(** ** Requests that are ever made *)
Lemma dec_uint_lt e w bs n r : dec_uint e w bs = Ok (n, r) -> n < 256 ^ N.of_nat w.
Proof.
  unfold dec_uint. intros H. apply bind_ok in H. destruct H as [[b r'] [R H]]. injection H as <- <-.
  unfold read_exact in R. destruct (N.of_nat w <=? lenN bs) eqn:Q; [|discriminate]. injection R as <- <-.
  eapply N.lt_le_trans; [apply uint_val_bound|]. apply N.pow_le_mono_r; [discriminate|].
  unfold lenN. rewrite firstn_length. lia.
Qed.
Section Same.
Context (E E' : env).
Hypothesis (HA : forall k n, n < 2 ^ 32 -> alloc_ok E' k n = alloc_ok E k n).

Lemma count_same k e bs n r : dec_uint e 4 bs = Ok (n, r) -> alloc_ok E' k n = alloc_ok E k n.
Proof. intros D. apply HA. apply dec_uint_lt in D. exact D. Qed.
Lemma dec_same e t bs : dec E' e t bs = dec E e t bs.
Proof.
  destruct t; cbn [dec]; try reflexivity. unfold dec_str.
  destruct (dec_uint e 4 bs) as [[n r]| | |] eqn:D; try reflexivity. cbn [bind]. now rewrite (count_same _ _ _ _ _ D).
Qed.
Lemma pval_same e bs : read_pval E' e bs = read_pval E e bs.
Proof.
  unfold read_pval. destruct (read_dtype e bs) as [[d r]| | |]; try reflexivity. cbn [bind].
  assert (A : forall t c, read_as (dec E' e t) c r = read_as (dec E e t) c r).
  { intros t c. unfold read_as. now rewrite dec_same. }
  destruct d; auto.
Qed.
Lemma props_same e : forall fuel count bs, read_props E' e fuel count bs = read_props E e fuel count bs.
Proof.
  induction fuel as [|fuel IH]; intros count bs; cbn [read_props]; [reflexivity|]. destruct (count =? 0); [reflexivity|].
  rewrite dec_same. destruct (dec E e SStr bs) as [[nm r1]| | |]; try reflexivity. cbn [bind].
  rewrite pval_same. destruct (read_pval E e r1) as [[v r2]| | |]; try reflexivity. cbn [bind]. now rewrite IH.
Qed.
Lemma obj_same e bs : read_obj E' e bs = read_obj E e bs.
Proof.
  unfold read_obj. rewrite dec_same. destruct (dec E e SStr bs) as [[p r1]| | |]; try reflexivity. cbn [bind].
  destruct (read_rawidx e r1) as [[i r2]| | |]; try reflexivity. cbn [bind].
  destruct (dec_uint e 4 r2) as [[c r3]| | |] eqn:D; try reflexivity. cbn [bind].
  now rewrite (count_same _ _ _ _ _ D), props_same.
Qed.
Lemma objs_same e : forall fuel count bs, read_objs E' e fuel count bs = read_objs E e fuel count bs.
Proof.
  induction fuel as [|fuel IH]; intros count bs; cbn [read_objs]; [reflexivity|]. destruct (count =? 0); [reflexivity|].
  rewrite obj_same. destruct (read_obj E e bs) as [[o r1]| | |]; try reflexivity. cbn [bind]. now rewrite IH.
Qed.
Lemma metadata_same e bs : read_metadata E' e bs = read_metadata E e bs.
Proof.
  unfold read_metadata. destruct (dec_uint e 4 bs) as [[n r]| | |] eqn:D; try reflexivity. cbn [bind].
  now rewrite (count_same _ _ _ _ _ D), objs_same.
Qed.
Lemma segment_same f pos : segment_read E' f pos = segment_read E f pos.
Proof.
  unfold segment_read. cbv zeta. destruct (read_exact 4 (dropN pos f)) as [[tag r1]| | |]; try reflexivity.
  destruct (str_eqb tag TDSm); [|reflexivity]. destruct (read_exact 4 r1) as [[tb r2]| | |]; try reflexivity. cbn [bind].
  unfold read_segment. cbv zeta. set (t := toc_of_u32 (le_val tb)).
  destruct (dec_uint (toc_endian t) 4 r2) as [[n1 q1]| | |]; try reflexivity. cbn [bind].
  destruct (dec_uint (toc_endian t) 8 q1) as [[n2 q2]| | |]; try reflexivity. cbn [bind].
  destruct (dec_uint (toc_endian t) 8 q2) as [[n3 q3]| | |]; try reflexivity. cbn [bind]. now rewrite metadata_same.
Qed.
Lemma build_same f : overflow_checks E' = overflow_checks E -> seek_max E' = seek_max E ->
  forall fuel ix pos, build_loop E' f fuel ix pos = build_loop E f fuel ix pos.
Proof.
  intros Ov Sm. induction fuel as [|fuel IH]; intros ix pos; cbn [build_loop]; [reflexivity|].
  rewrite segment_same. destruct (segment_read E f pos) as [s|x| |]; try reflexivity.
  rewrite (add_segment_env E E' ix s Ov). destruct (add_segment E ix s) as [ix1 [n| | |]]; try reflexivity. cbn [bind].
  rewrite (seek_to_env E E' n Sm). destruct (seek_to E n); auto.
Qed.
End Same.
