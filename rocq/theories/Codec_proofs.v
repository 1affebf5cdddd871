(** * Proofs for the codec claims *)
From Verif Require Import Base Lib Utf8 DataTypes MetaData SpecCodec.

Ltac Zify.zify_post_hook ::= Z.div_mod_to_equations.

(** ** UTF-8 *)
Lemma in_range_iff lo hi b : in_range lo hi b = true <-> lo <= Byte.to_N b /\ Byte.to_N b <= hi.
Proof. unfold in_range. lia. Qed.

Lemma byte_small n : n < 256 -> Byte.to_N (byte_of_N n) = n.
Proof. intros. rewrite byte_of_N_to_N. now apply N.mod_small. Qed.

Lemma byte_is b n : n = Byte.to_N b -> byte_of_N n = b.
Proof. intros ->. apply byte_of_to_N. Qed.

Lemma utf8_encode_valid c r : scalar c -> utf8_valid (utf8_encode c ++ r) = utf8_valid r.
Proof.
  intros H. unfold scalar in H. unfold utf8_encode.
  destruct (c <? 128) eqn:H1; [|destruct (c <? 2048) eqn:H2; [|destruct (c <? 65536) eqn:H3]];
    cbn [map app utf8_valid]; unfold cont, in_range; rewrite !byte_small by lia.
  - replace ((0 <=? c) && (c <=? 127)) with true by lia. reflexivity.
  - replace ((0 <=? 192 + c / 64) && (192 + c / 64 <=? 127)) with false by lia.
    replace ((194 <=? 192 + c / 64) && (192 + c / 64 <=? 223)) with true by lia.
    replace ((128 <=? 128 + c mod 64) && (128 + c mod 64 <=? 191)) with true by lia.
    reflexivity.
  - replace ((0 <=? 224 + c / 4096) && (224 + c / 4096 <=? 127)) with false by lia.
    replace ((194 <=? 224 + c / 4096) && (224 + c / 4096 <=? 223)) with false by lia.
    replace ((224 <=? 224 + c / 4096) && (224 + c / 4096 <=? 239)) with true by lia.
    replace ((128 <=? 128 + c mod 64) && (128 + c mod 64 <=? 191)) with true by lia.
    replace ((128 <=? 128 + (c / 64) mod 64) && (128 + (c / 64) mod 64 <=? 191)) with true by lia.
    destruct (224 + c / 4096 =? 224) eqn:H4.
    + replace ((160 <=? 128 + (c / 64) mod 64) && (128 + (c / 64) mod 64 <=? 191)) with true by lia.
      reflexivity.
    + destruct (224 + c / 4096 =? 237) eqn:H5; [|reflexivity].
      replace ((128 <=? 128 + (c / 64) mod 64) && (128 + (c / 64) mod 64 <=? 159)) with true by lia.
      reflexivity.
  - replace ((0 <=? 240 + c / 262144) && (240 + c / 262144 <=? 127)) with false by lia.
    replace ((194 <=? 240 + c / 262144) && (240 + c / 262144 <=? 223)) with false by lia.
    replace ((224 <=? 240 + c / 262144) && (240 + c / 262144 <=? 239)) with false by lia.
    replace ((240 <=? 240 + c / 262144) && (240 + c / 262144 <=? 244)) with true by lia.
    replace ((128 <=? 128 + c mod 64) && (128 + c mod 64 <=? 191)) with true by lia.
    replace ((128 <=? 128 + (c / 64) mod 64) && (128 + (c / 64) mod 64 <=? 191)) with true by lia.
    replace ((128 <=? 128 + (c / 4096) mod 64) && (128 + (c / 4096) mod 64 <=? 191)) with true by lia.
    destruct (240 + c / 262144 =? 240) eqn:H4.
    + replace ((144 <=? 128 + (c / 4096) mod 64) && (128 + (c / 4096) mod 64 <=? 191)) with true by lia.
      reflexivity.
    + destruct (240 + c / 262144 =? 244) eqn:H5; [|reflexivity].
      replace ((128 <=? 128 + (c / 4096) mod 64) && (128 + (c / 4096) mod 64 <=? 143)) with true by lia.
      reflexivity.
Qed.

(** One step of validation consumes the encoding of a scalar value. *)
Lemma utf8_valid_step b r : utf8_valid (b :: r) = true ->
  exists c r', scalar c /\ b :: r = utf8_encode c ++ r' /\ utf8_valid r' = true
               /\ (length r' <= length r)%nat.
Proof.
  cbn [utf8_valid]. intros H.
  destruct (in_range 0 127 b) eqn:H1.
  { apply in_range_iff in H1. exists (Byte.to_N b), r. unfold scalar, utf8_encode.
    replace (Byte.to_N b <? 128) with true by lia. cbn [map app].
    rewrite byte_of_to_N. repeat split; auto; lia. }
  destruct (in_range 194 223 b) eqn:H2.
  { destruct r as [|b1 r1]; [discriminate|].
    apply andb_true_iff in H. destruct H as [K1 K2].
    unfold cont in K1. apply in_range_iff in K1, H2.
    exists ((Byte.to_N b - 192) * 64 + (Byte.to_N b1 - 128)), r1.
    unfold scalar, utf8_encode.
    set (c := (Byte.to_N b - 192) * 64 + (Byte.to_N b1 - 128)).
    assert (Hc : c = (Byte.to_N b - 192) * 64 + (Byte.to_N b1 - 128)) by reflexivity. clearbody c.
    replace (c <? 128) with false by lia. replace (c <? 2048) with true by lia.
    cbn [map app length]. rewrite (byte_is b), (byte_is b1) by lia.
    repeat split; auto; try lia. }
  destruct (in_range 224 239 b) eqn:H3.
  { destruct r as [|b1 [|b2 r2]]; try discriminate.
    apply andb_true_iff in H. destruct H as [K K3].
    apply andb_true_iff in K. destruct K as [K1 K2].
    unfold cont in K1, K2. apply in_range_iff in K2, H3.
    assert (H1' : 128 <= Byte.to_N b1 /\ Byte.to_N b1 <= 191 /\
                  (Byte.to_N b = 224 -> 160 <= Byte.to_N b1) /\
                  (Byte.to_N b = 237 -> Byte.to_N b1 <= 159)).
    { destruct (Byte.to_N b =? 224) eqn:?; [|destruct (Byte.to_N b =? 237) eqn:?];
        apply in_range_iff in K1; repeat split; intros; lia. }
    clear K1.
    exists ((Byte.to_N b - 224) * 4096 + (Byte.to_N b1 - 128) * 64 + (Byte.to_N b2 - 128)), r2.
    unfold scalar, utf8_encode.
    match goal with |- context [?x + ?y + ?z <? 128] => set (c := x + y + z);
      assert (Hc : c = x + y + z) by reflexivity; clearbody c end.
    replace (c <? 128) with false by lia. replace (c <? 2048) with false by lia.
    replace (c <? 65536) with true by lia.
    cbn [map app length]. rewrite (byte_is b), (byte_is b1), (byte_is b2) by lia.
    repeat split; auto; try lia. }
  destruct (in_range 240 244 b) eqn:H4; [|discriminate].
  destruct r as [|b1 [|b2 [|b3 r3]]]; try discriminate.
  apply andb_true_iff in H. destruct H as [K K4].
  apply andb_true_iff in K. destruct K as [K K3].
  apply andb_true_iff in K. destruct K as [K1 K2].
  unfold cont in K1, K2, K3. apply in_range_iff in K2, K3, H4.
  assert (H1' : 128 <= Byte.to_N b1 /\ Byte.to_N b1 <= 191 /\
                (Byte.to_N b = 240 -> 144 <= Byte.to_N b1) /\
                (Byte.to_N b = 244 -> Byte.to_N b1 <= 143)).
  { destruct (Byte.to_N b =? 240) eqn:?; [|destruct (Byte.to_N b =? 244) eqn:?];
      apply in_range_iff in K1; repeat split; intros; lia. }
  clear K1.
  exists ((Byte.to_N b - 240) * 262144 + (Byte.to_N b1 - 128) * 4096
          + (Byte.to_N b2 - 128) * 64 + (Byte.to_N b3 - 128)), r3.
  unfold scalar, utf8_encode.
  match goal with |- context [?x + ?y + ?z + ?u <? 128] => set (c := x + y + z + u);
    assert (Hc : c = x + y + z + u) by reflexivity; clearbody c end.
  replace (c <? 128) with false by lia. replace (c <? 2048) with false by lia.
  replace (c <? 65536) with false by lia.
  cbn [map app length]. rewrite (byte_is b), (byte_is b1), (byte_is b2), (byte_is b3) by lia.
  repeat split; auto; try lia.
Qed.

Lemma utf8_valid_iff s : utf8_valid s = true <-> well_formed_utf8 s.
Proof.
  split.
  - remember (length s) as n eqn:Hn.
    assert (Hle : (length s <= n)%nat) by lia. clear Hn. revert s Hle.
    induction n as [|n IH]; intros s Hle H.
    + destruct s; [|simpl in Hle; lia]. exists []. split; [constructor|reflexivity].
    + destruct s as [|b r]; [exists []; split; [constructor|reflexivity]|].
      apply utf8_valid_step in H. destruct H as [c [r' [Hc [Heq [Hv Hl]]]]].
      simpl in Hle. destruct (IH r' ltac:(lia) Hv) as [cs [Hcs Hr]].
      exists (c :: cs). split; [now constructor|]. simpl. now rewrite Heq, Hr.
  - intros [cs [Hcs ->]]. induction Hcs as [|c cs Hc _ IH]; [reflexivity|].
    simpl. now rewrite utf8_encode_valid.
Qed.

(** ** Integers *)
Lemma dec_uint_app e w n r : n < 256 ^ N.of_nat w ->
  dec_uint e w (enc_uint e w n ++ r) = Ok (n, r).
Proof.
  intros H. unfold dec_uint, enc_uint.
  rewrite read_exact_app' by apply lenN_uint_bytes. simpl.
  rewrite uint_val_bytes, N.mod_small by assumption. reflexivity.
Qed.

Lemma dec_uint_app_mod e w n r :
  dec_uint e w (enc_uint e w n ++ r) = Ok (n mod 256 ^ N.of_nat w, r).
Proof.
  unfold dec_uint, enc_uint.
  rewrite read_exact_app' by apply lenN_uint_bytes. simpl.
  now rewrite uint_val_bytes.
Qed.

Lemma to_of_signed w z : (0 < w)%nat -> in_signed (8 * Z.of_nat w) z ->
  to_signed w (of_signed w z) = z /\ of_signed w z < 256 ^ N.of_nat w.
Proof.
  intros Hw [H1 H2]. unfold to_signed, of_signed.
  set (b := (8 * Z.of_nat w)%Z) in *.
  assert (Hb : (0 < b)%Z) by lia.
  assert (P : (2 ^ b = 2 * 2 ^ (b - 1))%Z).
  { rewrite <- Z.pow_succ_r by lia. f_equal. lia. }
  assert (Hp : (0 < 2 ^ (b - 1))%Z) by (apply Z.pow_pos_nonneg; lia).
  assert (E1 : Z.of_N (2 ^ (8 * N.of_nat w - 1)) = (2 ^ (b - 1))%Z).
  { rewrite N2Z.inj_pow. f_equal. lia. }
  assert (E2 : Z.of_N (256 ^ N.of_nat w) = (2 ^ b)%Z).
  { rewrite N2Z.inj_pow. change (Z.of_N 256) with (2 ^ 8)%Z. rewrite <- Z.pow_mul_r by lia.
    f_equal. lia. }
  pose proof (Z.mod_pos_bound z (2 ^ b) ltac:(lia)) as Hm.
  destruct (Z.leb_spec 0 z) as [Hz|Hz].
  - rewrite Z.mod_small by lia.
    split; [|lia].
    destruct (Z.to_N z <? 2 ^ (8 * N.of_nat w - 1)) eqn:K; lia.
  - assert (Hq : (z mod 2 ^ b = z + 2 ^ b)%Z).
    { symmetry. apply Z.mod_unique with (-1)%Z; lia. }
    rewrite Hq. split; [|lia].
    destruct (Z.to_N (z + 2 ^ b) <? 2 ^ (8 * N.of_nat w - 1)) eqn:K; lia.
Qed.

Lemma dec_sint_app e w z r : (0 < w)%nat -> in_signed (8 * Z.of_nat w) z ->
  dec_sint e w (enc_sint e w z ++ r) = Ok (z, r).
Proof.
  intros Hw H. destruct (to_of_signed w z Hw H) as [H1 H2].
  unfold dec_sint, enc_sint. rewrite dec_uint_app by assumption. simpl. now rewrite H1.
Qed.

(** ** Extended floats *)
Lemma firstn_le_bytes k : forall w n, (k <= w)%nat -> firstn k (le_bytes w n) = le_bytes k n.
Proof.
  induction k as [|k IH]; intros w n H; [reflexivity|].
  destruct w as [|w]; [lia|]. simpl. f_equal. apply IH. lia.
Qed.

Lemma enc_ext_eq e n : enc_ext e n = uint_bytes e 10 n.
Proof.
  unfold enc_ext. destruct e; cbn [uint_bytes].
  - rewrite <- (firstn_le_bytes 10 16) by lia.
    rewrite skipn_rev, le_bytes_length. reflexivity.
  - now rewrite firstn_le_bytes by lia.
Qed.

Lemma dec_ext_app e n r : dec_ext e (enc_ext e n ++ r) = Ok (n mod 2 ^ 80, r).
Proof.
  unfold dec_ext. rewrite enc_ext_eq, read_exact_app' by apply lenN_uint_bytes.
  cbn [bind]. do 2 f_equal.
  destruct e; cbn [uint_bytes].
  - rewrite rev_app_distr, rev_involutive, le_val_app.
    change (rev (repeat x00 6)) with (repeat x00 6). rewrite le_val_zeros, le_val_bytes.
    change (256 ^ N.of_nat 10) with (2 ^ 80). lia.
  - rewrite le_val_app, le_val_zeros, le_val_bytes.
    change (256 ^ N.of_nat 10) with (2 ^ 80). lia.
Qed.

(** ** C01 *)
Lemma dec_enc E e t (v : carrier t) r :
  rust_value t v -> storable t v -> can_alloc E t v -> dec E e t (enc e t v ++ r) = Ok (v, r).
Proof.
  destruct t; intros Hv Hs Ha; cbn [rust_value storable can_alloc enc dec] in *;
    try (apply dec_sint_app; [lia|exact Hv]);
    try (apply dec_uint_app; exact Hv).
  - unfold dec_bool, enc_bool. rewrite read_exact_app' by reflexivity. destruct v; reflexivity.
  - cbn [carrier] in v. rewrite dec_ext_app. rewrite N.mod_small by exact Hs. reflexivity.
  - unfold dec_str, enc_str. rewrite <- app_assoc.
    change (uint_bytes e 4 (lenN v mod two32)) with (enc_uint e 4 (lenN v mod two32)).
    assert (Hl : lenN v < two32) by (unfold two32; lia).
    rewrite N.mod_small by assumption.
    rewrite dec_uint_app by exact Hl. cbn [bind]. rewrite Ha.
    rewrite read_exact_app. cbn [bind]. apply utf8_valid_iff in Hv. now rewrite Hv.
  - destruct v as [a b]. destruct Hv. cbn [fst snd] in *. unfold dec_complex.
    rewrite <- app_assoc, dec_uint_app by assumption. cbn [bind].
    rewrite dec_uint_app by assumption. reflexivity.
  - destruct v as [a b]. destruct Hv. cbn [fst snd] in *. unfold dec_complex.
    rewrite <- app_assoc, dec_uint_app by assumption. cbn [bind].
    rewrite dec_uint_app by assumption. reflexivity.
Qed.

(** ** C02, values *)
Lemma enc_size e t (v : carrier t) : lenN (enc e t v) = val_size t v.
Proof.
  destruct t; cbn [enc val_size]; unfold enc_sint, enc_uint, enc_bool, enc_str;
    rewrite ?lenN_app, ?lenN_uint_bytes; try reflexivity.
  - rewrite enc_ext_eq, lenN_uint_bytes. reflexivity.
  - cbn [carrier] in v. lia.
Qed.

(** Values are never empty on disk. *)
Lemma val_size_pos t (v : carrier t) : 0 < val_size t v.
Proof. destruct t; cbn [val_size carrier] in *; lia. Qed.

(** ** C05 *)
Lemma dtype_of_to t : dtype_of_code (dtype_code t) = Some t.
Proof. destruct t; reflexivity. Qed.
Lemma dtype_code_bound t : dtype_code t < 2 ^ 32.
Proof. destruct t; reflexivity. Qed.
Lemma dtype_to_of n t : dtype_of_code n = Some t -> dtype_code t = n.
Proof.
  unfold dtype_of_code.
  repeat match goal with |- context [match ?x with _ => _ end] =>
    is_var x; destruct x; try discriminate end;
  intros H; injection H; intros <-; reflexivity.
Qed.

Lemma read_dtype_app e t r : read_dtype e (write_dtype e t ++ r) = Ok (t, r).
Proof.
  unfold read_dtype, write_dtype.
  rewrite dec_uint_app by exact (dtype_code_bound t). cbn [bind].
  now rewrite dtype_of_to.
Qed.
Lemma lenN_write_dtype e t : lenN (write_dtype e t) = 4.
Proof. unfold write_dtype, enc_uint. now rewrite lenN_uint_bytes. Qed.

(** ** C06 *)
Lemma read_pval_app E e p r : good_pval E p -> read_pval E e (write_pval e p ++ r) = Ok (p, r).
Proof.
  intros [Hv [Hs Ha]]. unfold read_pval, write_pval. rewrite <- app_assoc, read_dtype_app.
  cbn [bind]. destruct p; cbn [pval_dtype pval_bytes rust_pval storable_pval can_alloc_pval] in *;
    unfold read_as; try reflexivity; rewrite dec_enc; auto; cbn; auto.
Qed.

Lemma pval_size_eq e p : lenN (write_pval e p) = pval_size p.
Proof.
  unfold write_pval, pval_size. rewrite lenN_app, lenN_write_dtype.
  destruct p; cbn [pval_bytes]; rewrite ?enc_size; try reflexivity; lia.
Qed.

(** ** Raw data index *)
Lemma read_rawidx_app e x r : good_idx x -> read_rawidx e (write_rawidx e x ++ r) = Ok (x, r).
Proof.
  destruct x as [| |m]; intros H; unfold read_rawidx, write_rawidx.
  - rewrite dec_uint_app by reflexivity. reflexivity.
  - rewrite dec_uint_app by reflexivity. reflexivity.
  - rewrite <- !app_assoc, dec_uint_app by reflexivity. cbn [bind].
    change (20 =? 0) with false. change (20 =? 4294967295) with false.
    change ((1762787328 <=? 20) && (20 <=? 1762852863)) with false.
    change ((1762852864 <=? 20) && (20 <=? 1762918399)) with false. cbv iota.
    rewrite read_dtype_app. cbn [bind]. rewrite dec_uint_app by reflexivity. cbn [bind].
    destruct H as [H1 H2]. rewrite dec_uint_app by exact H1. cbn [bind].
    destruct m as [ty n tot]. cbn in *. subst. reflexivity.
Qed.
Lemma rawidx_size_eq e x : lenN (write_rawidx e x) = rawidx_size x.
Proof.
  destruct x; cbn [write_rawidx rawidx_size]; unfold enc_uint;
    rewrite ?lenN_app, ?lenN_write_dtype, ?lenN_uint_bytes; reflexivity.
Qed.

(** ** Objects *)
Lemma dec_str_app E e s r : good_str E s -> dec E e SStr (enc e SStr s ++ r) = Ok (s, r).
Proof. intros [H1 [H2 H3]]. now apply dec_enc. Qed.

Lemma read_props_app E e ps : forall fuel r,
  Forall (fun p => good_str E (fst p) /\ good_pval E (snd p)) ps ->
  (length ps <= fuel)%nat ->
  read_props E e fuel (lenN ps) (concat (map (write_prop e) ps) ++ r) = Ok (ps, r).
Proof.
  induction ps as [|[k v] ps IH]; intros fuel r H Hf.
  - destruct fuel; reflexivity.
  - destruct fuel as [|fuel]; [simpl in Hf; lia|].
    cbn [read_props map concat]. rewrite lenN_cons.
    replace (1 + lenN ps =? 0) with false by lia.
    inversion H as [|? ? [Hk Hv] Hps]; subst. cbn [fst snd] in *.
    unfold write_prop at 1. cbn [fst snd]. rewrite <- !app_assoc.
    rewrite dec_str_app by assumption. cbn [bind].
    rewrite read_pval_app by assumption. cbn [bind].
    replace (N.pred (1 + lenN ps)) with (lenN ps) by lia.
    rewrite IH; auto. simpl in Hf; lia.
Qed.

Lemma write_prop_pos e p : 8 <= lenN (write_prop e p).
Proof.
  unfold write_prop. rewrite lenN_app, enc_size, pval_size_eq.
  cbn [val_size]. unfold pval_size. lia.
Qed.

Lemma lenN_concat_lower {A} (g : A -> list byte) k l :
  (forall x, k <= lenN (g x)) -> k * lenN l <= lenN (concat (map g l)).
Proof.
  intros H. induction l as [|x l IH]; simpl.
  - rewrite !lenN_nil. lia.
  - rewrite lenN_cons, lenN_app. specialize (H x). nia.
Qed.

Lemma read_obj_app E e o r : good_obj E o -> read_obj E e (write_obj e o ++ r) = Ok (o, r).
Proof.
  intros [Hp [Hi [Hps [Hl Ha]]]]. unfold read_obj, write_obj. rewrite <- !app_assoc.
  rewrite dec_str_app by assumption. cbn [bind].
  rewrite read_rawidx_app by assumption. cbn [bind].
  rewrite N.mod_small by exact Hl. rewrite dec_uint_app by exact Hl. cbn [bind].
  rewrite Ha. rewrite read_props_app; auto.
  - cbn [bind]. destruct o; reflexivity.
  - pose proof (lenN_concat_lower (write_prop e) 8 (om_props o) (write_prop_pos e)).
    rewrite app_length. unfold lenN in *. lia.
Qed.

Lemma concat_size {A} (g : A -> list byte) (s : A -> N) l :
  (forall x, lenN (g x) = s x) -> lenN (concat (map g l)) = sumN (map s l).
Proof.
  intros H. induction l as [|x l IH]; [reflexivity|].
  simpl. rewrite lenN_app, H, IH. reflexivity.
Qed.

Lemma obj_size_eq e o : lenN (write_obj e o) = obj_size o.
Proof.
  unfold write_obj, obj_size, enc_uint.
  rewrite !lenN_app, enc_size, rawidx_size_eq, lenN_uint_bytes.
  rewrite (concat_size (write_prop e) (fun p => val_size SStr (fst p) + pval_size (snd p))).
  - change (N.of_nat 4) with 4. now rewrite !N.add_assoc.
  - intros x. unfold write_prop. now rewrite lenN_app, enc_size, pval_size_eq.
Qed.

(** ** Metadata *)
Lemma write_obj_pos e o : 12 <= lenN (write_obj e o).
Proof.
  rewrite obj_size_eq. unfold obj_size. cbn [val_size].
  destruct (om_idx o); cbn [rawidx_size]; lia.
Qed.

Lemma read_objs_app E e m : forall fuel r,
  Forall (good_obj E) m -> (length m <= fuel)%nat ->
  read_objs E e fuel (lenN m) (concat (map (write_obj e) m) ++ r) = Ok (m, r).
Proof.
  induction m as [|o m IH]; intros fuel r H Hf.
  - destruct fuel; reflexivity.
  - destruct fuel as [|fuel]; [simpl in Hf; lia|].
    cbn [read_objs map concat]. rewrite lenN_cons.
    replace (1 + lenN m =? 0) with false by lia.
    inversion H; subst. rewrite <- app_assoc, read_obj_app by assumption. cbn [bind].
    replace (N.pred (1 + lenN m)) with (lenN m) by lia.
    rewrite IH; auto. simpl in Hf; lia.
Qed.

Lemma read_metadata_app E e m r : good_meta E m ->
  read_metadata E e (write_metadata e m ++ r) = Ok (m, r).
Proof.
  intros [Hm [Hl Ha]]. unfold read_metadata, write_metadata. rewrite <- app_assoc.
  rewrite N.mod_small by exact Hl. rewrite dec_uint_app by exact Hl. cbn [bind]. rewrite Ha.
  apply read_objs_app; auto.
  pose proof (lenN_concat_lower (write_obj e) 12 m (write_obj_pos e)).
  rewrite app_length. unfold lenN in *. lia.
Qed.

Lemma metadata_size_eq e m : lenN (write_metadata e m) = metadata_size m.
Proof.
  unfold write_metadata, metadata_size, enc_uint. rewrite lenN_app, lenN_uint_bytes.
  rewrite (concat_size _ obj_size) by apply obj_size_eq. reflexivity.
Qed.
