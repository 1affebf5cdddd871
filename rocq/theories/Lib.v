(** * General lemmas: lists, bytes, machine integers, parsers *)
From Coq Require Export Lia ZifyBool ZifyNat ZifyN.
From Verif Require Import Base.

Global Arguments N.add : simpl never.
Global Arguments N.sub : simpl never.
Global Arguments N.mul : simpl never.
Global Arguments N.div : simpl never.
Global Arguments N.modulo : simpl never.
Global Arguments N.pow : simpl never.
Global Arguments N.eqb : simpl never.
Global Arguments N.leb : simpl never.
Global Arguments N.ltb : simpl never.
Global Arguments N.of_nat : simpl never.
Global Arguments N.to_nat : simpl never.
Global Arguments Z.pow : simpl never.
Global Arguments Z.modulo : simpl never.

(** ** res *)
Lemma bind_ok {A B} (m : res A) (k : A -> res B) b :
  bind m k = Ok b -> exists a, m = Ok a /\ k a = Ok b.
Proof. destruct m; simpl; intros H; try discriminate. eauto. Qed.

Lemma recast_not_ok {A B} (m : res A) (b : B) : recast m <> Ok b.
Proof. destruct m; discriminate. Qed.

(** Decompose successful binds in the context. *)
Ltac bind_inv :=
  repeat match goal with
  | H : bind ?m ?k = Ok _ |- _ =>
    let x := fresh "x" in let H1 := fresh "Hb" in let H2 := fresh "Hk" in
    apply bind_ok in H; destruct H as [x [H1 H2]]; cbv beta in H2
  | H : (let (_, _) := ?p in _) = Ok _ |- _ => destruct p eqn:?
  | H : Ok _ = Ok _ |- _ => injection H; clear H; intros; subst
  | H : Err _ = Ok _ |- _ => discriminate H
  | H : Panic _ = Ok _ |- _ => discriminate H
  | H : Diverge = Ok _ |- _ => discriminate H
  end.

(** ** lists *)
Lemma lenN_nil {A} : lenN (@nil A) = 0. Proof. reflexivity. Qed.
Lemma lenN_cons {A} (a : A) l : lenN (a :: l) = 1 + lenN l.
Proof. unfold lenN. simpl length. lia. Qed.
Lemma lenN_app {A} (l m : list A) : lenN (l ++ m) = lenN l + lenN m.
Proof. unfold lenN. rewrite app_length. lia. Qed.
Lemma lenN_length {A} (l : list A) : N.to_nat (lenN l) = length l.
Proof. unfold lenN. lia. Qed.
Lemma lenN_map {A B} (g : A -> B) l : lenN (map g l) = lenN l.
Proof. unfold lenN. now rewrite map_length. Qed.
Lemma lenN_firstn {A} n (l : list A) : lenN (firstn n l) = N.min (N.of_nat n) (lenN l).
Proof. unfold lenN. rewrite firstn_length. lia. Qed.
Lemma lenN_skipn {A} n (l : list A) : lenN (skipn n l) = lenN l - N.of_nat n.
Proof. unfold lenN. rewrite skipn_length. lia. Qed.
Lemma lenN_rev {A} (l : list A) : lenN (rev l) = lenN l.
Proof. unfold lenN. now rewrite rev_length. Qed.
Lemma lenN_repeat {A} (a : A) n : lenN (repeat a n) = N.of_nat n.
Proof. unfold lenN. now rewrite repeat_length. Qed.
Lemma lenN_0 {A} (l : list A) : lenN l = 0 -> l = [].
Proof. unfold lenN. destruct l; simpl; [reflexivity|lia]. Qed.

Lemma firstn_app_exact {A} (l m : list A) : firstn (length l) (l ++ m) = l.
Proof. rewrite firstn_app, Nat.sub_diag, firstn_all, firstn_O, app_nil_r. reflexivity. Qed.
Lemma skipn_app_exact {A} (l m : list A) : skipn (length l) (l ++ m) = m.
Proof. rewrite skipn_app, Nat.sub_diag, skipn_all, skipn_O. reflexivity. Qed.

Lemma skipn_skipn {A} a : forall b (l : list A), skipn a (skipn b l) = skipn (b + a) l.
Proof.
  induction b as [|b IH]; intros l; [reflexivity|].
  destruct l; simpl; [now rewrite skipn_nil|apply IH].
Qed.

(** ** dropN *)
Lemma dropN_skipn pos (f : list byte) : dropN pos f = skipn (N.to_nat pos) f.
Proof.
  unfold dropN. destruct (lenN f <=? pos) eqn:H; [|reflexivity].
  rewrite skipn_all2; [reflexivity|]. unfold lenN in H. lia.
Qed.
Lemma lenN_dropN pos f : lenN (dropN pos f) = lenN f - pos.
Proof. rewrite dropN_skipn, lenN_skipn. lia. Qed.
Lemma dropN_app_exact (a b : list byte) : dropN (lenN a) (a ++ b) = b.
Proof. rewrite dropN_skipn, lenN_length. apply skipn_app_exact. Qed.
Lemma dropN_app_plus (a b : list byte) k : dropN (lenN a + k) (a ++ b) = dropN k b.
Proof.
  rewrite !dropN_skipn. rewrite skipn_app.
  rewrite (skipn_all2 a) by (unfold lenN; lia).
  simpl. f_equal. unfold lenN. lia.
Qed.
Lemma dropN_0 f : dropN 0 f = f.
Proof. now rewrite dropN_skipn. Qed.
Lemma dropN_dropN a b f : dropN a (dropN b f) = dropN (b + a) f.
Proof.
  rewrite !dropN_skipn, skipn_skipn. f_equal. lia.
Qed.

(** ** bytes *)
Lemma byte_of_N_to_N n : Byte.to_N (byte_of_N n) = n mod 256.
Proof.
  unfold byte_of_N. destruct (Byte.of_N (n mod 256)) eqn:H.
  - now apply Byte.to_of_N in H.
  - apply Byte.of_N_None_iff in H. pose proof (N.mod_lt n 256). lia.
Qed.
Lemma byte_of_to_N b : byte_of_N (Byte.to_N b) = b.
Proof.
  unfold byte_of_N. pose proof (Byte.to_N_bounded b).
  rewrite N.mod_small by lia. now rewrite Byte.of_to_N.
Qed.
Lemma byte_of_N_mod n : byte_of_N (n mod 256) = byte_of_N n.
Proof. unfold byte_of_N. rewrite N.mod_mod by lia. reflexivity. Qed.

Lemma byte_eqb_refl b : Byte.eqb b b = true.
Proof. destruct b; reflexivity. Qed.
Lemma byte_eqb_eq a b : Byte.eqb a b = true <-> a = b.
Proof.
  split; [|intros ->; apply byte_eqb_refl].
  intros H. rewrite <- (byte_of_to_N a), <- (byte_of_to_N b).
  f_equal. destruct (Byte.eqb a b) eqn:K; [|discriminate].
  apply Byte.byte_dec_bl in K. now subst.
Qed.
Lemma byte_eqb_neq a b : Byte.eqb a b = false <-> a <> b.
Proof.
  split; intros H.
  - intros ->. rewrite byte_eqb_refl in H. discriminate.
  - destruct (Byte.eqb a b) eqn:K; [|reflexivity]. apply byte_eqb_eq in K. contradiction.
Qed.
Lemma to_N_inj a b : Byte.to_N a = Byte.to_N b -> a = b.
Proof. intros H. rewrite <- (byte_of_to_N a), <- (byte_of_to_N b). now f_equal. Qed.

Lemma str_eqb_eq a : forall b, str_eqb a b = true <-> a = b.
Proof.
  induction a as [|x a IH]; destruct b as [|y b]; simpl; split; intros H; try easy.
  - apply andb_true_iff in H. destruct H as [H1 H2].
    apply byte_eqb_eq in H1. apply IH in H2. now subst.
  - injection H; intros; subst. rewrite byte_eqb_refl. simpl. now apply IH.
Qed.
Lemma str_eqb_refl a : str_eqb a a = true.
Proof. now apply str_eqb_eq. Qed.
Lemma str_eqb_neq a b : str_eqb a b = false <-> a <> b.
Proof.
  split; intros H.
  - intros ->. rewrite str_eqb_refl in H. discriminate.
  - destruct (str_eqb a b) eqn:K; [|reflexivity]. apply str_eqb_eq in K. contradiction.
Qed.
Lemma str_eqb_sym a b : str_eqb a b = str_eqb b a.
Proof.
  destruct (str_eqb b a) eqn:H.
  - apply str_eqb_eq in H. subst. apply str_eqb_refl.
  - apply str_eqb_neq in H. apply str_eqb_neq. congruence.
Qed.

Lemma str_cmp_eq a : forall b, str_cmp a b = Eq <-> a = b.
Proof.
  induction a as [|x a IH]; destruct b as [|y b]; simpl; split; intros H; try easy.
  - destruct (N.compare_spec (Byte.to_N x) (Byte.to_N y)); try discriminate.
    apply IH in H. apply to_N_inj in H0. now subst.
  - injection H; intros; subst. rewrite N.compare_refl. now apply IH.
Qed.
Lemma str_cmp_refl a : str_cmp a a = Eq.
Proof. now apply str_cmp_eq. Qed.
Lemma str_cmp_antisym a : forall b, str_cmp b a = CompOpp (str_cmp a b).
Proof.
  induction a as [|x a IH]; destruct b as [|y b]; simpl; try reflexivity.
  rewrite N.compare_antisym. destruct (N.compare (Byte.to_N x) (Byte.to_N y)); simpl; auto.
Qed.
Lemma str_cmp_trans a : forall b c, str_cmp a b = Lt -> str_cmp b c = Lt -> str_cmp a c = Lt.
Proof.
  induction a as [|x a IH]; destruct b as [|y b]; destruct c as [|z c]; simpl; intros H K; try easy.
  destruct (N.compare_spec (Byte.to_N x) (Byte.to_N y)); try discriminate;
  destruct (N.compare_spec (Byte.to_N y) (Byte.to_N z)); try discriminate;
  destruct (N.compare_spec (Byte.to_N x) (Byte.to_N z)); try lia; try reflexivity.
  now apply IH with b.
Qed.

(** ** little-endian integers *)
Lemma le_bytes_length w : forall n, length (le_bytes w n) = w.
Proof. induction w; simpl; intros; [reflexivity|now rewrite IHw]. Qed.

Lemma pow256_S w : 256 ^ N.of_nat (S w) = 256 * 256 ^ N.of_nat w.
Proof. rewrite Nat2N.inj_succ, N.pow_succ_r'. reflexivity. Qed.

Lemma pow256_pos w : 256 ^ w <> 0.
Proof. apply N.pow_nonzero. lia. Qed.

Lemma le_val_bytes w : forall n, le_val (le_bytes w n) = n mod 256 ^ N.of_nat w.
Proof.
  induction w as [|w IH]; intros n.
  - simpl. change (256 ^ N.of_nat 0) with 1. now rewrite N.mod_1_r.
  - simpl le_bytes. simpl le_val. rewrite IH, byte_of_N_to_N, pow256_S.
    rewrite N.mod_mul_r; [reflexivity| lia | apply pow256_pos].
Qed.

Lemma le_val_bound l : le_val l < 256 ^ lenN l.
Proof.
  induction l as [|b l IH]; simpl.
  - reflexivity.
  - rewrite lenN_cons. rewrite N.pow_add_r, N.pow_1_r.
    pose proof (Byte.to_N_bounded b). nia.
Qed.

Lemma le_bytes_val l : le_bytes (length l) (le_val l) = l.
Proof.
  induction l as [|b l IH]; simpl; [reflexivity|].
  pose proof (Byte.to_N_bounded b) as Hb.
  f_equal.
  - replace (byte_of_N (Byte.to_N b + 256 * le_val l)) with (byte_of_N (Byte.to_N b)).
    + apply byte_of_to_N.
    + rewrite <- (byte_of_N_mod (_ + _)). rewrite (N.mul_comm 256), N.mod_add by lia.
      now rewrite byte_of_N_mod.
  - rewrite (N.mul_comm 256), N.div_add by lia.
    rewrite (N.div_small (Byte.to_N b)) by lia. rewrite N.add_0_l. apply IH.
Qed.

Lemma le_val_app a b : le_val (a ++ b) = le_val a + 256 ^ lenN a * le_val b.
Proof.
  induction a as [|x a IH]; simpl.
  - change (256 ^ lenN []) with 1. lia.
  - rewrite IH, lenN_cons, N.pow_add_r, N.pow_1_r. lia.
Qed.
Lemma le_val_zeros n : le_val (repeat x00 n) = 0.
Proof. induction n; simpl; [reflexivity|rewrite IHn; reflexivity]. Qed.

Lemma uint_bytes_length e w n : length (uint_bytes e w n) = w.
Proof. destruct e; simpl; rewrite ?rev_length; apply le_bytes_length. Qed.
Lemma lenN_uint_bytes e w n : lenN (uint_bytes e w n) = N.of_nat w.
Proof. unfold lenN. now rewrite uint_bytes_length. Qed.
Lemma uint_val_bytes e w n : uint_val e (uint_bytes e w n) = n mod 256 ^ N.of_nat w.
Proof. destruct e; simpl; rewrite ?rev_involutive; apply le_val_bytes. Qed.
Lemma uint_val_bound e l : uint_val e l < 256 ^ lenN l.
Proof. destruct e; simpl; [rewrite <- (lenN_rev l)|]; apply le_val_bound. Qed.
Lemma uint_bytes_val e l : uint_bytes e (length l) (uint_val e l) = l.
Proof.
  destruct e; simpl.
  - rewrite <- (rev_length l), le_bytes_val, rev_involutive. reflexivity.
  - apply le_bytes_val.
Qed.

(** ** read_exact *)
Lemma read_exact_app (a b : list byte) : read_exact (lenN a) (a ++ b) = Ok (a, b).
Proof.
  unfold read_exact. rewrite lenN_app.
  destruct (lenN a <=? lenN a + lenN b) eqn:H; [|lia].
  rewrite lenN_length, firstn_app_exact, skipn_app_exact. reflexivity.
Qed.
Lemma read_exact_app' n (a b : list byte) : lenN a = n -> read_exact n (a ++ b) = Ok (a, b).
Proof. intros <-. apply read_exact_app. Qed.
Lemma read_exact_ok n bs a r : read_exact n bs = Ok (a, r) -> bs = a ++ r /\ lenN a = n.
Proof.
  unfold read_exact. destruct (n <=? lenN bs) eqn:H; [|discriminate].
  intros K. injection K; intros; subst. split.
  - now rewrite firstn_skipn.
  - rewrite lenN_firstn. lia.
Qed.
Lemma read_exact_err n bs : lenN bs < n -> read_exact n bs = Err (EIo UnexpectedEof).
Proof. intros H. unfold read_exact. destruct (n <=? lenN bs) eqn:K; [lia|reflexivity]. Qed.
Lemma read_exact_cases n bs :
  (n <= lenN bs /\ read_exact n bs = Ok (firstn (N.to_nat n) bs, skipn (N.to_nat n) bs))
  \/ (lenN bs < n /\ read_exact n bs = Err (EIo UnexpectedEof)).
Proof. unfold read_exact. destruct (n <=? lenN bs) eqn:H; [left|right]; split; auto; lia. Qed.
