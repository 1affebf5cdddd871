(** * The machine operations of the model compared with their definition
      The operations of [Base.v] on [u64] and [i64] for all operands, in terms of
      congruence and range only. *)
From Verif Require Import Base Lib.

(** [as i64] keeps the value modulo 2^64 and is in range. *)
Theorem as_i64_cast : forall n,
  (- 2 ^ 63 <= as_i64 n < 2 ^ 63)%Z /\ (as_i64 n mod 2 ^ 64 = Z.of_N n mod 2 ^ 64)%Z.
Proof.
  intros n. unfold as_i64, two64, two63.
  assert (M : Z.of_N (n mod 2 ^ 64) = (Z.of_N n mod 2 ^ 64)%Z) by (rewrite N2Z.inj_mod; reflexivity).
  assert (R : (0 <= Z.of_N n mod 2 ^ 64 < 2 ^ 64)%Z) by (apply Z.mod_pos_bound; reflexivity).
  destruct (n mod 2 ^ 64 <? 2 ^ 63) eqn:C; rewrite M.
  - split; [|now rewrite Z.mod_mod by discriminate]. apply N.ltb_lt in C. lia.
  - apply N.ltb_ge in C. split; [lia|].
    rewrite Zminus_mod, Z.mod_mod, Z_mod_same_full, Z.sub_0_r, Z.mod_mod by discriminate. reflexivity.
Qed.
Example as_i64_cases : as_i64 5 = 5%Z /\ as_i64 (2 ^ 63) = (- 2 ^ 63)%Z /\ as_i64 (2 ^ 64 - 1) = (-1)%Z.
Proof. vm_compute. repeat split. Qed.

(** [as usize] likewise, and the two casts are inverse to each other. *)
Theorem as_u64_cast : forall z,
  as_u64 z < 2 ^ 64 /\ (Z.of_N (as_u64 z) mod 2 ^ 64 = z mod 2 ^ 64)%Z
  /\ ((- 2 ^ 63 <= z < 2 ^ 63)%Z -> as_i64 (as_u64 z) = z).
Proof.
  intros z. unfold as_u64.
  assert (R : (0 <= z mod 2 ^ 64 < 2 ^ 64)%Z) by (apply Z.mod_pos_bound; reflexivity).
  assert (C : (Z.of_N (Z.to_N (z mod 2 ^ 64)) mod 2 ^ 64 = z mod 2 ^ 64)%Z)
    by (rewrite Z2N.id by lia; apply Z.mod_mod; discriminate).
  split; [lia|]. split; [exact C|]. intros B. destruct (as_i64_cast (Z.to_N (z mod 2 ^ 64))) as [B1 Q].
  rewrite C in Q. set (y := as_i64 _) in *.
  pose proof (Z.div_mod y (2 ^ 64) ltac:(discriminate)). pose proof (Z.div_mod z (2 ^ 64) ltac:(discriminate)). lia.
Qed.
Example as_u64_cases : as_u64 (-1) = 2 ^ 64 - 1 /\ as_u64 7 = 7.
Proof. vm_compute. repeat split. Qed.

(** Plain [+] and [*]: the exact result if it is in range; otherwise a panic with
    overflow checks, and without them the value of the range that is the same
    modulo 2^64. *)
Definition machine (E : env) (lo hi exact : Z) (r : res Z) : Prop :=
  if ((lo <=? exact) && (exact <? hi))%Z then r = Ok exact
  else if overflow_checks E then r = Panic POverflow
  else exists w, r = Ok w /\ (lo <= w < hi)%Z /\ (w mod 2 ^ 64 = exact mod 2 ^ 64)%Z.

Lemma machine_u E (x : N) (r : res N) :
  r = (if x <? two64 then Ok x else if overflow_checks E then Panic POverflow else Ok (x mod two64)) ->
  machine E 0 (2 ^ 64) (Z.of_N x) (n <- r ;; Ok (Z.of_N n)).
Proof.
  intros ->. unfold machine, two64. destruct (x <? 2 ^ 64) eqn:C.
  - replace (0 <=? Z.of_N x)%Z with true by lia. replace (Z.of_N x <? 2 ^ 64)%Z with true by lia. reflexivity.
  - replace (Z.of_N x <? 2 ^ 64)%Z with false by lia. rewrite andb_false_r. destruct (overflow_checks E); [reflexivity|].
    exists (Z.of_N (x mod 2 ^ 64)). split; [reflexivity|]. rewrite N2Z.inj_mod. change (Z.of_N (2 ^ 64)) with (2 ^ 64)%Z.
    split; [apply Z.mod_pos_bound; reflexivity|]. apply Z.mod_mod. discriminate.
Qed.

Theorem uadd_machine : forall E a b,
  machine E 0 (2 ^ 64) (Z.of_N a + Z.of_N b) (n <- uadd E a b ;; Ok (Z.of_N n)).
Proof. intros E a b. rewrite <- N2Z.inj_add. now apply machine_u. Qed.
Theorem umul_machine : forall E a b,
  machine E 0 (2 ^ 64) (Z.of_N a * Z.of_N b) (n <- umul E a b ;; Ok (Z.of_N n)).
Proof. intros E a b. rewrite <- N2Z.inj_mul. now apply machine_u. Qed.
Theorem imul_machine : forall E a b, machine E (- 2 ^ 63) (2 ^ 63) (a * b) (imul E a b).
Proof.
  intros E a b. unfold machine, imul. cbv zeta.
  destruct ((- 2 ^ 63 <=? a * b) && (a * b <? 2 ^ 63))%Z; [reflexivity|]. destruct (overflow_checks E); [reflexivity|].
  destruct (as_i64_cast (Z.to_N ((a * b) mod 2 ^ 64))) as [B Q].
  exists (as_i64 (Z.to_N ((a * b) mod 2 ^ 64))). split; [reflexivity|]. split; [exact B|]. rewrite Q.
  assert (R : (0 <= (a * b) mod 2 ^ 64 < 2 ^ 64)%Z) by (apply Z.mod_pos_bound; reflexivity).
  rewrite Z2N.id by lia. apply Z.mod_mod. discriminate.
Qed.
Example machine_cases : let R := mkEnv false (fun _ _ => true) 9 in let D := mkEnv true (fun _ _ => true) 9 in
  uadd R (2 ^ 64 - 1) 3 = Ok 2 /\ uadd D (2 ^ 64 - 1) 3 = Panic POverflow /\ umul R (2 ^ 63) 3 = Ok (2 ^ 63)
  /\ imul R (2 ^ 62) 2 = Ok (- 2 ^ 63)%Z /\ imul D (2 ^ 62) (-2) = Ok (- 2 ^ 63)%Z /\ imul D (2 ^ 62) 2 = Panic POverflow.
Proof. vm_compute. repeat split. Qed.

(** The checked operations: the exact result, or nothing if it is out of range. *)
Theorem checked_exact : forall a b,
  (a + b < 2 ^ 64 -> checked_add a b = Some (a + b)) /\ (2 ^ 64 <= a + b -> checked_add a b = None)
  /\ (a * b < 2 ^ 64 -> checked_mul a b = Some (a * b)) /\ (2 ^ 64 <= a * b -> checked_mul a b = None).
Proof.
  intros a b. unfold checked_add, checked_mul, two64.
  destruct (a + b <? 2 ^ 64) eqn:C1, (a * b <? 2 ^ 64) eqn:C2; repeat split; intros; try reflexivity; lia.
Qed.
Example checked_cases : checked_add (2 ^ 64 - 1) 0 = Some (2 ^ 64 - 1) /\ checked_add (2 ^ 64 - 1) 1 = None
  /\ checked_mul (2 ^ 32) (2 ^ 32) = None /\ checked_mul (2 ^ 32) (2 ^ 31) = Some (2 ^ 63).
Proof. vm_compute. repeat split. Qed.

(** Moves in a stream end at the sum, inside [0, seek_max], or fail. *)
Theorem seek_exact : forall E pos off,
  (forall q, seek_rel E pos off = Ok q <-> Z.of_N q = (Z.of_N pos + off)%Z /\ q <= seek_max E)
  /\ (forall q, seek_to E pos = Ok q <-> q = pos /\ q <= seek_max E)
  /\ ((exists q, seek_rel E pos off = Ok q) \/ seek_rel E pos off = Err (EIo InvalidSeek))
  /\ ((exists q, seek_to E pos = Ok q) \/ seek_to E pos = Err (EIo InvalidSeek)).
Proof.
  intros E pos off. unfold seek_rel, seek_to. cbv zeta.
  destruct (Z.of_N pos + off <? 0)%Z eqn:C; [|destruct (Z.to_N (Z.of_N pos + off) <=? seek_max E) eqn:D];
    destruct (pos <=? seek_max E) eqn:P; repeat split; intros; try discriminate;
    repeat match goal with H : Ok _ = Ok _ |- _ => injection H as <- end; try lia; eauto;
    try (f_equal; lia); try (exfalso; lia).
Qed.
Example seek_cases : seek_rel (mkEnv true (fun _ _ => true) 9) 5 (-6) = Err (EIo InvalidSeek)
  /\ seek_rel (mkEnv true (fun _ _ => true) 9) 5 4 = Ok 9 /\ seek_rel (mkEnv true (fun _ _ => true) 9) 5 5 = Err (EIo InvalidSeek).
Proof. vm_compute. repeat split. Qed.

Print Assumptions as_i64_cast. Print Assumptions as_u64_cast. Print Assumptions uadd_machine.
Print Assumptions umul_machine. Print Assumptions imul_machine. Print Assumptions checked_exact.
Print Assumptions seek_exact.
