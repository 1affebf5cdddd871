(** * Claim C67: the memory asked for when opening a file *)
From Coq Require Import Strings.String.
From Verif Require Import Base Lib DataTypes MetaData Maps DataBlock Index TdmsFile Parse_proofs Alloc_proofs
  Thm_Index Thm_Read Thm_Multi Vectors.
Close Scope string_scope.

(** ** C67 Opening a file asks for memory in proportion to its size *)
(** A file that opens at all opens whenever strings as long as the file, one
    object per 12 bytes and one property per 8 bytes of the file can be
    allocated, with the same result.
    Missing: files that are refused may ask for any number of elements below
    2^32 first ([C67_any_partial], [C67_small_file_refuted]). *)
Theorem C67_opened_partial : forall E E' f F,
  overflow_checks E' = overflow_checks E -> seek_max E' = seek_max E ->
  (forall n, n <= lenN f -> alloc_ok E' AString n = true) ->
  (forall n, 12 * n <= lenN f -> alloc_ok E' AObjects n = true) ->
  (forall n, 8 * n <= lenN f -> alloc_ok E' AProps n = true) ->
  tdms_new E f = Ok F -> tdms_new E' f = Ok F.
Proof.
  intros E E' f F Ov Sm HS HO HP H. unfold tdms_new, build_index in *. apply bind_ok in H. destruct H as [ix [B H]].
  rewrite (build_enough E E' (lenN f) HS HO HP f (N.le_refl _) Ov Sm _ _ _ _ B). exact H.
Qed.
(** A file of 416 bytes and an allocator that refuses more than 34 objects, 52
    properties or 416 bytes at a time. *)
Definition stingy : env :=
  mkEnv true (fun k n => match k with AString => n <=? 416 | AObjects => n <=? 34 | AProps => n <=? 52 end) (2 ^ 63 - 1).
Example C67_opened_case :
  lenN groups_file = 416
  /\ (forall n, n <= 416 -> alloc_ok stingy AString n = true)
  /\ (forall n, 12 * n <= 416 -> alloc_ok stingy AObjects n = true)
  /\ (forall n, 8 * n <= 416 -> alloc_ok stingy AProps n = true)
  /\ tdms_new stingy groups_file = Ok groups_F
  /\ alloc_ok stingy AObjects 35 = false.
Proof.
  split; [vm_compute; reflexivity|]. do 3 (split; [intros n Hn; cbn [stingy alloc_ok]; lia|]).
  split; vm_compute; reflexivity.
Qed.

(** Whatever the file, requests of 2^32 or more elements are never made. *)
Theorem C67_any_partial : forall E E' f,
  overflow_checks E' = overflow_checks E -> seek_max E' = seek_max E ->
  (forall k n, n < 2 ^ 32 -> alloc_ok E' k n = alloc_ok E k n) ->
  tdms_new E' f = tdms_new E f.
Proof.
  intros E E' f Ov Sm HA. unfold tdms_new, build_index. now rewrite (build_same E E' HA f Ov Sm).
Qed.
Example C67_any_case :
  tdms_new (mkEnv true (fun _ n => n <? 2 ^ 32) (seek_max dbg)) groups_file = Ok groups_F
  /\ (forall k n, n < 2 ^ 32 -> alloc_ok (mkEnv true (fun _ n => n <? 2 ^ 32) (seek_max dbg)) k n = true).
Proof. split; [vm_compute; reflexivity|]. intros k n Hn. cbn [alloc_ok]. lia. Qed.

(** A file of 32 bytes that is refused whether or not 2^32 - 1 objects can be
    allocated, but only after asking for them. *)
Theorem C67_small_file_refuted : exists f, lenN f = 32
  /\ forall E, tdms_new E f
     = if alloc_ok E AObjects (2 ^ 32 - 1) then Err (EIo UnexpectedEof) else Err EVecAllocationFailed.
Proof.
  exists (TDSm ++ [x02; x00; x00; x00] ++ repeat x00 20 ++ [xff; xff; xff; xff]). split; [vm_compute; reflexivity|].
  intros E. change (2 ^ 32 - 1) with 4294967295. unfold tdms_new, build_index.
  match goal with |- context [build_loop E ?f ?n index_new 0] => set (n0 := n); assert (Hn : n0 = S 32) by reflexivity end.
  rewrite Hn. cbn [build_loop]. clear n0 Hn.
  assert (S0 : segment_read E (TDSm ++ [x02; x00; x00; x00] ++ repeat x00 20 ++ [xff; xff; xff; xff]) 0
    = if alloc_ok E AObjects 4294967295 then Err (EIo UnexpectedEof) else Err EVecAllocationFailed).
  { destruct E as [ov al sm]. cbn [alloc_ok]. vm_compute. destruct (al AObjects 4294967295); reflexivity. }
  rewrite S0. destruct (alloc_ok E AObjects 4294967295); reflexivity.
Qed.

Print Assumptions C67_opened_partial.
Print Assumptions C67_any_partial.
Print Assumptions C67_small_file_refuted.
