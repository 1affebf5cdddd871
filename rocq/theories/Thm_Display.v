(** * C74: what error messages tell; C07 again: dates *)
From Coq Require Import Strings.String.
From Verif Require Import Base Lib DataTypes Paths MetaData Display Display_proofs Vectors.
Close Scope string_scope.

(** ** C74 An error message tells the kind of error and its details *)
(** Everything but the cause of an I/O error (kept as the source of the error)
    and the number of a missing data block. *)
Definition told (x : terr) : terr :=
  match x with
  | EIo _ => EIo UnexpectedEof
  | EDataBlockNotFound _ => EDataBlockNotFound 0
  | _ => x
  end.
(** A tag has four bytes. *)
Definition sized (x : terr) : Prop := match x with EHeaderPattern tag => List.length tag = 4%nat | _ => True end.

Theorem C74_messages : forall x y, sized x -> sized y -> (message x = message y <-> told x = told y).
Proof.
  intros x y Sx Sy. split.
  - intros H. apply message_shows in H. destruct x, y; try exact H; try discriminate H; try reflexivity.
    cbn [sized] in Sx, Sy. cbn [told]. f_equal. apply H. congruence.
  - intros H. destruct x, y; cbn [told] in H; try discriminate H; try reflexivity; injection H; intros; subst; reflexivity.
Qed.
(** The tags reported by the library do have four bytes. *)
Theorem C74_tags : forall E f pos x, segment_read E f pos = Err x -> sized x.
Proof.
  intros E f pos x. unfold segment_read. cbv zeta.
  destruct (read_exact 4 (dropN pos f)) as [[tag r1]| | |] eqn:R; try discriminate; [|intros H; injection H as <-; exact Logic.I].
  apply read_exact_ok in R. destruct R as [_ L]. destruct (str_eqb tag TDSm).
  - intros H. destruct x; try exact Logic.I. exfalso.
    assert (K : no_tag (@Err segment (EHeaderPattern tag0))); [|exact K]. rewrite <- H.
    apply nt_bind; [apply nt_exact|]. intros [tocb r2]. apply nt_bind; [apply nt_segment|]. intros [s r3]. exact Logic.I.
  - intros H. injection H as <-. cbn [sized]. unfold lenN in L. lia.
Qed.
(** Types are shown by different names. *)
Theorem C74_types : forall a b, dtype_display a = dtype_display b -> a = b.
Proof. exact dtype_display_inj. Qed.

Example C74_case :
  map message [EHeaderPattern (bytes [84; 68; 83; 0]); EBadDataBlockLength 10 3; EUnknownPropertyType 48879; EDataTypeMismatch Timestamp I32]
  = [B "Attempted to read header where no header exists. Bytes: [54, 44, 53, 0]";
     B "The data block has length 10 which is not divisible by the number of channels: 3";
     B "Unknown Property Type: BEEF";
     B "Attempting to read a channel or property of type TimeStamp as type I32"]
  /\ message (EIo UnexpectedEof) = message (EIo DeviceError).
Proof. vm_compute. split; reflexivity. Qed.

(** ** C07 Dates are property values through the conversion of labview-interop *)
Theorem C07_dates : forall D X (conv : N -> D + X) (back : D -> N),
  (forall p, date_try_into conv p =
     match p with PTimestamp n => inr (conv n) | _ => inl (EDataTypeMismatch (pval_dtype p) Timestamp) end)
  /\ (forall d, conv (back d) = inl d -> date_try_into conv (date_into back d) = inr (inl d)).
Proof.
  intros D X conv back. split.
  - intros p. destruct p; reflexivity.
  - intros d H. unfold date_into, date_try_into. cbn [pval_try_into]. now rewrite H.
Qed.
(** Whole seconds in the upper 64 bits. *)
Example C07_dates_case :
  let conv n := if n mod 2 ^ 64 =? 0 then inl (n / 2 ^ 64) else inr tt in
  date_try_into conv (date_into (fun d => d * 2 ^ 64) 3600) = inr (inl 3600)
  /\ date_try_into conv (PTimestamp 5) = inr (inr tt)
  /\ date_try_into conv (PI8 1) = inl (EDataTypeMismatch I8 Timestamp).
Proof. vm_compute. repeat split. Qed.

Print Assumptions C74_messages.
Print Assumptions C74_tags.
Print Assumptions C74_types.
Print Assumptions C07_dates.
