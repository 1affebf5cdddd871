(** * Lemmas about messages *)
From Coq Require Import Strings.String DecimalN HexadecimalN.
From Verif Require Import Base Lib DataTypes MetaData Paths Display.
Close Scope string_scope.

Fixpoint starts_with (p s : list byte) : bool :=
  match p, s with
  | [], _ => true
  | a :: p', b :: s' => if Byte.eqb a b then starts_with p' s' else false
  | _, [] => false
  end.
Fixpoint which (ps : list str) (s : str) : nat :=
  match ps with
  | [] => O
  | p :: r => if starts_with p s then O else S (which r s)
  end.

(** The position of the variant. *)
Definition kind (x : terr) : nat :=
  match x with
  | EMissingObject _ => 0 | EIo _ => 1 | EStringFormat => 2 | EUnknownPropertyType _ => 3 | EUnsupportedType _ => 4
  | EHeaderPattern _ => 5 | EDataBlockNotFound _ => 6 | EBadDataBlockLength _ _ => 7 | EDataTypeMismatch _ _ => 8
  | EEndOfFile => 9 | ESegmentAddressOverflow => 10 | ESegmentTocDataBlockWithoutDataChannels => 11
  | EInvalidObjectPath _ => 12 | EInvalidChannelPath _ => 13 | ENoChannels => 14 | EVecAllocationFailed => 15
  | EStringAllocationFailed => 16 | EPropertyTableAllocationFailed => 17 | EZeroLengthDataBlock => 18
  | ENoActiveChannelsInDataBlock => 19 | ENoPreviousType => 20 | EInvalidRawOffset => 21 | EChunkSizeOverflow => 22
  | EDaqmxChannelsNotSupported => 23
  end%nat.
Definition beginnings : list str :=
  map lit ["Group"; "IO"; "String"; "Unknown"; "Unsupported"; "Attempted to read h"; "Tried"; "The data block h"; "Attempting";
    "Attempted to read p"; "The st"; "The se"; "Attempted to parse an i"; "Attempted to parse an v"; "Data"; "Memory allocation error for v";
    "Memory allocation error for s"; "Memory allocation error for p"; "A data block has a"; "A data block has n"; "The data block w";
    "The r"; "The c"; "DAQ"]%string.
Lemma which_message x : which beginnings (message x) = kind x.
Proof. destruct x; vm_compute; reflexivity. Qed.
Lemma message_kind x y : message x = message y -> kind x = kind y.
Proof. intros H. rewrite <- !which_message. now rewrite H. Qed.

Lemma decimal_inj a : forall b, decimal a = decimal b -> a = b.
Proof. induction a; intros b; destruct b; cbn [decimal]; intros H; try discriminate; try reflexivity; injection H as H; f_equal; auto. Qed.
Lemma show_dec_inj a b : show_dec a = show_dec b -> a = b.
Proof. intros H. apply decimal_inj in H. now apply DecimalN.Unsigned.to_uint_inj. Qed.
Lemma hexadecimal_inj a : forall b, hexadecimal a = hexadecimal b -> a = b.
Proof. induction a; intros b; destruct b; cbn [hexadecimal]; intros H; try discriminate; try reflexivity; injection H as H; f_equal; auto. Qed.
Lemma show_hex_inj a b : show_hex a = show_hex b -> a = b.
Proof. intros H. apply hexadecimal_inj in H. now apply HexadecimalN.Unsigned.to_uint_inj. Qed.
Lemma dtype_display_inj a b : dtype_display a = dtype_display b -> a = b.
Proof. destruct a, b; intros H; try reflexivity; vm_compute in H; discriminate. Qed.
Lemma dtype_debug_inj a b : dtype_debug a = dtype_debug b -> a = b.
Proof. destruct a, b; intros H; try reflexivity; vm_compute in H; discriminate. Qed.

(** Splitting at the first occurrence of a byte. *)
Lemma split_at (c : byte) : forall a b r1 r2, ~ In c a -> ~ In c b -> a ++ c :: r1 = b ++ c :: r2 -> a = b /\ r1 = r2.
Proof.
  induction a as [|x a IH]; intros b r1 r2 Na Nb H; destruct b as [|y b]; cbn [app] in H.
  - injection H as ->. auto.
  - injection H as -> _. exfalso. apply Nb. now left.
  - injection H as -> _. exfalso. apply Na. now left.
  - injection H as H1 H2. subst y. destruct (IH b r1 r2) as [-> ->]; [|intros K; apply Nb; now right|exact H2|auto].
    intros K. apply Na. now right.
Qed.
Lemma decimal_no c u : (Byte.to_N c <? 48) = true -> ~ In c (decimal u).
Proof.
  intros H. induction u; cbn [decimal]; [intros []|..]; (intros [K|K]; [subst; vm_compute in H; discriminate|contradiction]).
Qed.
Lemma hexadecimal_no c u : (Byte.to_N c <? 48) = true \/ c = x5d -> ~ In c (hexadecimal u).
Proof.
  intros H. induction u; cbn [hexadecimal]; [intros []|..];
    (intros [K|K]; [destruct H as [H|H]; subst; [vm_compute in H|]; discriminate|contradiction]).
Qed.
Lemma dtype_no_space t : ~ In x20 (dtype_display t).
Proof.
  assert (H : forallb (fun b => negb (Byte.eqb x20 b)) (dtype_display t) = true) by (destruct t; vm_compute; reflexivity).
  intros K. rewrite forallb_forall in H. apply H in K. discriminate.
Qed.

Lemma to_N_inj a b : Byte.to_N a = Byte.to_N b -> a = b.
Proof. intros H. apply (f_equal Byte.of_N) in H. rewrite !Byte.of_to_N in H. now injection H. Qed.
Lemma show_list_inj l : forall l', List.length l = List.length l' -> show_list l = show_list l' -> l = l'.
Proof.
  induction l as [|a [|a2 l] IH]; intros l' L H; destruct l' as [|b [|b2 l']]; cbn [List.length] in L; try discriminate.
  - reflexivity.
  - cbn [show_list] in H. apply show_hex_inj, to_N_inj in H. now subst.
  - cbn [show_list app] in H. apply split_at in H; [|unfold show_hex; apply hexadecimal_no; now left..].
    destruct H as [H1 H2]. apply show_hex_inj, to_N_inj in H1. injection H2 as H2.
    f_equal; [exact H1|]. apply IH; [cbn [List.length]; lia|exact H2].
Qed.

(** What a message shows. *)
Lemma message_shows x y : message x = message y ->
  match x, y with
  | EIo _, EIo _ => True
  | EDataBlockNotFound _, EDataBlockNotFound _ => True
  | EHeaderPattern a, EHeaderPattern b => List.length a = List.length b -> a = b
  | _, _ => x = y
  end.
Proof.
  intros H. pose proof (message_kind x y H) as K.
  destruct x, y; cbn [kind] in K; try discriminate; try exact Logic.I; try reflexivity;
    cbn [message] in H.
  - now apply app_inv_head in H; subst.
  - apply app_inv_head, show_hex_inj in H. now subst.
  - apply app_inv_head, dtype_debug_inj in H. now subst.
  - intros L. apply app_inv_head in H. unfold show_bytes in H. apply app_inv_head, app_inv_tail in H. now apply show_list_inj.
  - apply app_inv_head in H. change (lit " which is not divisible by the number of channels: ")
      with (x20 :: lit "which is not divisible by the number of channels: ") in H.
    cbn [app] in H. apply split_at in H; [|unfold show_dec; apply decimal_no; reflexivity..].
    destruct H as [H1 H2]. apply app_inv_head in H2. apply show_dec_inj in H1, H2. now subst.
  - apply app_inv_head in H. change (lit " as type ") with (x20 :: lit "as type ") in H.
    cbn [app] in H. apply split_at in H; [|apply dtype_no_space..].
    destruct H as [H1 H2]. apply app_inv_head in H2. apply dtype_display_inj in H1, H2. now subst.
  - now apply app_inv_head in H; subst.
  - now apply app_inv_head in H; subst.
Qed.

(** ** Where a bad tag is reported *)
Definition no_tag {A} (m : res A) : Prop := match m with Err (EHeaderPattern _) => False | _ => True end.
Lemma nt_bind {A B} (m : res A) (k : A -> res B) : no_tag m -> (forall x, no_tag (k x)) -> no_tag (bind m k).
Proof. intros Hm Hk. destruct m as [x|x| |]; cbn [bind]; [apply Hk|exact Hm|exact Logic.I|exact Logic.I]. Qed.
Lemma nt_exact n bs : no_tag (read_exact n bs).
Proof. unfold read_exact. destruct (n <=? lenN bs); exact Logic.I. Qed.
Ltac nt := repeat first
  [exact Logic.I
  |apply nt_exact
  |apply nt_bind; [|intros [? ?]]
  |match goal with |- no_tag (if ?b then _ else _) => destruct b end
  |match goal with |- no_tag (match ?x with _ => _ end) => destruct x end].
Lemma nt_dec E e t bs : no_tag (dec E e t bs).
Proof.
  destruct t; cbn [dec]; unfold dec_sint, dec_uint, dec_bool, dec_ext, dec_str, dec_complex, dec_uint; nt.
Qed.
Lemma nt_uint e w bs : no_tag (dec_uint e w bs).
Proof. unfold dec_uint. nt. Qed.
Lemma nt_dtype e bs : no_tag (read_dtype e bs).
Proof. unfold read_dtype. apply nt_bind; [apply nt_uint|]. intros [c r]. nt. Qed.
Lemma nt_pval E e bs : no_tag (read_pval E e bs).
Proof.
  unfold read_pval. apply nt_bind; [apply nt_dtype|]. intros [t r].
  destruct t; unfold read_as; try exact Logic.I; (apply nt_bind; [apply nt_dec|intros [v r']; exact Logic.I]).
Qed.
Lemma nt_props E e fuel : forall count bs, no_tag (read_props E e fuel count bs).
Proof.
  induction fuel as [|fuel IH]; intros count bs; cbn [read_props]; destruct (count =? 0); try exact Logic.I.
  apply nt_bind; [apply nt_dec|]. intros [n r]. apply nt_bind; [apply nt_pval|]. intros [v r2].
  apply nt_bind; [apply IH|]. intros [ps r3]. exact Logic.I.
Qed.
Lemma nt_obj E e bs : no_tag (read_obj E e bs).
Proof.
  unfold read_obj. apply nt_bind; [apply nt_dec|]. intros [p r]. apply nt_bind.
  - unfold read_rawidx. apply nt_bind; [apply nt_uint|]. intros [i r1].
    repeat match goal with |- no_tag (if ?b then _ else _) => destruct b; try exact Logic.I end.
    apply nt_bind; [apply nt_dtype|]. intros [t r2]. apply nt_bind; [apply nt_uint|]. intros [d r3].
    apply nt_bind; [apply nt_uint|]. intros [n r4]. exact Logic.I.
  - intros [i r1]. apply nt_bind; [apply nt_uint|]. intros [c r2]. destruct (alloc_ok E AProps c); [|exact Logic.I].
    apply nt_bind; [apply nt_props|]. intros [ps r3]. exact Logic.I.
Qed.
Lemma nt_objs E e fuel : forall count bs, no_tag (read_objs E e fuel count bs).
Proof.
  induction fuel as [|fuel IH]; intros count bs; cbn [read_objs]; destruct (count =? 0); try exact Logic.I.
  apply nt_bind; [apply nt_obj|]. intros [o r]. apply nt_bind; [apply IH|]. intros [os r3]. exact Logic.I.
Qed.
Lemma nt_segment E t bs : no_tag (read_segment E t bs).
Proof.
  unfold read_segment. cbv zeta. apply nt_bind; [apply nt_uint|]. intros [v r]. apply nt_bind; [apply nt_uint|]. intros [n r1].
  apply nt_bind; [apply nt_uint|]. intros [w r2]. apply nt_bind; [|intros [m r3]; exact Logic.I].
  unfold read_metadata. apply nt_bind; [apply nt_uint|]. intros [c r3].
  destruct (alloc_ok E AObjects c); [apply nt_objs|exact Logic.I].
Qed.
