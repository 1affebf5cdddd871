(** * Specifications for the codec claims (C01-C09), independent of the model's
      reading and writing functions. *)
From Verif Require Import Base DataTypes MetaData.

(** ** UTF-8, from the Unicode standard: a well-formed string is the
    concatenation of the encodings of Unicode scalar values. *)

(** Unicode scalar value: a code point that is not a surrogate. *)
Definition scalar (c : N) : Prop := c < 55296 \/ (57344 <= c /\ c < 1114112).

(** Table 3-6 of the Unicode standard. *)
Definition utf8_encode (c : N) : list byte :=
  map byte_of_N
    (if c <? 128 then [c]
     else if c <? 2048 then [192 + c / 64; 128 + c mod 64]
     else if c <? 65536 then [224 + c / 4096; 128 + (c / 64) mod 64; 128 + c mod 64]
     else [240 + c / 262144; 128 + (c / 4096) mod 64; 128 + (c / 64) mod 64; 128 + c mod 64]).

Definition well_formed_utf8 (s : list byte) : Prop :=
  exists cs, Forall scalar cs /\ s = concat (map utf8_encode cs).

(** ** Values of the Rust types: which elements of [carrier t] exist. *)
Definition in_signed (bits : Z) (z : Z) : Prop :=
  (- 2 ^ (bits - 1) <= z < 2 ^ (bits - 1))%Z.

Definition rust_value (t : sty) : carrier t -> Prop :=
  match t return carrier t -> Prop with
  | SI8 => in_signed 8 | SI16 => in_signed 16 | SI32 => in_signed 32 | SI64 => in_signed 64
  | SU8 => fun n => n < 2 ^ 8 | SU16 => fun n => n < 2 ^ 16
  | SU32 => fun n => n < 2 ^ 32 | SU64 => fun n => n < 2 ^ 64
  | SF32 => fun n => n < 2 ^ 32 | SF64 => fun n => n < 2 ^ 64
  | SBool => fun _ => True
  | SExt => fun n => n < 2 ^ 128
  | SStr => well_formed_utf8
  | SC32 => fun c => fst c < 2 ^ 32 /\ snd c < 2 ^ 32
  | SC64 => fun c => fst c < 2 ^ 64 /\ snd c < 2 ^ 64
  | STime => fun n => n < 2 ^ 128
  end.

(** The values the file format can hold: an extended float has 80 bits, a
    string has a 32-bit length. *)
Definition storable (t : sty) : carrier t -> Prop :=
  match t return carrier t -> Prop with
  | SExt => fun n => n < 2 ^ 80
  | SStr => fun s => lenN s < 2 ^ 32
  | _ => fun _ => True
  end.

(** The allocator grants the memory needed to hold a string. *)
Definition can_alloc (E : env) (t : sty) : carrier t -> Prop :=
  match t return carrier t -> Prop with
  | SStr => fun s => alloc_ok E AString (lenN s) = true
  | _ => fun _ => True
  end.

(** ** Properties *)
Definition rust_pval (p : pval) : Prop :=
  match p with
  | PVoid => True
  | PBoolean v => rust_value SBool v
  | PI8 v => rust_value SI8 v | PI16 v => rust_value SI16 v
  | PI32 v => rust_value SI32 v | PI64 v => rust_value SI64 v
  | PU8 v => rust_value SU8 v | PU16 v => rust_value SU16 v
  | PU32 v => rust_value SU32 v | PU64 v => rust_value SU64 v
  | PSingle v => rust_value SF32 v | PDouble v => rust_value SF64 v
  | PExtended v => rust_value SExt v
  | PString v => rust_value SStr v
  | PComplexSingle v => rust_value SC32 v | PComplexDouble v => rust_value SC64 v
  | PTimestamp v => rust_value STime v
  end.

Definition storable_pval (p : pval) : Prop :=
  match p with
  | PExtended v => storable SExt v
  | PString v => storable SStr v
  | _ => True
  end.

(** Every string and table the value needs can be allocated. *)
Definition can_alloc_pval (E : env) (p : pval) : Prop :=
  match p with PString v => can_alloc E SStr v | _ => True end.

(** A string that exists in Rust, fits the format and can be allocated. *)
Definition good_str (E : env) (s : str) : Prop :=
  rust_value SStr s /\ storable SStr s /\ can_alloc E SStr s.

Definition good_pval (E : env) (p : pval) : Prop :=
  rust_pval p /\ storable_pval p /\ can_alloc_pval E p.

(** A raw-data index that exists in Rust and that the reader can produce: the
    count is a u64, and no total size is given (the library never writes
    one; [total_size_bytes] is always [None], meta_data.rs 293, write.rs 24). *)
Definition good_idx (x : rawidx) : Prop :=
  match x with RIRaw m => rm_n m < 2 ^ 64 /\ rm_total m = None | _ => True end.

Definition good_obj (E : env) (o : objmeta) : Prop :=
  good_str E (om_path o) /\ good_idx (om_idx o)
  /\ Forall (fun p => good_str E (fst p) /\ good_pval E (snd p)) (om_props o)
  /\ lenN (om_props o) < 2 ^ 32 /\ alloc_ok E AProps (lenN (om_props o)) = true.

Definition good_meta (E : env) (m : list objmeta) : Prop :=
  Forall (good_obj E) m /\ lenN m < 2 ^ 32 /\ alloc_ok E AObjects (lenN m) = true.
