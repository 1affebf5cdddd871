(** * The bytes of a segment, as a grammar.
      Relations between values and the bytes that stand for them, from the TDMS
      format description; the model's reading and writing functions are not
      used.  What the library ignores or accepts beyond the format is said
      here. *)
From Verif Require Import Base DataTypes MetaData SpecCodec.

(** [bs] is the number [n] in [w] bytes. *)
Definition number (e : endian) (w : nat) (n : N) (bs : list byte) : Prop :=
  length bs = w
  /\ n = fold_left (fun a b => 256 * a + Byte.to_N b) (match e with BigE => bs | LittleE => rev bs end) 0.
(** Two's complement. *)
Definition signed (e : endian) (w : nat) (z : Z) (bs : list byte) : Prop :=
  exists n, number e w n bs /\ in_signed (8 * Z.of_nat w) z
    /\ (z mod 2 ^ (8 * Z.of_nat w) = Z.of_N n)%Z.
(** A length and that many bytes of UTF-8, for which memory is granted. *)
Definition text (E : env) (e : endian) (s : str) (bs : list byte) : Prop :=
  exists l, bs = l ++ s /\ number e 4 (lenN s) l /\ well_formed_utf8 s /\ alloc_ok E AString (lenN s) = true.
(** A type code. *)
Definition type_code (e : endian) (t : dtype) (bs : list byte) : Prop := number e 4 (dtype_code t) bs.

(** The value of a property.  Any byte but 0 is a true boolean. *)
Definition value_bytes (E : env) (e : endian) (p : pval) (bs : list byte) : Prop :=
  match p with
  | PVoid => bs = []
  | PBoolean v => exists b, bs = [b] /\ (v = true <-> b <> x00)
  | PI8 z => signed e 1 z bs | PI16 z => signed e 2 z bs
  | PI32 z => signed e 4 z bs | PI64 z => signed e 8 z bs
  | PU8 n => number e 1 n bs | PU16 n => number e 2 n bs
  | PU32 n => number e 4 n bs | PU64 n => number e 8 n bs
  | PSingle n => number e 4 n bs | PDouble n => number e 8 n bs
  | PExtended n => number e 10 n bs
  | PString s => text E e s bs
  | PComplexSingle (re, im) => exists a b, bs = a ++ b /\ number e 4 re a /\ number e 4 im b
  | PComplexDouble (re, im) => exists a b, bs = a ++ b /\ number e 8 re a /\ number e 8 im b
  | PTimestamp n => number e 16 n bs
  end.
(** The type of a property's value; floats may be marked as having a unit. *)
Definition has_type (p : pval) (t : dtype) : Prop :=
  match p with
  | PSingle _ => t = SingleFloat \/ t = SingleFloatWithUnit
  | PDouble _ => t = DoubleFloat \/ t = DoubleFloatWithUnit
  | PExtended _ => t = ExtendedFloat \/ t = ExtendedFloatWithUnit
  | _ => t = pval_dtype p
  end.
Definition property (E : env) (e : endian) (p : str * pval) (bs : list byte) : Prop :=
  exists n c v t, bs = n ++ c ++ v /\ text E e (fst p) n /\ type_code e t c
    /\ has_type (snd p) t /\ value_bytes E e (snd p) v.

(** The raw data index.  Its length [k] is not looked at, except that 0,
    2^32-1 and the DAQmx marks 0x6912.... and 0x6913.... are special; the
    dimension is not looked at. *)
Definition raw_index (e : endian) (x : rawidx) (bs : list byte) : Prop :=
  match x with
  | RIMatch => number e 4 0 bs
  | RINone => number e 4 (2 ^ 32 - 1) bs
  | RIRaw m =>
    exists k l c d n, bs = l ++ c ++ d ++ n /\ number e 4 k l
      /\ k <> 0 /\ k <> 2 ^ 32 - 1 /\ k / 2 ^ 16 <> 26898 (* 0x6912 *) /\ k / 2 ^ 16 <> 26899 (* 0x6913 *)
      /\ type_code e (rm_type m) c /\ length d = 4%nat /\ number e 8 (rm_n m) n
      /\ rm_total m = None
  end.

(** A number of items, one after the other. *)
Definition items {A} (R : A -> list byte -> Prop) (xs : list A) (bs : list byte) : Prop :=
  exists ps, bs = concat ps /\ Forall2 R xs ps.
(** Path, raw data index, number of properties, properties. *)
Definition object_bytes (E : env) (e : endian) (o : objmeta) (bs : list byte) : Prop :=
  exists p i n q, bs = p ++ i ++ n ++ q /\ text E e (om_path o) p /\ raw_index e (om_idx o) i
    /\ number e 4 (lenN (om_props o)) n /\ alloc_ok E AProps (lenN (om_props o)) = true
    /\ items (property E e) (om_props o) q.
Definition metadata_bytes (E : env) (e : endian) (os : list objmeta) (bs : list byte) : Prop :=
  exists n q, bs = n ++ q /\ number e 4 (lenN os) n /\ alloc_ok E AObjects (lenN os) = true
    /\ items (object_bytes E e) os q.

(** The flags of a table of contents word. *)
Definition flags (w : N) : toc :=
  mkToc (N.testbit w 1) (N.testbit w 3) (N.testbit w 7) (N.testbit w 5) (N.testbit w 6) (N.testbit w 2).
(** Tag, table of contents (little endian), version (not looked at), two
    offsets, metadata.  The metadata is expected whatever the flags and the
    offsets say. *)
Definition segment_bytes (E : env) (s : segment) (bs : list byte) : Prop :=
  let e := if toc_big (sg_toc s) then BigE else LittleE in
  exists w t v n r m os,
    bs = [x54; x44; x53; x6d] ++ t ++ v ++ n ++ r ++ m
    /\ number LittleE 4 w t /\ sg_toc s = flags w /\ length v = 4%nat
    /\ number e 8 (sg_next s) n /\ number e 8 (sg_raw s) r
    /\ sg_meta s = Some os /\ metadata_bytes E e os m.
