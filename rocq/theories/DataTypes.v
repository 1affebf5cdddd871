(** * Data types and element types: src/io/data_types/*.rs *)
From Verif Require Import Base Utf8.

(** Derived [PartialEq] of [DataType], mod.rs 38. *)
Definition dtype_eq_dec : forall a b : dtype, {a = b} + {a <> b}.
Proof. decide equality. Defined.
(** The same as a boolean, as used by [contains], records.rs 159. *)
Definition dtype_eqb (a b : dtype) : bool :=
  if dtype_eq_dec a b then true else false.

(** Discriminants of [DataType], src/io/data_types/mod.rs 40-63. *)
Definition dtype_code (t : dtype) : N :=
  match t with
  | Void => 0 | I8 => 1 | I16 => 2 | I32 => 3 | I64 => 4
  | U8 => 5 | U16 => 6 | U32 => 7 | U64 => 8
  | SingleFloat => 9 | DoubleFloat => 10 | ExtendedFloat => 11
  | SingleFloatWithUnit => 25 (* 0x19 *)
  | DoubleFloatWithUnit => 12 | ExtendedFloatWithUnit => 13
  | TdmsString => 32 (* 0x20 *) | Boolean => 33 (* 0x21 *)
  | Timestamp => 68 (* 0x44 *) | FixedPoint => 79 (* 0x4F *)
  | ComplexSingleFloat => 524300 (* 0x0008_000c *)
  | ComplexDoubleFloat => 1048589 (* 0x0010_000d *)
  | DAQmxRawData => 4294967295 (* 0xFFFF_FFFF *)
  end.

(** [FromPrimitive::from_u32] derived for [DataType], mod.rs 38. *)
Definition dtype_of_code (n : N) : option dtype :=
  match n with
  | 0 => Some Void | 1 => Some I8 | 2 => Some I16 | 3 => Some I32
  | 4 => Some I64 | 5 => Some U8 | 6 => Some U16 | 7 => Some U32
  | 8 => Some U64 | 9 => Some SingleFloat | 10 => Some DoubleFloat
  | 11 => Some ExtendedFloat | 12 => Some DoubleFloatWithUnit
  | 13 => Some ExtendedFloatWithUnit | 25 => Some SingleFloatWithUnit
  | 32 => Some TdmsString | 33 => Some Boolean | 68 => Some Timestamp
  | 79 => Some FixedPoint | 524300 => Some ComplexSingleFloat
  | 1048589 => Some ComplexDoubleFloat | 4294967295 => Some DAQmxRawData
  | _ => None
  end.

(** [DataType::size], mod.rs 66-88. *)
Definition dtype_size (t : dtype) : N :=
  match t with
  | Void => 0
  | I8 | U8 => 1
  | I16 | U16 => 2
  | I32 | U32 => 4
  | I64 | U64 => 8
  | SingleFloat => 4
  | DoubleFloat => 8
  | ExtendedFloat => 16
  | SingleFloatWithUnit => 4
  | DoubleFloatWithUnit => 8
  | ExtendedFloatWithUnit => 16
  | TdmsString => 0
  | Boolean => 1
  | Timestamp => 8
  | FixedPoint => 8
  | ComplexSingleFloat => 8
  | ComplexDoubleFloat => 16
  | DAQmxRawData => 4
  end.

(** The Rust types implementing [TdmsStorageType] (mod.rs 122-141):
    native_numerics.rs 43-60, bool.rs 9, extended.rs 30, strings.rs 27,
    complex.rs 61-62, timestamp.rs 10. *)
Inductive sty :=
| SI8 | SI16 | SI32 | SI64 | SU8 | SU16 | SU32 | SU64
| SF32 | SF64 | SBool | SExt | SStr | SC32 | SC64 | STime.

(** Values of each Rust type.  Floats are bit patterns, [LVTime] (external
    crate labview-interop) is an opaque 128-bit number, [ExtendedRaw] wraps a
    u128 (extended.rs 17-18), [Complex] is a pair (complex.rs 10-14). *)
Definition carrier (t : sty) : Type :=
  match t with
  | SI8 | SI16 | SI32 | SI64 => Z
  | SBool => bool
  | SStr => str
  | SC32 | SC64 => (N * N)%type
  | _ => N
  end.

(** [SUPPORTED_TYPES] of each implementation (same anchors as [sty]). *)
Definition supported (t : sty) : list dtype :=
  match t with
  | SI8 => [I8] | SI16 => [I16] | SI32 => [I32] | SI64 => [I64]
  | SU8 => [U8] | SU16 => [U16] | SU32 => [U32] | SU64 => [U64]
  | SF32 => [SingleFloat; SingleFloatWithUnit]
  | SF64 => [DoubleFloat; DoubleFloatWithUnit]
  | SBool => [Boolean; U8]
  | SExt => [ExtendedFloat; ExtendedFloatWithUnit]
  | SStr => [TdmsString]
  | SC32 => [ComplexSingleFloat] | SC64 => [ComplexDoubleFloat]
  | STime => [Timestamp]
  end.

(** [NATURAL_TYPE] of each implementation (same anchors as [sty]). *)
Definition natural (t : sty) : dtype :=
  match t with
  | SI8 => I8 | SI16 => I16 | SI32 => I32 | SI64 => I64
  | SU8 => U8 | SU16 => U16 | SU32 => U32 | SU64 => U64
  | SF32 => SingleFloat | SF64 => DoubleFloat
  | SBool => Boolean
  | SExt => ExtendedFloat
  | SStr => TdmsString
  | SC32 => ComplexSingleFloat | SC64 => ComplexDoubleFloat
  | STime => Timestamp
  end.

(** [SIZE_BYTES] = [std::mem::size_of::<Self>()], mod.rs 128, on a 64-bit
    target: u128 is 16 bytes, String 24, LVTime 16 (timestamp.rs 8). *)
Definition size_bytes (t : sty) : N :=
  match t with
  | SI8 | SU8 | SBool => 1
  | SI16 | SU16 => 2
  | SI32 | SU32 | SF32 => 4
  | SI64 | SU64 | SF64 | SC32 => 8
  | SC64 | SExt | STime => 16
  | SStr => 24
  end.

(** [supports] as used by validate_types_match, records.rs 159. *)
Definition supports (t : sty) (d : dtype) : bool :=
  existsb (dtype_eqb d) (supported t).

(** Two's complement of [w] bytes: the bit pattern that [to_le_bytes] of a
    signed integer emits, native_numerics.rs 28-35. *)
Definition of_signed (w : nat) (z : Z) : N :=
  Z.to_N (z mod 2 ^ (8 * Z.of_nat w))%Z.
(** The signed integer with a given bit pattern ([from_le_bytes]),
    native_numerics.rs 18-27. *)
Definition to_signed (w : nat) (n : N) : Z :=
  if n <? 2 ^ (8 * N.of_nat w - 1) then Z.of_N n
  else (Z.of_N n - 2 ^ (8 * Z.of_nat w))%Z.

(** native_numerics.rs 28-35: write_le / write_be of unsigned numerics and of
    float bit patterns. *)
Definition enc_uint (e : endian) (w : nat) (n : N) : list byte := uint_bytes e w n.
(** native_numerics.rs 28-35 for signed types. *)
Definition enc_sint (e : endian) (w : nat) (z : Z) : list byte :=
  uint_bytes e w (of_signed w z).
(** bool.rs 25-33. *)
Definition enc_bool (b : bool) : list byte := [if b then x01 else x00].
(** extended.rs 50-60: the low ten bytes of the u128. *)
Definition enc_ext (e : endian) (n : N) : list byte :=
  match e with
  | LittleE => firstn 10 (le_bytes 16 n)
  | BigE => skipn 6 (rev (le_bytes 16 n))
  end.
(** strings.rs 42-52: length truncated [as u32], then the bytes. *)
Definition enc_str (e : endian) (s : str) : list byte :=
  uint_bytes e 4 (lenN s mod two32) ++ s.

(** [write_le]/[write_be] of each implementation (anchors above;
    complex.rs 44-53, timestamp.rs 26-34). *)
Definition enc (e : endian) (t : sty) : carrier t -> list byte :=
  match t return carrier t -> list byte with
  | SI8 => enc_sint e 1 | SI16 => enc_sint e 2
  | SI32 => enc_sint e 4 | SI64 => enc_sint e 8
  | SU8 => enc_uint e 1 | SU16 => enc_uint e 2
  | SU32 => enc_uint e 4 | SU64 => enc_uint e 8
  | SF32 => enc_uint e 4 | SF64 => enc_uint e 8
  | SBool => enc_bool
  | SExt => enc_ext e
  | SStr => enc_str e
  | SC32 => fun c => enc_uint e 4 (fst c) ++ enc_uint e 4 (snd c)
  | SC64 => fun c => enc_uint e 8 (fst c) ++ enc_uint e 8 (snd c)
  | STime => enc_uint e 16
  end.

(** native_numerics.rs 18-27. *)
Definition dec_uint (e : endian) (w : nat) : parser N := fun bs =>
  '(b, r) <- read_exact (N.of_nat w) bs ;; Ok (uint_val e b, r).
(** native_numerics.rs 18-27 for signed types. *)
Definition dec_sint (e : endian) (w : nat) : parser Z := fun bs =>
  '(n, r) <- dec_uint e w bs ;; Ok (to_signed w n, r).
(** bool.rs 14-23: any non-zero byte is true. *)
Definition dec_bool : parser bool := fun bs =>
  '(b, r) <- read_exact 1 bs ;; Ok (negb (le_val b =? 0), r).
(** extended.rs 36-48: ten bytes into a zeroed 16-byte buffer. *)
Definition dec_ext (e : endian) : parser N := fun bs =>
  '(b, r) <- read_exact 10 bs ;;
  Ok (match e with
      | LittleE => le_val (b ++ repeat x00 6)
      | BigE => le_val (rev (repeat x00 6 ++ b))
      end, r).
(** strings.rs 8-25, 32-40. *)
Definition dec_str (E : env) (e : endian) : parser str := fun bs =>
  '(len, r) <- dec_uint e 4 bs ;;
  if alloc_ok E AString len then
    '(b, r') <- read_exact len r ;;
    if utf8_valid b then Ok (b, r') else Err EStringFormat
  else Err EStringAllocationFailed.
(** complex.rs 34-43. *)
Definition dec_complex (e : endian) (w : nat) : parser (N * N) := fun bs =>
  '(re, r) <- dec_uint e w bs ;;
  '(im, r') <- dec_uint e w r ;;
  Ok ((re, im), r').

(** [read_le]/[read_be] of each implementation, dispatched by
    [TdmsReader::read_value], io/reader.rs 64-66 and 80-82
    (timestamp.rs 14-24 for LVTime). *)
Definition dec (E : env) (e : endian) (t : sty) : parser (carrier t) :=
  match t return parser (carrier t) with
  | SI8 => dec_sint e 1 | SI16 => dec_sint e 2
  | SI32 => dec_sint e 4 | SI64 => dec_sint e 8
  | SU8 => dec_uint e 1 | SU16 => dec_uint e 2
  | SU32 => dec_uint e 4 | SU64 => dec_uint e 8
  | SF32 => dec_uint e 4 | SF64 => dec_uint e 8
  | SBool => dec_bool
  | SExt => dec_ext e
  | SStr => dec_str E e
  | SC32 => dec_complex e 4
  | SC64 => dec_complex e 8
  | STime => dec_uint e 16
  end.

(** [TdmsStorageType::size] of each implementation: native_numerics.rs 36-38,
    bool.rs 35, extended.rs 62, strings.rs 54, complex.rs 54, timestamp.rs 36. *)
Definition val_size (t : sty) : carrier t -> N :=
  match t return carrier t -> N with
  | SI8 => fun _ => 1 | SI16 => fun _ => 2 | SI32 => fun _ => 4 | SI64 => fun _ => 8
  | SU8 => fun _ => 1 | SU16 => fun _ => 2 | SU32 => fun _ => 4 | SU64 => fun _ => 8
  | SF32 => fun _ => 4 | SF64 => fun _ => 8
  | SBool => fun _ => 1
  | SExt => fun _ => 10
  | SStr => fun s => lenN s + 4
  | SC32 => fun _ => 4 * 2 | SC64 => fun _ => 8 * 2
  | STime => fun _ => 16
  end.
