(** * Base: results, environment, machine arithmetic, bytes.

    Semantics of the parts of Rust's core/std library that the model of tedium
    relies on.  Nothing in this file is specific to TDMS except the list of
    errors ([terr]) and the list of data types ([dtype]). *)
From Coq Require Export List NArith ZArith Bool.
From Coq.Init Require Export Byte.
From Coq.Strings Require Byte.
Export ListNotations.
Global Open Scope list_scope.
Global Open Scope N_scope.

(** A Rust [str]/[String] is modelled by its UTF-8 bytes (e.g. the paths of
    meta_data.rs 211 and paths.rs 90, 212). *)
Definition str := list byte.

(** [DataType], src/io/data_types/mod.rs 38-63. *)
Inductive dtype :=
| Void | I8 | I16 | I32 | I64 | U8 | U16 | U32 | U64
| SingleFloat | DoubleFloat | ExtendedFloat
| SingleFloatWithUnit | DoubleFloatWithUnit | ExtendedFloatWithUnit
| TdmsString | Boolean | Timestamp | FixedPoint
| ComplexSingleFloat | ComplexDoubleFloat | DAQmxRawData.

(** I/O error kinds that can arise from the modelled stream, carried by
    [TdmsError::IoError], src/error.rs 14-15
    (std::io::ErrorKind::UnexpectedEof, a failed seek, and, only in WriterIO.v
    and ReaderIO.v, a device that refuses to write or read). *)
Inductive ioerr := UnexpectedEof | InvalidSeek | DeviceError.

(** [TdmsError], src/error.rs 7-75.  Only the variants the library code constructs
    on the modelled paths are listed (UnknownDataType and IndexReaderError are
    never constructed in src/). *)
Inductive terr :=
| EMissingObject (path : str)
| EIo (k : ioerr)
| EStringFormat
| EUnknownPropertyType (code : N)
| EUnsupportedType (t : dtype)
| EHeaderPattern (tag : list byte)
| EDataBlockNotFound (block : nat)
| EBadDataBlockLength (len chans : N)
| EDataTypeMismatch (stored wanted : dtype)
| EEndOfFile
| ESegmentAddressOverflow
| ESegmentTocDataBlockWithoutDataChannels
| EInvalidObjectPath (path : str)
| EInvalidChannelPath (path : str)
| ENoChannels
| EVecAllocationFailed
| EStringAllocationFailed
| EPropertyTableAllocationFailed
| EZeroLengthDataBlock
| ENoActiveChannelsInDataBlock
| ENoPreviousType
| EInvalidRawOffset
| EChunkSizeOverflow
| EDaqmxChannelsNotSupported.

(** Reasons a Rust computation can panic.  Sites: overflow raw_data/mod.rs 146,
    records.rs 100-126, index/mod.rs 169-177,
    contigious_multi_channel_read.rs 209, 217, 241,
    interleaved_multi_channel_read.rs 56; division
    contigious_multi_channel_read.rs 62-67, 116-127,
    interleaved_multi_channel_read.rs 49; slices paths.rs 57, 123; indexes
    records.rs 143, 158; expect paths.rs 231, 238, building.rs 46, 53, 111,
    172; assert building.rs 190; unreachable paths.rs 196. *)
Inductive panic :=
| POverflow       (* arithmetic overflow, only with overflow checks *)
| PDivZero        (* division or remainder by zero *)
| PSlice          (* slice start > end *)
| PIndex          (* index out of bounds *)
| PExpect         (* expect / unwrap on None *)
| PAssert         (* assert! *)
| PUnreachable.   (* unreachable! *)

(** Outcome of a Rust function returning [Result<A, TdmsError>] (or [A]): a
    value, an error, a panic, or (model only) fuel exhaustion of a loop whose
    termination is not syntactically evident.  Theorems exclude [Diverge]. *)
Inductive res (A : Type) :=
| Ok (a : A)
| Err (e : terr)
| Panic (p : panic)
| Diverge.
Arguments Ok {A} a.
Arguments Err {A} e.
Arguments Panic {A} p.
Arguments Diverge {A}.

(** The [?] operator, e.g. meta_data.rs 195. *)
Definition bind {A B} (m : res A) (k : A -> res B) : res B :=
  match m with
  | Ok a => k a
  | Err e => Err e
  | Panic p => Panic p
  | Diverge => Diverge
  end.
(** [let x = m?; k] and [let p = m?; k]. *)
Notation "x <- m ;; k" := (bind m (fun x => k))
  (at level 61, m at next level, right associativity).
Notation "' p <- m ;; k" := (bind m (fun x => match x with p => k end))
  (at level 61, p pattern, m at next level, right associativity).

(** Re-type a failure: [return Err(e)] from a function with another success
    type, e.g. index/building.rs 76-77 ([Ok] never occurs at the call sites). *)
Definition recast {A B} (m : res A) : res B :=
  match m with
  | Ok _ => Diverge
  | Err e => Err e
  | Panic p => Panic p
  | Diverge => Diverge
  end.

(** [Result::is_ok], the negation of [is_err] in file/mod.rs 66. *)
Definition is_ok {A} (m : res A) : bool :=
  match m with Ok _ => true | _ => false end.

(** What [try_reserve] is asked for: bytes of a string (strings.rs 11), objects
    of a metadata block (reader.rs 21), properties of an object
    (meta_data.rs 228-230). *)
Inductive alloc_kind := AString | AObjects | AProps.

(** Build and run-time environment, a parameter of the whole model:
    - [overflow_checks]: is arithmetic overflow a panic (debug profile) or
      wrap-around (release profile);
    - [alloc_ok k n]: does [try_reserve] of [n] elements of kind [k] succeed;
    - [seek_max]: the largest absolute offset the stream can seek to
      (2^64-1 for Cursor, 2^63-1 for File). *)
Record env := mkEnv {
  overflow_checks : bool;
  alloc_ok : alloc_kind -> N -> bool;
  seek_max : N }.

(** Byte order, src/raw_data/mod.rs 43-47 ([Endianess]). *)
Inductive endian := BigE | LittleE.

(** Memory layout of a block, src/raw_data/mod.rs 28-32 ([DataLayout]). *)
Inductive layout := Interleaved | Contigious.

(** Derived [PartialEq] of [DataLayout], src/raw_data/mod.rs 28, used in
    file/file_writer.rs 149. *)
Definition layout_eqb (a b : layout) : bool :=
  match a, b with
  | Interleaved, Interleaved | Contigious, Contigious => true
  | _, _ => false
  end.

(** ** Machine arithmetic *)

(** Number of values of u64: the range of the additions and casts of
    io/writer.rs 50-60, strings.rs 43 and meta_data.rs 127, 248. *)
Definition two64 : N := 2 ^ 64.
(** Same lines: 2^63. *)
Definition two63 : N := 2 ^ 63.
(** Same lines: 2^32. *)
Definition two32 : N := 2 ^ 32.

(** [u64::checked_add], used in meta_data.rs 170, building.rs 96 and
    raw_data/mod.rs 69-88. *)
Definition checked_add (a b : N) : option N :=
  if a + b <? two64 then Some (a + b) else None.
(** [u64::checked_mul], used in building.rs 130 and raw_data/mod.rs 167. *)
Definition checked_mul (a b : N) : option N :=
  if a * b <? two64 then Some (a * b) else None.

(** Plain [+] on u64/usize (raw_data/mod.rs 146, the sums of records.rs 107 and
    125): panics or wraps, depending on the profile. *)
Definition uadd (E : env) (a b : N) : res N :=
  if a + b <? two64 then Ok (a + b)
  else if overflow_checks E then Panic POverflow else Ok ((a + b) mod two64).
(** Plain [*] on usize (records.rs 121-123), likewise. *)
Definition umul (E : env) (a b : N) : res N :=
  if a * b <? two64 then Ok (a * b)
  else if overflow_checks E then Panic POverflow else Ok ((a * b) mod two64).

(** [Iterator::sum] over u64/usize (index/mod.rs 175, records.rs 107): a left
    fold of [+] from 0. *)
Fixpoint usum_from (E : env) (acc : N) (l : list N) : res N :=
  match l with
  | [] => Ok acc
  | x :: r => acc' <- uadd E acc x ;; usum_from E acc' r
  end.
(** [Iterator::sum] from 0, as in index/mod.rs 175 and records.rs 107. *)
Definition usum (E : env) (l : list N) : res N := usum_from E 0 l.

(** [as i64] on u64/usize (two's complement), records.rs 134,
    contigious_multi_channel_read.rs 74, 209, 217, 241. *)
Definition as_i64 (n : N) : Z :=
  let m := n mod two64 in
  if m <? two63 then Z.of_N m else (Z.of_N m - 2 ^ 64)%Z.
(** [as usize] on i64, records.rs 28. *)
Definition as_u64 (z : Z) : N := Z.to_N (z mod 2 ^ 64)%Z.

(** Plain [*] on i64, contigious_multi_channel_read.rs 209, 217, 241 and
    interleaved_multi_channel_read.rs 56. *)
Definition imul (E : env) (a b : Z) : res Z :=
  let p := (a * b)%Z in
  if ((- 2 ^ 63 <=? p) && (p <? 2 ^ 63))%Z then Ok p
  else if overflow_checks E then Panic POverflow
  else Ok (as_i64 (Z.to_N (p mod 2 ^ 64)%Z)).

(** ** Bytes *)

(** [len()] of a slice, [Vec] or [str], e.g. file_writer.rs 117. *)
Definition lenN {A} (l : list A) : N := N.of_nat (length l).

(** The low byte of a number ([as u8]), the bytes of native_numerics.rs 29. *)
Definition byte_of_N (n : N) : byte :=
  match Byte.of_N (n mod 256) with Some b => b | None => x00 end.

(** [to_le_bytes] of an unsigned integer of [w] bytes, native_numerics.rs 29,
    meta_data.rs 90. *)
Fixpoint le_bytes (w : nat) (n : N) : list byte :=
  match w with
  | O => []
  | S w' => byte_of_N n :: le_bytes w' (n / 256)
  end.

(** [from_le_bytes], native_numerics.rs 21, meta_data.rs 196. *)
Fixpoint le_val (l : list byte) : N :=
  match l with
  | [] => 0
  | b :: r => Byte.to_N b + 256 * le_val r
  end.

(** [to_le_bytes] / [to_be_bytes], native_numerics.rs 28-35. *)
Definition uint_bytes (e : endian) (w : nat) (n : N) : list byte :=
  match e with LittleE => le_bytes w n | BigE => rev (le_bytes w n) end.
(** [from_le_bytes] / [from_be_bytes], native_numerics.rs 18-27. *)
Definition uint_val (e : endian) (l : list byte) : N :=
  match e with LittleE => le_val l | BigE => le_val (rev l) end.

(** A sequential reader (the [R: Read + Seek] of io/reader.rs 10): consumes a
    prefix of the remaining bytes. *)
Definition parser (A : Type) := list byte -> res (A * list byte).

(** [Read::read_exact] into a buffer of [n] bytes, native_numerics.rs 20,
    strings.rs 22, meta_data.rs 178, 195. *)
Definition read_exact (n : N) : parser (list byte) := fun bs =>
  if n <=? lenN bs
  then Ok (firstn (N.to_nat n) bs, skipn (N.to_nat n) bs)
  else Err (EIo UnexpectedEof).

(** The bytes of the stream from absolute position [pos] on: what follows a
    seek (file/mod.rs 66, io/reader.rs 33). *)
Definition dropN (pos : N) (f : list byte) : list byte :=
  if lenN f <=? pos then [] else skipn (N.to_nat pos) f.

(** [Seek::seek(SeekFrom::Start(pos))], file/mod.rs 60, 66 and io/reader.rs
    31-35. *)
Definition seek_to (E : env) (pos : N) : res N :=
  if pos <=? seek_max E then Ok pos else Err (EIo InvalidSeek).

(** [BufReader::seek_relative(offset)] at position [pos]; io/reader.rs 38-41.
    Simplification: a relative move inside the buffer that does not reach the
    underlying stream is treated like any other move. *)
Definition seek_rel (E : env) (pos : N) (off : Z) : res N :=
  let p := (Z.of_N pos + off)%Z in
  if (p <? 0)%Z then Err (EIo InvalidSeek)
  else if Z.to_N p <=? seek_max E then Ok (Z.to_N p) else Err (EIo InvalidSeek).

(** Byte-wise lexicographic order of strings ([Ord for str]): the key order of
    the maps of index/mod.rs 59, 114 and the set of file/mod.rs 130. *)
Fixpoint str_cmp (a b : str) : comparison :=
  match a, b with
  | [], [] => Eq
  | [], _ :: _ => Lt
  | _ :: _, [] => Gt
  | x :: a', y :: b' =>
      match N.compare (Byte.to_N x) (Byte.to_N y) with
      | Eq => str_cmp a' b'
      | c => c
      end
  end.

(** Equality of strings ([PartialEq for str], building.rs 158) and of byte
    arrays (meta_data.rs 189). *)
Fixpoint str_eqb (a b : str) : bool :=
  match a, b with
  | [], [] => true
  | x :: a', y :: b' => Byte.eqb x y && str_eqb a' b'
  | _, _ => false
  end.

(** [str::starts_with] with a string pattern, querying.rs 36. *)
Fixpoint is_prefix (p s : str) : bool :=
  match p, s with
  | [], _ => true
  | x :: p', y :: s' => Byte.eqb x y && is_prefix p' s'
  | _ :: _, [] => false
  end.
