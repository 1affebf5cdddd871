(** * Metadata and segments: src/meta_data.rs, src/properties.rs,
      src/io/reader.rs, src/io/writer.rs *)
From Verif Require Import Base Utf8 DataTypes.

(** ** Data type codes *)

(** [DataType::read], meta_data.rs 30-35. *)
Definition read_dtype (e : endian) : parser dtype := fun bs =>
  '(c, r) <- dec_uint e 4 bs ;;
  match dtype_of_code c with
  | Some t => Ok (t, r)
  | None => Err (EUnknownPropertyType c)
  end.

(** [DataType::write], meta_data.rs 37-40. *)
Definition write_dtype (e : endian) (t : dtype) : list byte :=
  enc_uint e 4 (dtype_code t).

(** ** Table of contents *)

(** [ToC], meta_data.rs 48-56. *)
Record toc := mkToc {
  toc_meta : bool;      (* contains_meta_data *)
  toc_raw : bool;       (* contains_raw_data *)
  toc_daqmx : bool;     (* contains_daqmx_raw_data *)
  toc_inter : bool;     (* data_is_interleaved *)
  toc_big : bool;       (* big_endian *)
  toc_newlist : bool }. (* contains_new_object_list *)

(** [ToC::default()] (derived), meta_data.rs 48. *)
Definition toc_default : toc := mkToc false false false false false false.

(** [mask_bit_set], meta_data.rs 58-62. *)
Definition mask_bit_set (v bit : N) : bool :=
  negb (N.land v (N.shiftl 1 bit) =? 0).

(** [set_bits], meta_data.rs 64-68. *)
Definition set_bits (input : N) (value : bool) (bit : N) : N :=
  if value then N.lor input (N.shiftl 1 bit) else input.

(** [ToC::from_u32], meta_data.rs 71-80. *)
Definition toc_of_u32 (v : N) : toc :=
  mkToc (mask_bit_set v 1) (mask_bit_set v 3) (mask_bit_set v 7)
        (mask_bit_set v 5) (mask_bit_set v 6) (mask_bit_set v 2).

(** The word built by [ToC::as_bytes], meta_data.rs 82-89. *)
Definition toc_word (t : toc) : N :=
  let v := set_bits 0 (toc_meta t) 1 in
  let v := set_bits v (toc_raw t) 3 in
  let v := set_bits v (toc_daqmx t) 7 in
  let v := set_bits v (toc_inter t) 5 in
  let v := set_bits v (toc_big t) 6 in
  set_bits v (toc_newlist t) 2.

(** [ToC::as_bytes] and [ToC::write], meta_data.rs 82-106: little endian
    whatever the byte order of the writer (bytes are written one by one). *)
Definition write_toc (t : toc) : list byte := le_bytes 4 (toc_word t).

(** ** Properties *)

(** [PropertyValue], properties.rs 17-35. *)
Inductive pval :=
| PVoid
| PBoolean (b : bool)
| PI8 (z : Z) | PI16 (z : Z) | PI32 (z : Z) | PI64 (z : Z)
| PU8 (n : N) | PU16 (n : N) | PU32 (n : N) | PU64 (n : N)
| PSingle (n : N) | PDouble (n : N)
| PExtended (n : N)
| PString (s : str)
| PComplexSingle (c : N * N) | PComplexDouble (c : N * N)
| PTimestamp (n : N).

(** [PropertyValue::datatype], properties.rs 38-58. *)
Definition pval_dtype (p : pval) : dtype :=
  match p with
  | PVoid => Void
  | PBoolean _ => Boolean
  | PI8 _ => I8 | PI16 _ => I16 | PI32 _ => I32 | PI64 _ => I64
  | PU8 _ => U8 | PU16 _ => U16 | PU32 _ => U32 | PU64 _ => U64
  | PSingle _ => SingleFloat | PDouble _ => DoubleFloat
  | PExtended _ => ExtendedFloat
  | PString _ => TdmsString
  | PComplexSingle _ => ComplexSingleFloat
  | PComplexDouble _ => ComplexDoubleFloat
  | PTimestamp _ => Timestamp
  end.

(** The value part of [PropertyValue::write], properties.rs 107-149. *)
Definition pval_bytes (e : endian) (p : pval) : list byte :=
  match p with
  | PVoid => []
  | PBoolean v => enc e SBool v
  | PI8 v => enc e SI8 v | PI16 v => enc e SI16 v
  | PI32 v => enc e SI32 v | PI64 v => enc e SI64 v
  | PU8 v => enc e SU8 v | PU16 v => enc e SU16 v
  | PU32 v => enc e SU32 v | PU64 v => enc e SU64 v
  | PSingle v => enc e SF32 v | PDouble v => enc e SF64 v
  | PExtended v => enc e SExt v
  | PString v => enc e SStr v
  | PComplexSingle v => enc e SC32 v
  | PComplexDouble v => enc e SC64 v
  | PTimestamp v => enc e STime v
  end.

(** [PropertyValue::write] with [write_property_components],
    properties.rs 61-69, 107-149. *)
Definition write_pval (e : endian) (p : pval) : list byte :=
  write_dtype e (pval_dtype p) ++ pval_bytes e p.

(** [PropertyValue::size], properties.rs 151-172. *)
Definition pval_size (p : pval) : N :=
  match p with
  | PVoid => 0
  | PBoolean v => val_size SBool v
  | PI8 v => val_size SI8 v | PI16 v => val_size SI16 v
  | PI32 v => val_size SI32 v | PI64 v => val_size SI64 v
  | PU8 v => val_size SU8 v | PU16 v => val_size SU16 v
  | PU32 v => val_size SU32 v | PU64 v => val_size SU64 v
  | PSingle v => val_size SF32 v | PDouble v => val_size SF64 v
  | PExtended v => val_size SExt v
  | PString v => val_size SStr v
  | PComplexSingle v => val_size SC32 v
  | PComplexDouble v => val_size SC64 v
  | PTimestamp v => val_size STime v
  end + 4.

(** [Ok(PropertyValue::X(reader.read_value()?))], properties.rs 77-102. *)
Definition read_as {A} (p : parser A) (c : A -> pval) : parser pval := fun bs =>
  '(v, r) <- p bs ;; Ok (c v, r).

(** [PropertyValue::read], properties.rs 72-105. *)
Definition read_pval (E : env) (e : endian) : parser pval := fun bs =>
  '(t, r) <- read_dtype e bs ;;
  match t with
  | Void => Ok (PVoid, r)
  | Boolean => read_as (dec E e SBool) PBoolean r
  | I8 => read_as (dec E e SI8) PI8 r
  | I16 => read_as (dec E e SI16) PI16 r
  | I32 => read_as (dec E e SI32) PI32 r
  | I64 => read_as (dec E e SI64) PI64 r
  | U8 => read_as (dec E e SU8) PU8 r
  | U16 => read_as (dec E e SU16) PU16 r
  | U32 => read_as (dec E e SU32) PU32 r
  | U64 => read_as (dec E e SU64) PU64 r
  | SingleFloat | SingleFloatWithUnit => read_as (dec E e SF32) PSingle r
  | DoubleFloat | DoubleFloatWithUnit => read_as (dec E e SF64) PDouble r
  | ExtendedFloat | ExtendedFloatWithUnit => read_as (dec E e SExt) PExtended r
  | ComplexSingleFloat => read_as (dec E e SC32) PComplexSingle r
  | ComplexDoubleFloat => read_as (dec E e SC64) PComplexDouble r
  | TdmsString => read_as (dec E e SStr) PString r
  | Timestamp => read_as (dec E e STime) PTimestamp r
  | FixedPoint | DAQmxRawData => Err (EUnsupportedType t)
  end.

(** [From<T> for PropertyValue], properties.rs 177-181, 213-232, 248-252.
    There is no conversion for [ExtendedRaw]. *)
Definition pval_from (t : sty) : carrier t -> option pval :=
  match t return carrier t -> option pval with
  | SI8 => fun v => Some (PI8 v) | SI16 => fun v => Some (PI16 v)
  | SI32 => fun v => Some (PI32 v) | SI64 => fun v => Some (PI64 v)
  | SU8 => fun v => Some (PU8 v) | SU16 => fun v => Some (PU16 v)
  | SU32 => fun v => Some (PU32 v) | SU64 => fun v => Some (PU64 v)
  | SF32 => fun v => Some (PSingle v) | SF64 => fun v => Some (PDouble v)
  | SBool => fun v => Some (PBoolean v)
  | SExt => fun _ => None
  | SStr => fun v => Some (PString v)
  | SC32 => fun v => Some (PComplexSingle v)
  | SC64 => fun v => Some (PComplexDouble v)
  | STime => fun v => Some (PTimestamp v)
  end.

(** [TryFrom<PropertyValue> for T] (and for [&PropertyValue]),
    properties.rs 183-209, 213-226, 234-246, 254-266.  [None]: no such impl
    (ExtendedRaw). *)
Definition pval_try_into (t : sty) (p : pval) : option (res (carrier t)) :=
  match t return option (res (carrier t)) with
  | SI8 => Some (match p with PI8 v => Ok v | _ => Err (EDataTypeMismatch (pval_dtype p) I8) end)
  | SI16 => Some (match p with PI16 v => Ok v | _ => Err (EDataTypeMismatch (pval_dtype p) I16) end)
  | SI32 => Some (match p with PI32 v => Ok v | _ => Err (EDataTypeMismatch (pval_dtype p) I32) end)
  | SI64 => Some (match p with PI64 v => Ok v | _ => Err (EDataTypeMismatch (pval_dtype p) I64) end)
  | SU8 => Some (match p with PU8 v => Ok v | _ => Err (EDataTypeMismatch (pval_dtype p) U8) end)
  | SU16 => Some (match p with PU16 v => Ok v | _ => Err (EDataTypeMismatch (pval_dtype p) U16) end)
  | SU32 => Some (match p with PU32 v => Ok v | _ => Err (EDataTypeMismatch (pval_dtype p) U32) end)
  | SU64 => Some (match p with PU64 v => Ok v | _ => Err (EDataTypeMismatch (pval_dtype p) U64) end)
  | SF32 => Some (match p with PSingle v => Ok v | _ => Err (EDataTypeMismatch (pval_dtype p) SingleFloat) end)
  | SF64 => Some (match p with PDouble v => Ok v | _ => Err (EDataTypeMismatch (pval_dtype p) DoubleFloat) end)
  | SBool => Some (match p with PBoolean v => Ok v | _ => Err (EDataTypeMismatch (pval_dtype p) Boolean) end)
  | SExt => None
  | SStr => Some (match p with PString v => Ok v | _ => Err (EDataTypeMismatch (pval_dtype p) TdmsString) end)
  | SC32 => Some (match p with PComplexSingle v => Ok v | _ => Err (EDataTypeMismatch (pval_dtype p) ComplexSingleFloat) end)
  | SC64 => Some (match p with PComplexDouble v => Ok v | _ => Err (EDataTypeMismatch (pval_dtype p) ComplexDoubleFloat) end)
  | STime => Some (match p with PTimestamp v => Ok v | _ => Err (EDataTypeMismatch (pval_dtype p) Timestamp) end)
  end.

(** ** Raw data index *)

(** [RawDataMeta], meta_data.rs 328-334. *)
Record rawmeta := mkRaw {
  rm_type : dtype;
  rm_n : N;                 (* number_of_values *)
  rm_total : option N }.    (* total_size_bytes *)

(** [RawDataIndex], meta_data.rs 269-274. *)
Inductive rawidx := RINone | RIMatch | RIRaw (m : rawmeta).

(** [RawDataIndex::read], meta_data.rs 277-299. *)
Definition read_rawidx (e : endian) : parser rawidx := fun bs =>
  '(i, r) <- dec_uint e 4 bs ;;
  if i =? 0 then Ok (RIMatch, r)
  else if i =? 4294967295 (* 0xFFFF_FFFF *) then Ok (RINone, r)
  else if (1762787328 <=? i) && (i <=? 1762852863) (* 0x69120000..=0x6912FFFF *)
  then Err EDaqmxChannelsNotSupported
  else if (1762852864 <=? i) && (i <=? 1762918399) (* 0x69130000..=0x6913FFFF *)
  then Err EDaqmxChannelsNotSupported
  else
    '(t, r1) <- read_dtype e r ;;
    '(_, r2) <- dec_uint e 4 r1 ;;
    '(n, r3) <- dec_uint e 8 r2 ;;
    Ok (RIRaw (mkRaw t n None), r3).

(** [RawDataIndex::write], meta_data.rs 301-315. *)
Definition write_rawidx (e : endian) (x : rawidx) : list byte :=
  match x with
  | RINone => enc_uint e 4 4294967295
  | RIMatch => enc_uint e 4 0
  | RIRaw m => enc_uint e 4 20 ++ write_dtype e (rm_type m) ++ enc_uint e 4 1
               ++ enc_uint e 8 (rm_n m)
  end.

(** [RawDataIndex::size], meta_data.rs 317-325. *)
Definition rawidx_size (x : rawidx) : N :=
  match x with RINone => 4 | RIMatch => 4 | RIRaw _ => 3 * 4 + 8 end.

(** ** Objects *)

(** [ObjectMetaData], meta_data.rs 207-214. *)
Record objmeta := mkObj {
  om_path : str;
  om_props : list (str * pval);
  om_idx : rawidx }.

(** The property loop of [ObjectMetaData::read], meta_data.rs 232-236.
    [count] is the loop bound; [fuel] (the number of bytes left plus one) only
    makes the recursion structural: every iteration consumes at least eight
    bytes, so [Diverge] is unreachable (theorem C11). *)
Fixpoint read_props (E : env) (e : endian) (fuel : nat) (count : N)
  : parser (list (str * pval)) := fun bs =>
  if count =? 0 then Ok ([], bs)
  else match fuel with
  | O => Diverge
  | S fuel' =>
    '(name, r1) <- dec E e SStr bs ;;
    '(v, r2) <- read_pval E e r1 ;;
    '(rest, r3) <- read_props E e fuel' (N.pred count) r2 ;;
    Ok ((name, v) :: rest, r3)
  end.

(** [ObjectMetaData::read], meta_data.rs 217-243. *)
Definition read_obj (E : env) (e : endian) : parser objmeta := fun bs =>
  '(path, r1) <- dec E e SStr bs ;;
  '(idx, r2) <- read_rawidx e r1 ;;
  '(count, r3) <- dec_uint e 4 r2 ;;
  if alloc_ok E AProps count then
    '(props, r4) <- read_props E e (S (length r3)) count r3 ;;
    Ok (mkObj path props idx, r4)
  else Err EPropertyTableAllocationFailed.

(** One property in [ObjectMetaData::write], meta_data.rs 250-253. *)
Definition write_prop (e : endian) (p : str * pval) : list byte :=
  enc e SStr (fst p) ++ write_pval e (snd p).

(** [ObjectMetaData::write], meta_data.rs 245-255 ([len() as u32]). *)
Definition write_obj (e : endian) (o : objmeta) : list byte :=
  enc e SStr (om_path o) ++ write_rawidx e (om_idx o)
  ++ enc_uint e 4 (lenN (om_props o) mod two32)
  ++ concat (map (write_prop e) (om_props o)).

(** Sum of sizes, meta_data.rs 136-142, 257-266 (usize arithmetic cannot overflow:
    the objects are in memory). *)
Definition sumN (l : list N) : N := fold_right N.add 0 l.

(** [ObjectMetaData::size], meta_data.rs 257-266. *)
Definition obj_size (o : objmeta) : N :=
  val_size SStr (om_path o) + rawidx_size (om_idx o) + 4
  + sumN (map (fun p => val_size SStr (fst p) + pval_size (snd p)) (om_props o)).

(** ** Metadata blocks; [MetaData] (meta_data.rs 115-117) is its list of objects *)

(** [TdmsReader::read_vec], io/reader.rs 16-27, at [ObjectMetaData]: the loop
    of lines 23-25.  Fuel as in [read_props]. *)
Fixpoint read_objs (E : env) (e : endian) (fuel : nat) (count : N)
  : parser (list objmeta) := fun bs =>
  if count =? 0 then Ok ([], bs)
  else match fuel with
  | O => Diverge
  | S fuel' =>
    '(o, r1) <- read_obj E e bs ;;
    '(rest, r2) <- read_objs E e fuel' (N.pred count) r1 ;;
    Ok (o :: rest, r2)
  end.

(** [MetaData::read], meta_data.rs 120-124, with io/reader.rs 16-22. *)
Definition read_metadata (E : env) (e : endian) : parser (list objmeta) := fun bs =>
  '(count, r) <- dec_uint e 4 bs ;;
  if alloc_ok E AObjects count then read_objs E e (S (length r)) count r
  else Err EVecAllocationFailed.

(** [MetaData::write], meta_data.rs 126-134. *)
Definition write_metadata (e : endian) (m : list objmeta) : list byte :=
  enc_uint e 4 (lenN m mod two32) ++ concat (map (write_obj e) m).

(** [MetaData::size], meta_data.rs 136-142. *)
Definition metadata_size (m : list objmeta) : N := 4 + sumN (map obj_size m).

(** ** Segments *)

(** [LEAD_IN_BYTES], meta_data.rs 18. *)
Definition LEAD_IN : N := 28.

(** [Segment], meta_data.rs 156-166. *)
Record segment := mkSeg {
  sg_toc : toc;
  sg_next : N;                       (* next_segment_offset *)
  sg_raw : N;                        (* raw_data_offset *)
  sg_meta : option (list objmeta) }. (* meta_data *)

(** [Segment::total_size_bytes], meta_data.rs 169-174. *)
Definition total_size_bytes (s : segment) : res N :=
  match checked_add (sg_next s) LEAD_IN with
  | Some n => Ok n
  | None => Err ESegmentAddressOverflow
  end.

(** Byte order announced by a ToC, meta_data.rs 198-201. *)
Definition toc_endian (t : toc) : endian := if toc_big t then BigE else LittleE.

(** [TdmsReader::read_segment], io/reader.rs 44-58.  Metadata is read
    whatever the ToC says. *)
Definition read_segment (E : env) (t : toc) : parser segment := fun bs =>
  let e := toc_endian t in
  '(_, r1) <- dec_uint e 4 bs ;;
  '(next, r2) <- dec_uint e 8 r1 ;;
  '(raw, r3) <- dec_uint e 8 r2 ;;
  '(m, r4) <- read_metadata E e r3 ;;
  Ok (mkSeg t next raw (Some m), r4).

(** The tag of a segment, meta_data.rs 189 and io/writer.rs 53-55. *)
Definition TDSm : list byte := [x54; x44; x53; x6d].

(** [Segment::read] at absolute position [pos] of the stream,
    meta_data.rs 176-203. *)
Definition segment_read (E : env) (f : list byte) (pos : N) : res segment :=
  let bs := dropN pos f in
  match read_exact 4 bs with
  | Ok (tag, r1) =>
    if str_eqb tag TDSm then
      '(tocb, r2) <- read_exact 4 r1 ;;
      '(s, _) <- read_segment E (toc_of_u32 (le_val tocb)) r2 ;;
      Ok s
    else Err (EHeaderPattern tag)
  | Err _ => Err EEndOfFile   (* read_exact only fails with UnexpectedEof *)
  | Panic p => Panic p
  | Diverge => Diverge
  end.

(** A block of raw data to write ([WriteBlock], raw_data/write.rs 12-16):
    reported size and bytes emitted. *)
Record wblock := mkWB { wb_size : N; wb_bytes : list byte }.

(** Final ToC of a written segment, io/writer.rs 32-49. *)
Definition write_toc_flags (e : endian) (t : toc) (has_meta has_data : bool) : toc :=
  mkToc has_meta has_data (toc_daqmx t) (toc_inter t)
        (match e with BigE => true | LittleE => false end) (toc_newlist t).

(** [TdmsWriter::write_segment], io/writer.rs 26-78: the bytes emitted and the
    segment returned.  [meta_data_bytes + data_bytes] (line 50) is usize
    arithmetic on sizes of in-memory data and cannot overflow. *)
Definition write_segment (e : endian) (t : toc) (m : option (list objmeta))
           (d : option wblock) : list byte * segment :=
  let mbytes := match m with Some m => metadata_size m | None => 0 end in
  let dbytes := match d with Some d => wb_size d | None => 0 end in
  let t' := write_toc_flags e t
              (match m with Some _ => true | None => false end)
              (match d with Some _ => true | None => false end) in
  let next := mbytes + dbytes in
  let raw := mbytes in
  (TDSm ++ write_toc t' ++ enc_uint e 4 4713 ++ enc_uint e 8 next ++ enc_uint e 8 raw
   ++ (match m with Some m => write_metadata e m | None => [] end)
   ++ (match d with Some d => wb_bytes d | None => [] end),
   mkSeg t' next raw m).
