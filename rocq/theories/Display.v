(** * Text shown to users: [Display] of types, layouts, paths and errors *)
From Coq Require Import Strings.String.
From Coq Require Decimal Hexadecimal.
From Verif Require Import Base DataTypes MetaData Paths.
Close Scope string_scope.

(** A string literal of the source as bytes (the messages of error.rs 9-74). *)
Definition lit (s : String.string) : str := String.list_byte_of_string s.
Arguments lit s%string.

(** [Display for DataType], io/data_types/mod.rs 91-118. *)
Definition dtype_display (t : dtype) : str :=
  lit match t with
  | Void => "Void" | I8 => "I8" | I16 => "I16" | I32 => "I32" | I64 => "I64"
  | U8 => "U8" | U16 => "U16" | U32 => "U32" | U64 => "U64"
  | SingleFloat => "SingleFloat" | DoubleFloat => "DoubleFloat" | ExtendedFloat => "ExtendedFloat"
  | SingleFloatWithUnit => "SingleFloatWithUnit" | DoubleFloatWithUnit => "DoubleFloatWithUnit"
  | ExtendedFloatWithUnit => "ExtendedFloatWithUnit"
  | TdmsString => "TdmsString" | Boolean => "Boolean" | Timestamp => "TimeStamp" | FixedPoint => "FixedPoint"
  | ComplexSingleFloat => "ComplexSingleFloat" | ComplexDoubleFloat => "ComplexDoubleFloat"
  | DAQmxRawData => "DAQmxRawData"
  end%string.

(** Derived [Debug] of [DataType], io/data_types/mod.rs 36-63: the names of the
    variants. *)
Definition dtype_debug (t : dtype) : str :=
  match t with Timestamp => lit "Timestamp"%string | _ => dtype_display t end.

(** [Display for DataLayout], raw_data/mod.rs 34-41. *)
Definition layout_display (l : layout) : str :=
  lit match l with Interleaved => "Interleaved" | Contigious => "Contigious" end%string.

(** [Display] and [Debug] of [PropertyPath] and [Display] of [ChannelPath],
    paths.rs 175-185, 256-260: the path itself. *)
Definition path_display (p : str) : str := p.

(** Decimal digits, as [{}] prints a usize (error.rs 26). *)
Fixpoint decimal (u : Decimal.uint) : str :=
  match u with
  | Decimal.Nil => []
  | Decimal.D0 r => x30 :: decimal r | Decimal.D1 r => x31 :: decimal r | Decimal.D2 r => x32 :: decimal r
  | Decimal.D3 r => x33 :: decimal r | Decimal.D4 r => x34 :: decimal r | Decimal.D5 r => x35 :: decimal r
  | Decimal.D6 r => x36 :: decimal r | Decimal.D7 r => x37 :: decimal r | Decimal.D8 r => x38 :: decimal r
  | Decimal.D9 r => x39 :: decimal r
  end.
(** [{}] of a usize, error.rs 26. *)
Definition show_dec (n : N) : str := decimal (N.to_uint n).
(** Upper case hexadecimal digits, as [{:X}] prints (error.rs 9, 18, 22). *)
Fixpoint hexadecimal (u : Hexadecimal.uint) : str :=
  match u with
  | Hexadecimal.Nil => []
  | Hexadecimal.D0 r => x30 :: hexadecimal r | Hexadecimal.D1 r => x31 :: hexadecimal r
  | Hexadecimal.D2 r => x32 :: hexadecimal r | Hexadecimal.D3 r => x33 :: hexadecimal r
  | Hexadecimal.D4 r => x34 :: hexadecimal r | Hexadecimal.D5 r => x35 :: hexadecimal r
  | Hexadecimal.D6 r => x36 :: hexadecimal r | Hexadecimal.D7 r => x37 :: hexadecimal r
  | Hexadecimal.D8 r => x38 :: hexadecimal r | Hexadecimal.D9 r => x39 :: hexadecimal r
  | Hexadecimal.Da r => x41 :: hexadecimal r | Hexadecimal.Db r => x42 :: hexadecimal r
  | Hexadecimal.Dc r => x43 :: hexadecimal r | Hexadecimal.Dd r => x44 :: hexadecimal r
  | Hexadecimal.De r => x45 :: hexadecimal r | Hexadecimal.Df r => x46 :: hexadecimal r
  end.
(** [{:X}] of a number, error.rs 9, 18. *)
Definition show_hex (n : N) : str := hexadecimal (N.to_hex_uint n).
(** [{:X?}] of an array of bytes, error.rs 22: "[54, 44, 53, 6D]". *)
Fixpoint show_list (l : list byte) : str :=
  match l with
  | [] => []
  | [b] => show_hex (Byte.to_N b)
  | b :: r => show_hex (Byte.to_N b) ++ [x2c; x20] ++ show_list r
  end.
(** The brackets around it, error.rs 22. *)
Definition show_bytes (l : list byte) : str := [x5b] ++ show_list l ++ [x5d].

(** [Display for TdmsError] (derived by thiserror), error.rs 7-75.
    [DataBlockNotFound] is only made with the path of channel "MIXED" in
    group "MIXED" (channel_reader.rs 162-170). *)
Definition message (x : terr) : str :=
  match x with
  | EMissingObject p => lit "Group or Channel not found in index. " ++ p
  | EIo _ => lit "IO Error"
  | EStringFormat => lit "String formatting error"
  | EUnknownPropertyType c => lit "Unknown Property Type: " ++ show_hex c
  | EUnsupportedType t => lit "Unsupported Property Type: " ++ dtype_debug t
  | EHeaderPattern b => lit "Attempted to read header where no header exists. Bytes: " ++ show_bytes b
  | EDataBlockNotFound _ =>
      lit "Tried to access a datablock that doesn't exist when reading channel: "
      ++ path_display (path_channel (lit "MIXED") (lit "MIXED"))
  | EBadDataBlockLength a b =>
      lit "The data block has length " ++ show_dec a
      ++ lit " which is not divisible by the number of channels: " ++ show_dec b
  | EDataTypeMismatch a b =>
      lit "Attempting to read a channel or property of type " ++ dtype_display a
      ++ lit " as type " ++ dtype_display b
  | EEndOfFile => lit "Attempted to read past the end of the file"
  | ESegmentAddressOverflow =>
      lit "The start address for the next segment is invalid. The address overflowed. The file is likely corrupt."
  | ESegmentTocDataBlockWithoutDataChannels =>
      lit "The segment ToC expects a data block but no data channels are present. The file is likely corrupt."
  | EInvalidObjectPath p => lit "Attempted to parse an invalid object path. " ++ p
  | EInvalidChannelPath p => lit "Attempted to parse an valid but unsuitable path to a channel. " ++ p
  | ENoChannels => lit "Data blocks must have at least 1 channel"
  | EVecAllocationFailed => lit "Memory allocation error for vector. This is likely to be due to file corruption."
  | EStringAllocationFailed => lit "Memory allocation error for string. This is likely to be due to file corruption."
  | EPropertyTableAllocationFailed =>
      lit "Memory allocation error for property table. This is likely to be due to file corruption."
  | EZeroLengthDataBlock => lit "A data block has a lenght of zero. The file is likely to be corrupted."
  | ENoActiveChannelsInDataBlock => lit "A data block has no active channels. The file is likely to be corrupted."
  | ENoPreviousType =>
      lit "The data block wants to use the same data type as previous, but no previous type is available."
  | EInvalidRawOffset =>
      lit "The raw data offset is greater than the next segment offset which is an invalid condition. The file is likely corrupt"
  | EChunkSizeOverflow =>
      lit "The calculated size for a data chunk is grater than 2^64 bytes. This isn't allowed and probably indicates a corrupt file."
  | EDaqmxChannelsNotSupported => lit "DAQmx Channels are not supported yet"
  end.

(** [TryFrom<PropertyValue>] and [TryFrom<&PropertyValue>] for
    [DateTime<Utc>], properties.rs 273-295 (feature "chrono").  [D] stands for
    [DateTime<Utc>], [X] for the error of labview-interop, and [conv] for the
    conversion of that crate, which is not modelled. *)
Definition date_try_into {D X} (conv : N -> D + X) (p : pval) : terr + (D + X) :=
  match pval_try_into STime p with
  | Some (Ok v) => inr (conv v)
  | Some (Err x) => inl x
  | _ => inl EEndOfFile (* unreachable: there is an impl for LVTime, and it does not panic *)
  end.
(** [From<DateTime<Utc>> for PropertyValue], properties.rs 297-301. *)
Definition date_into {D} (back : D -> N) (d : D) : pval := PTimestamp (back d).
