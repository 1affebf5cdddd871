(** * Writing through a buffered stream that may fail: src/io/writer.rs 83-117,
      src/file/file_writer.rs, src/file/mod.rs 179-188.

    TdmsFile.v appends the bytes of a segment at once.  Here they go, in the
    pieces in which the code emits them, through std's [BufWriter] to a device
    that may accept any part of what it is offered, or fail. *)
From Verif Require Import Base DataTypes MetaData DataBlock Index RawData ChannelReader TdmsFile.

(** ** The device: what [BufWriter] was given in io/writer.rs 86-88 *)

(** The bytes stored so far, and how many times it was asked to write. *)
Record dev := mkDev { dv_bytes : list byte; dv_calls : nat }.

(** What the device does.  [dv_takes n len]: how many of the [len] bytes offered
    in its [n]-th call of [Write::write] it accepts; [None] is an error
    ([ErrorKind::Interrupted], on which std retries, does not occur).
    [dv_flushes n]: does [Write::flush] succeed after [n] calls. *)
Record device := mkDevice { dv_takes : nat -> N -> option N; dv_flushes : nat -> bool }.

Section Device.
Context (D : device).

(** [Write::write] of the device (std), called for io/writer.rs 89-98. *)
Definition dev_write (d : dev) (bs : list byte) : dev * option N :=
  match dv_takes D (dv_calls d) (lenN bs) with
  | None => (mkDev (dv_bytes d) (S (dv_calls d)), None)
  | Some k =>
    let k := N.min k (lenN bs) in
    (mkDev (dv_bytes d ++ firstn (N.to_nat k) bs) (S (dv_calls d)), Some k)
  end.

(** The loop of [Write::write_all] and of [BufWriter::flush_buf] (std, called
    for io/writer.rs 89-98): offer what is left until all is taken; accepting
    nothing is an error ([WriteZero]).  Returns what was not taken, [[]] on
    success.  Every round takes at least one byte, so the length is enough
    fuel. *)
Fixpoint dev_push (fuel : nat) (d : dev) (bs : list byte) : dev * list byte :=
  match bs, fuel with
  | [], _ => (d, [])
  | _, O => (d, bs)
  | _, S fuel' =>
    match dev_write d bs with
    | (d', Some k) => if k =? 0 then (d', bs) else dev_push fuel' d' (skipn (N.to_nat k) bs)
    | (d', None) => (d', bs)
    end
  end.

(** [BufWriter], io/writer.rs 83 and 101: the device and the buffered bytes. *)
Record bufw := mkBufw { bw_dev : dev; bw_buf : list byte }.

Context (cap : N).   (* capacity of the buffer; 8192 in today's std *)

(** [BufWriter::flush_buf] (std): the bytes taken leave the buffer also on
    failure. *)
Definition bw_flush_buf (w : bufw) : bufw * bool :=
  let '(d, rest) := dev_push (length (bw_buf w)) (bw_dev w) (bw_buf w) in
  (mkBufw d rest, match rest with [] => true | _ => false end).

(** [BufWriter::write_all] (std), called by every [write_le]/[write_be], e.g.
    native_numerics.rs 29. *)
Definition bw_write_all (w : bufw) (bs : list byte) : bufw * bool :=
  let spare := cap - lenN (bw_buf w) in
  if lenN bs <? spare then (mkBufw (bw_dev w) (bw_buf w ++ bs), true)
  else
    match (if spare <? lenN bs then bw_flush_buf w else (w, true)) with
    | (w1, true) =>
      if cap <=? lenN bs then
        let '(d, rest) := dev_push (length bs) (bw_dev w1) bs in
        (mkBufw d (bw_buf w1), match rest with [] => true | _ => false end)
      else (mkBufw (bw_dev w1) (bw_buf w1 ++ bs), true)
    | (w1, false) => (w1, false)
    end.

(** A sequence of [write_all] calls, stopped by the first error ([?]),
    e.g. io/writer.rs 53-70. *)
Fixpoint bw_emit (w : bufw) (chunks : list (list byte)) : bufw * bool :=
  match chunks with
  | [] => (w, true)
  | c :: r =>
    match bw_write_all w c with
    | (w1, true) => bw_emit w1 r
    | (w1, false) => (w1, false)
    end
  end.

(** [TdmsWriter::sync], io/writer.rs 95-98 and 113-116: [BufWriter::flush]. *)
Definition bw_sync (w : bufw) : bufw * bool :=
  match bw_flush_buf w with
  | (w1, true) => (w1, dv_flushes D (dv_calls (bw_dev w1)))
  | (w1, false) => (w1, false)
  end.

(** Dropping the writer (std's [Drop for BufWriter]; the end of the borrow of
    file/mod.rs 179-188): flushes, and ignores any error. *)
Definition bw_drop (w : bufw) : dev := bw_dev (fst (bw_flush_buf w)).

End Device.

(** ** The pieces in which the code emits a segment *)

(** [write_le]/[write_be]: a string is two calls of [write_all] (strings.rs
    42-52), a complex number two (complex.rs 44-53), everything else one
    (native_numerics.rs 28-35, bool.rs 25-33, extended.rs 50-60,
    timestamp.rs 26-34). *)
Definition enc_chunks (e : endian) (t : sty) : carrier t -> list (list byte) :=
  match t return carrier t -> list (list byte) with
  | SStr => fun s => [uint_bytes e 4 (lenN s mod two32); s]
  | SC32 => fun c => [enc_uint e 4 (fst c); enc_uint e 4 (snd c)]
  | SC64 => fun c => [enc_uint e 8 (fst c); enc_uint e 8 (snd c)]
  | t => fun v => [enc e t v]
  end.

(** The value part of [PropertyValue::write], properties.rs 107-149. *)
Definition pval_chunks (e : endian) (p : pval) : list (list byte) :=
  match p with
  | PVoid => []
  | PBoolean v => enc_chunks e SBool v
  | PI8 v => enc_chunks e SI8 v | PI16 v => enc_chunks e SI16 v
  | PI32 v => enc_chunks e SI32 v | PI64 v => enc_chunks e SI64 v
  | PU8 v => enc_chunks e SU8 v | PU16 v => enc_chunks e SU16 v
  | PU32 v => enc_chunks e SU32 v | PU64 v => enc_chunks e SU64 v
  | PSingle v => enc_chunks e SF32 v | PDouble v => enc_chunks e SF64 v
  | PExtended v => enc_chunks e SExt v
  | PString v => enc_chunks e SStr v
  | PComplexSingle v => enc_chunks e SC32 v
  | PComplexDouble v => enc_chunks e SC64 v
  | PTimestamp v => enc_chunks e STime v
  end.

(** [RawDataIndex::write], meta_data.rs 301-315. *)
Definition rawidx_chunks (e : endian) (x : rawidx) : list (list byte) :=
  match x with
  | RINone => [enc_uint e 4 4294967295]
  | RIMatch => [enc_uint e 4 0]
  | RIRaw m => [enc_uint e 4 20; write_dtype e (rm_type m); enc_uint e 4 1;
                enc_uint e 8 (rm_n m)]
  end.

(** One property, meta_data.rs 250-253 with properties.rs 61-69. *)
Definition prop_chunks (e : endian) (p : str * pval) : list (list byte) :=
  enc_chunks e SStr (fst p) ++ [write_dtype e (pval_dtype (snd p))] ++ pval_chunks e (snd p).

(** [ObjectMetaData::write], meta_data.rs 245-255. *)
Definition obj_chunks (e : endian) (o : objmeta) : list (list byte) :=
  enc_chunks e SStr (om_path o) ++ rawidx_chunks e (om_idx o)
  ++ [enc_uint e 4 (lenN (om_props o) mod two32)]
  ++ concat (map (prop_chunks e) (om_props o)).

(** [MetaData::write], meta_data.rs 126-134. *)
Definition metadata_chunks (e : endian) (m : list objmeta) : list (list byte) :=
  [enc_uint e 4 (lenN m mod two32)] ++ concat (map (obj_chunks e) m).

(** [TdmsWriter::write_segment], io/writer.rs 53-70: the tag and the ToC byte by
    byte (meta_data.rs 100-106), the numbers of the lead-in, the metadata, the
    values. [t] and the offsets are those of the segment returned. *)
Definition segment_chunks (e : endian) (sg : segment) (data : list (list byte))
  : list (list byte) :=
  map (fun b => [b]) TDSm ++ map (fun b => [b]) (write_toc (sg_toc sg))
  ++ [enc_uint e 4 4713; enc_uint e 8 (sg_next sg); enc_uint e 8 (sg_raw sg)]
  ++ (match sg_meta sg with Some m => metadata_chunks e m | None => [] end)
  ++ data.

(** ** Calls on a writer *)

(** The state of a file being written: the index and the writer borrowing the
    stream (fields of [TdmsFileWriter], file_writer.rs 12-16). *)
Record wstate := mkWS { ws_ix : index; ws_w : bufw }.

Section Calls.
Context (E : env) (D : device) (cap : N).

(** [write_segment] then [add_segment] ([end_stream], file_writer.rs 152-164,
    and 89-93): an error of the stream returns before the index is updated. *)
Definition emit_segment (s : wstate) (chunks : list (list byte)) (sg : segment)
  : wstate * res unit :=
  match bw_emit D cap (ws_w s) chunks with
  | (w, true) =>
    let '(ix, r) := add_segment E (ws_ix s) sg in (mkWS ix w, _n <- r ;; Ok tt)
  | (w, false) => (mkWS (ws_ix s) w, Err (EIo DeviceError))
  end.

(** [TdmsFileWriter::write_channels], file_writer.rs 39-48. *)
Definition write_channels_io (e : endian) (t : sty) (s : wstate) (chans : list str)
           (vs : list (carrier t)) (lay : layout) : wstate * res unit :=
  match stream_segment e t (ws_ix s) chans vs lay with
  | Ok (_, sg) =>
    emit_segment s (segment_chunks e sg (concat (map (enc_chunks e t) vs))) sg
  | q => (s, recast q)
  end.

(** [TdmsFileWriter::write_properties], file_writer.rs 68-94. *)
Definition write_properties_io (e : endian) (s : wstate) (path : str)
           (props : list (str * pval)) : wstate * res unit :=
  let sg := snd (write_segment e toc_default (Some [mkObj path props RINone]) None) in
  emit_segment s (segment_chunks e sg []) sg.

(** [TdmsFileWriter::sync], file_writer.rs 97-99. *)
Definition sync_io (s : wstate) : wstate * res unit :=
  let '(w, ok) := bw_sync D (ws_w s) in
  (mkWS (ws_ix s) w, if ok then Ok tt else Err (EIo DeviceError)).

(** Dropping the writer and asking for a new one, file/mod.rs 179-188: the new
    one starts at the end of the stream with an empty buffer. *)
Definition new_writer_io (s : wstate) : wstate :=
  mkWS (ws_ix s) (mkBufw (bw_drop D (ws_w s)) []).

End Calls.
