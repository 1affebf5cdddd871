(** * Reading through a buffered stream that may fail: src/io/reader.rs,
      src/meta_data.rs 176-203, src/file/mod.rs 56-89,
      src/file/channel_reader.rs, src/raw_data/*_read.rs.

    The other files read from a list of bytes at a position.  Here the reading
    functions are programs that issue the operations the code issues on its
    stream and on std's [BufReader], and a device answers them: it may return
    fewer bytes than asked for, or fail. *)
From Verif Require Import Base Utf8 DataTypes MetaData DataBlock Index RawData ChannelReader TdmsFile.

(** ** Operations on the stream *)

(** - [RawSeek p]: [seek(SeekFrom::Start(p))] on the file, file/mod.rs 60, 66;
    - [RawRead n]: [read_exact] on the file, meta_data.rs 178, 195;
    - [NewBuf]: [BufReader::new] on the file, io/reader.rs 69, 85 (the previous
      [BufReader], if any, is gone: it is a temporary at meta_data.rs 199-200
      and raw_data/mod.rs 204-236, 281-311, 355-388);
    - [BufSeek p]: [seek(SeekFrom::Start(p))] on it, io/reader.rs 33;
    - [BufRel d]: [seek_relative(d)] on it, io/reader.rs 39;
    - [BufRead n]: [read_exact] on it, native_numerics.rs 20, 25, bool.rs 16,
      extended.rs 38, 45, strings.rs 22, timestamp.rs 16, 22. *)
Inductive rop :=
| RawSeek (p : N) | RawRead (n : N)
| NewBuf | BufSeek (p : N) | BufRel (d : Z) | BufRead (n : N).

(** A computation that issues operations and continues with their results (the
    bytes read; nothing for the other operations).  The functions of
    io/reader.rs 10-91 and their callers are of this form. *)
Inductive prog (A : Type) :=
| Ret (a : A)
| Do (o : rop) (k : res (list byte) -> prog A).
Arguments Ret {A} a.
Arguments Do {A} o k.

(** Sequencing, e.g. [self.reader.to_file_position(..)] followed by the rest of
    the function, contigious_multi_channel_read.rs 60-62. *)
Fixpoint pbind {A B} (p : prog A) (q : A -> prog B) : prog B :=
  match p with
  | Ret a => q a
  | Do o k => Do o (fun x => pbind (k x) q)
  end.
(** Sequencing with the [?] operator, e.g. io/reader.rs 45. *)
Definition rbind {A B} (p : prog (res A)) (q : A -> prog (res B)) : prog (res B) :=
  pbind p (fun x => match x with
                    | Ok a => q a
                    | Err e => Ret (Err e)
                    | Panic y => Ret (Panic y)
                    | Diverge => Ret Diverge
                    end).
(** [let x = m?; k], e.g. io/reader.rs 45. *)
Notation "x <~ m ;; k" := (rbind m (fun x => k))
  (at level 61, m at next level, right associativity).

(** ** The library's reading functions as programs *)

(** [read_exact] on the [BufReader], native_numerics.rs 20. *)
Definition ask (n : N) : prog (res (list byte)) := Do (BufRead n) (fun x => Ret x).

Section Programs.
Context (E : env).

(** native_numerics.rs 18-27. *)
Definition dec_uint_p (e : endian) (w : nat) : prog (res N) :=
  b <~ ask (N.of_nat w) ;; Ret (Ok (uint_val e b)).
(** native_numerics.rs 18-27 for signed types. *)
Definition dec_sint_p (e : endian) (w : nat) : prog (res Z) :=
  n <~ dec_uint_p e w ;; Ret (Ok (to_signed w n)).
(** bool.rs 14-23. *)
Definition dec_bool_p : prog (res bool) :=
  b <~ ask 1 ;; Ret (Ok (negb (le_val b =? 0))).
(** extended.rs 36-48. *)
Definition dec_ext_p (e : endian) : prog (res N) :=
  b <~ ask 10 ;;
  Ret (Ok (match e with
           | LittleE => le_val (b ++ repeat x00 6)
           | BigE => le_val (rev (repeat x00 6 ++ b))
           end)).
(** strings.rs 8-25, 32-40. *)
Definition dec_str_p (e : endian) : prog (res str) :=
  len <~ dec_uint_p e 4 ;;
  if alloc_ok E AString len then
    b <~ ask len ;;
    Ret (if utf8_valid b then Ok b else Err EStringFormat)
  else Ret (Err EStringAllocationFailed).
(** complex.rs 34-43. *)
Definition dec_complex_p (e : endian) (w : nat) : prog (res (N * N)) :=
  re <~ dec_uint_p e w ;;
  im <~ dec_uint_p e w ;;
  Ret (Ok (re, im)).
(** [read_value] of each element type, io/reader.rs 64-66 and 80-82. *)
Definition dec_p (e : endian) (t : sty) : prog (res (carrier t)) :=
  match t return prog (res (carrier t)) with
  | SI8 => dec_sint_p e 1 | SI16 => dec_sint_p e 2
  | SI32 => dec_sint_p e 4 | SI64 => dec_sint_p e 8
  | SU8 => dec_uint_p e 1 | SU16 => dec_uint_p e 2
  | SU32 => dec_uint_p e 4 | SU64 => dec_uint_p e 8
  | SF32 => dec_uint_p e 4 | SF64 => dec_uint_p e 8
  | SBool => dec_bool_p
  | SExt => dec_ext_p e
  | SStr => dec_str_p e
  | SC32 => dec_complex_p e 4
  | SC64 => dec_complex_p e 8
  | STime => dec_uint_p e 16
  end.

(** [DataType::read], meta_data.rs 30-35. *)
Definition read_dtype_p (e : endian) : prog (res dtype) :=
  c <~ dec_uint_p e 4 ;;
  Ret (match dtype_of_code c with Some t => Ok t | None => Err (EUnknownPropertyType c) end).

(** [Ok(PropertyValue::X(reader.read_value()?))], properties.rs 77-102. *)
Definition read_as_p {A} (p : prog (res A)) (c : A -> pval) : prog (res pval) :=
  v <~ p ;; Ret (Ok (c v)).

(** [PropertyValue::read], properties.rs 72-105. *)
Definition read_pval_p (e : endian) : prog (res pval) :=
  t <~ read_dtype_p e ;;
  match t with
  | Void => Ret (Ok PVoid)
  | Boolean => read_as_p (dec_p e SBool) PBoolean
  | I8 => read_as_p (dec_p e SI8) PI8
  | I16 => read_as_p (dec_p e SI16) PI16
  | I32 => read_as_p (dec_p e SI32) PI32
  | I64 => read_as_p (dec_p e SI64) PI64
  | U8 => read_as_p (dec_p e SU8) PU8
  | U16 => read_as_p (dec_p e SU16) PU16
  | U32 => read_as_p (dec_p e SU32) PU32
  | U64 => read_as_p (dec_p e SU64) PU64
  | SingleFloat | SingleFloatWithUnit => read_as_p (dec_p e SF32) PSingle
  | DoubleFloat | DoubleFloatWithUnit => read_as_p (dec_p e SF64) PDouble
  | ExtendedFloat | ExtendedFloatWithUnit => read_as_p (dec_p e SExt) PExtended
  | ComplexSingleFloat => read_as_p (dec_p e SC32) PComplexSingle
  | ComplexDoubleFloat => read_as_p (dec_p e SC64) PComplexDouble
  | TdmsString => read_as_p (dec_p e SStr) PString
  | Timestamp => read_as_p (dec_p e STime) PTimestamp
  | FixedPoint | DAQmxRawData => Ret (Err (EUnsupportedType t))
  end.

(** [RawDataIndex::read], meta_data.rs 277-299. *)
Definition read_rawidx_p (e : endian) : prog (res rawidx) :=
  i <~ dec_uint_p e 4 ;;
  if i =? 0 then Ret (Ok RIMatch)
  else if i =? 4294967295 (* 0xFFFF_FFFF *) then Ret (Ok RINone)
  else if (1762787328 <=? i) && (i <=? 1762852863) (* 0x69120000..=0x6912FFFF *)
  then Ret (Err EDaqmxChannelsNotSupported)
  else if (1762852864 <=? i) && (i <=? 1762918399) (* 0x69130000..=0x6913FFFF *)
  then Ret (Err EDaqmxChannelsNotSupported)
  else
    t <~ read_dtype_p e ;;
    _d <~ dec_uint_p e 4 ;;
    n <~ dec_uint_p e 8 ;;
    Ret (Ok (RIRaw (mkRaw t n None))).

(** The property loop of [ObjectMetaData::read], meta_data.rs 232-236. *)
Fixpoint read_props_p (e : endian) (count : nat) : prog (res (list (str * pval))) :=
  match count with
  | O => Ret (Ok [])
  | S count' =>
    name <~ dec_p e SStr ;;
    v <~ read_pval_p e ;;
    rest <~ read_props_p e count' ;;
    Ret (Ok ((name, v) :: rest))
  end.

(** [ObjectMetaData::read], meta_data.rs 217-243. *)
Definition read_obj_p (e : endian) : prog (res objmeta) :=
  path <~ dec_p e SStr ;;
  idx <~ read_rawidx_p e ;;
  count <~ dec_uint_p e 4 ;;
  if alloc_ok E AProps count then
    props <~ read_props_p e (N.to_nat count) ;;
    Ret (Ok (mkObj path props idx))
  else Ret (Err EPropertyTableAllocationFailed).

(** The loop of [TdmsReader::read_vec], io/reader.rs 23-25. *)
Fixpoint read_objs_p (e : endian) (count : nat) : prog (res (list objmeta)) :=
  match count with
  | O => Ret (Ok [])
  | S count' =>
    o <~ read_obj_p e ;;
    rest <~ read_objs_p e count' ;;
    Ret (Ok (o :: rest))
  end.

(** [MetaData::read], meta_data.rs 120-124, with io/reader.rs 16-22. *)
Definition read_metadata_p (e : endian) : prog (res (list objmeta)) :=
  count <~ dec_uint_p e 4 ;;
  if alloc_ok E AObjects count then read_objs_p e (N.to_nat count)
  else Ret (Err EVecAllocationFailed).

(** [TdmsReader::read_segment], io/reader.rs 44-58. *)
Definition read_segment_p (t : toc) : prog (res segment) :=
  let e := toc_endian t in
  _v <~ dec_uint_p e 4 ;;
  next <~ dec_uint_p e 8 ;;
  raw <~ dec_uint_p e 8 ;;
  m <~ read_metadata_p e ;;
  Ret (Ok (mkSeg t next raw (Some m))).

(** [Segment::read], meta_data.rs 176-203. *)
Definition segment_read_p : prog (res segment) :=
  Do (RawRead 4) (fun x =>
    match x with
    | Ok tag =>
      if str_eqb tag TDSm then
        Do (RawRead 4) (fun y =>
          match y with
          | Ok tocb => Do NewBuf (fun _ => read_segment_p (toc_of_u32 (le_val tocb)))
          | q => Ret (recast q)
          end)
      else Ret (Err (EHeaderPattern tag))
    | Err (EIo UnexpectedEof) => Ret (Err EEndOfFile)
    | q => Ret (recast q)
    end).

(** The loop of [build_index], file/mod.rs 61-74. *)
Fixpoint build_loop_p (fuel : nat) (ix : index) : prog (res index) :=
  match fuel with
  | O => Ret Diverge
  | S fuel' =>
    pbind segment_read_p (fun x =>
      match x with
      | Ok s =>
        let '(ix', r) := add_segment E ix s in
        match r with
        | Ok next => Do (RawSeek next) (fun y =>
                       match y with
                       | Ok _ => build_loop_p fuel' ix'
                       | _ => Ret (Ok ix')      (* is_err: break, 66-68 *)
                       end)
        | q => Ret (recast q)
        end
      | Err EEndOfFile => Ret (Ok ix)
      | q => Ret (recast q)
      end)
  end.

(** [build_index], file/mod.rs 56-75, and with it [TdmsFile::new], 86-89. *)
Definition build_index_p (fuel : nat) : prog (res index) :=
  Do (RawSeek 0) (fun x =>
    match x with
    | Ok _ => build_loop_p fuel index_new
    | q => Ret (recast q)
    end).

Section Blocks.
Context (t : sty) (e : endian).
Local Notation V := (carrier t).

(** [move_position], io/reader.rs 38-41. *)
Definition move_p (d : Z) : prog (res unit) :=
  Do (BufRel d) (fun x => Ret (_b <- x ;; Ok tt)).

(** The value loop of [read_sequential_samples],
    contigious_multi_channel_read.rs 233-236. *)
Fixpoint read_vals_p (n : nat) : prog (list V * res unit) :=
  match n with
  | O => Ret ([], Ok tt)
  | S n' =>
    pbind (dec_p e t) (fun x =>
      match x with
      | Ok v => pbind (read_vals_p n') (fun y => Ret (v :: fst y, snd y))
      | q => Ret ([], recast q)
      end)
  end.

(** [read_sequential_samples], contigious_multi_channel_read.rs 227-244. *)
Definition read_seq_p (room : nat) (samples : N) : prog (list V * res N) :=
  let k := N.min (N.of_nat room) samples in
  pbind (read_vals_p (N.to_nat k)) (fun y =>
    let '(vs, r) := y in
    match r with
    | Ok _ =>
      if 0 <? samples - k then
        match imul E (as_i64 (samples - k)) (as_i64 (size_bytes t)) with
        | Ok off => pbind (move_p off) (fun z => Ret (vs, _u <- z ;; Ok k))
        | q => Ret (vs, recast q)
        end
      else Ret (vs, Ok k)
    | q => Ret (vs, recast q)
    end).

(** One entry of [read_sub_block], contigious_multi_channel_read.rs 197-220. *)
Definition read_entry_p (x : entry V) : prog (entry V * res (option N)) :=
  match en_plan x with
  | PRead oid got room skip =>
    let sk := N.min skip (en_len x) in
    let samples := en_len x - sk in
    pbind (if 0 <? sk then
             match imul E (as_i64 sk) (as_i64 (size_bytes t)) with
             | Ok off => move_p off
             | q => Ret (recast q)
             end
           else Ret (Ok tt))
      (fun m =>
         match m with
         | Ok _ =>
           pbind (read_seq_p room samples) (fun y =>
             Ret (mkEntry (en_len x) (PRead oid (got ++ fst y) (room - length (fst y)) skip),
                  l <- snd y ;; Ok (Some l)))
         | q => Ret (x, recast q)
         end)
  | PSkip b =>
    match imul E b (as_i64 (en_len x)) with
    | Ok off => pbind (move_p off) (fun z => Ret (x, _u <- z ;; Ok None))
    | q => Ret (x, recast q)
    end
  end.

(** [read_sub_block], contigious_multi_channel_read.rs 191-224. *)
Fixpoint read_sub_block_p (es : list (entry V)) (len : N) : prog (list (entry V) * res N) :=
  match es with
  | [] => Ret ([], Ok len)
  | x :: r =>
    pbind (read_entry_p x) (fun y =>
      match y with
      | (x', Ok l) =>
        pbind (read_sub_block_p r (match l with Some l => l | None => len end)) (fun z =>
          Ret (x' :: fst z, snd z))
      | (x', q) => Ret (x' :: r, recast q)
      end)
  end.

(** The loop over sub-blocks, contigious_multi_channel_read.rs 71-101 and
    127-169 (as [contig_loop]). *)
Fixpoint contig_loop_p (step : N -> list (entry V) -> option (list (entry V)))
         (n : nat) (idx : N) (es : list (entry V)) (len : N)
  : prog (list (entry V) * res N) :=
  match n with
  | O => Ret (es, Ok len)
  | S n' =>
    match step idx es with
    | None =>
      match block_size E t es with
      | Ok bs =>
        pbind (move_p (as_i64 bs)) (fun x =>
          match x with
          | Ok _ => contig_loop_p step n' (idx + 1) es len
          | q => Ret (es, recast q)
          end)
      | q => Ret (es, recast q)
      end
    | Some es1 =>
      pbind (read_sub_block_p es1 0) (fun y =>
        match y with
        | (es2, Ok l) => contig_loop_p step n' (idx + 1) es2 (len + l)
        | (es2, q) => Ret (es2, recast q)
        end)
    end
  end.

(** [to_file_position] on a new reader, io/reader.rs 31-35 with 68-70: the first
    steps of contigious_multi_channel_read.rs 60, 114 and
    interleaved_multi_channel_read.rs 48. *)
Definition open_at_p (start : N) : prog (res unit) :=
  Do NewBuf (fun _ => Do (BufSeek start) (fun x => Ret (_b <- x ;; Ok tt))).

(** [MultiChannelContiguousReader::read_from],
    contigious_multi_channel_read.rs 55-104. *)
Definition contig_read_from_p (start blen : N) (es : list (entry V)) (s : N)
  : prog (list (entry V) * res N) :=
  pbind (open_at_p start) (fun x =>
    match (_u <- x ;;
           bs <- block_size E t es ;;
           total <- udiv blen bs ;;
           match es with
           | [] => Panic PIndex
           | x :: _ => q <- udiv s (en_len x) ;; Ok (total, q, s mod en_len x)
           end) with
    | Ok (total, q, rm) =>
      contig_loop_p (fun idx es =>
                       if idx <? q then None
                       else if idx =? q then Some (set_all_skips rm es)
                       else Some (set_all_skips 0 es))
                    (N.to_nat total) 0 es 0
    | r => Ret (es, recast r)
    end).

(** [MultiChannelContiguousReader::read_with_per_channel_skip],
    contigious_multi_channel_read.rs 109-172. *)
Definition contig_read_skips_p (start blen : N) (es : list (entry V)) (skips : list N)
  : prog (list (entry V) * res N) :=
  pbind (open_at_p start) (fun x =>
    match (_u <- x ;;
           bs <- block_size E t es ;;
           total <- udiv blen bs ;;
           match es with
           | [] => Panic PIndex
           | x :: _ => l <- div_skips (en_len x) skips ;; Ok (total, l)
           end) with
    | Ok (total, l) =>
      contig_loop_p (fun idx es =>
                       if forallb (fun p => fst p <=? idx) l
                       then Some (zip_skips (map (skip_for idx) l) es)
                       else None)
                    (N.to_nat total) 0 es 0
    | r => Ret (es, recast r)
    end).

(** One row, interleaved_multi_channel_read.rs 71-89. *)
Fixpoint inter_row_p (row : N) (es : list (entry V)) (any : bool)
  : prog (list (entry V) * res bool) :=
  match es with
  | [] => Ret ([], Ok any)
  | x :: r =>
    match en_plan x with
    | PRead oid got room skip =>
      pbind (dec_p e t) (fun y =>
        match y with
        | Ok v =>
          if skip <=? row then
            match room with
            | S room' =>
              pbind (inter_row_p row r true) (fun z =>
                Ret (mkEntry (en_len x) (PRead oid (got ++ [v]) room' skip) :: fst z, snd z))
            | O => pbind (inter_row_p row r any) (fun z => Ret (x :: fst z, snd z))
            end
          else pbind (inter_row_p row r any) (fun z => Ret (x :: fst z, snd z))
        | q => Ret (es, recast q)
        end)
    | PSkip b =>
      pbind (move_p b) (fun y =>
        match y with
        | Ok _ => pbind (inter_row_p row r any) (fun z => Ret (x :: fst z, snd z))
        | q => Ret (es, recast q)
        end)
    end
  end.

(** The row loop, interleaved_multi_channel_read.rs 69-93. *)
Fixpoint inter_rows_p (n : nat) (row : N) (es : list (entry V)) (read : N)
  : prog (list (entry V) * res N) :=
  match n with
  | O => Ret (es, Ok read)
  | S n' =>
    pbind (inter_row_p row es false) (fun y =>
      match y with
      | (es', Ok true) => inter_rows_p n' (row + 1) es' (read + 1)
      | (es', Ok false) => Ret (es', Ok read)
      | (es', q) => Ret (es', recast q)
      end)
  end.

(** [MultiChannelInterleavedReader::read],
    interleaved_multi_channel_read.rs 44-96. *)
Definition inter_read_p (start blen : N) (es : list (entry V)) : prog (list (entry V) * res N) :=
  let mn := min_or_0 (block_skips es) in
  pbind (open_at_p start) (fun x =>
    match (_u <- x ;;
           rs <- row_size E t es ;;
           total <- udiv blen rs ;;
           if 0 <? mn then off <- imul E (as_i64 mn) (as_i64 rs) ;; Ok (Some off, total)
           else Ok (None, total)) with
    | Ok (off, total) =>
      pbind (match off with Some off => move_p off | None => Ret (Ok tt) end) (fun m =>
        match m with
        | Ok _ =>
          let es' := map (fun x => match en_plan x with
                                   | PRead o g r s => mkEntry (en_len x) (PRead o g r (s - mn))
                                   | PSkip _ => x
                                   end) es in
          inter_rows_p (N.to_nat (total - mn)) 0 es' 0
        | q => Ret (es, recast q)
        end)
    | r => Ret (es, recast r)
    end).
End Blocks.

(** [DataBlock::read], raw_data/mod.rs 197-237. *)
Definition block_read_p (t : sty) (b : dblock) (reqs : list req)
  : prog (list (list (carrier t)) * res N) :=
  match build_record_plan t (b_chans b) reqs with
  | Ok es =>
    pbind (match b_layout b with
           | Contigious => contig_read_from_p t (b_order b) (b_start b) (b_len b) es 0
           | Interleaved => inter_read_p t (b_order b) (b_start b) (b_len b) es
           end)
      (fun y => Ret (outputs reqs (fst y), snd y))
  | r => Ret (map (fun _ => []) reqs, recast r)
  end.

(** [DataBlock::read_with_per_channel_skip], raw_data/mod.rs 321-389. *)
Definition block_read_skips_p (t : sty) (b : dblock) (reqs : list req)
  : prog (list (list (carrier t)) * res N) :=
  let skips := map rq_skip reqs in
  match build_record_plan t (b_chans b) reqs with
  | Ok es =>
    pbind (match b_layout b with
           | Contigious => contig_read_skips_p t (b_order b) (b_start b) (b_len b) es skips
           | Interleaved => inter_read_p t (b_order b) (b_start b) (b_len b) (zip_skips skips es)
           end)
      (fun y => Ret (outputs reqs (fst y), snd y))
  | r => Ret (map (fun _ => []) reqs, recast r)
  end.

(** The loop of [execute_read_plan], channel_reader.rs 155-197. *)
Fixpoint execute_p (t : sty) (ix : index) (plan : list blockread) (prs : list progress)
         (outs : list (list (carrier t))) : prog (list (list (carrier t)) * res unit) :=
  match plan with
  | [] => Ret (outs, Ok tt)
  | br :: rest =>
    match get_data_block ix (br_block br) with
    | None => Ret (outs, Err (EDataBlockNotFound (br_block br)))
    | Some b =>
      let reqs := block_requests (br_chans br) prs in
      pbind (if any_skip (br_chans br) then block_read_skips_p t b reqs else block_read_p t b reqs)
        (fun y =>
           let '(got, r) := y in
           let outs' := store (br_chans br) prs outs got in
           match r with
           | Ok n =>
             let prs' := advance (br_chans br) n prs in
             if forallb complete prs' then Ret (outs', Ok tt)
             else execute_p t ix rest prs' outs'
           | q => Ret (outs', recast q)
           end)
    end
  end.

(** [execute_read_plan], channel_reader.rs 145-200. *)
Definition execute_read_plan_p (t : sty) (ix : index) (plan : list blockread)
           (outs : list (list (carrier t))) : prog (list (list (carrier t)) * res unit) :=
  execute_p t ix plan (map (fun o => mkPr 0 (lenN o)) outs) outs.

(** [read_channels_from], channel_reader.rs 120-139. *)
Definition read_channels_from_p (t : sty) (ix : index) (chans : list str) (start : N)
           (outs : list (list (carrier t))) : prog (list (list (carrier t)) * res unit) :=
  match (locs <- lookup_positions ix chans ;;
         read_plan locs (repeat start (length chans))) with
  | Ok plan => execute_read_plan_p t ix plan outs
  | q => Ret (outs, recast q)
  end.

(** [read_channel_from], channel_reader.rs 79-92. *)
Definition read_channel_from_p (t : sty) (ix : index) (chan : str) (start : N)
           (out : list (carrier t)) : prog (list (carrier t) * res unit) :=
  match get_positions ix chan with
  | None => Ret (out, Err (EMissingObject chan))
  | Some l =>
    match read_plan [l] [start] with
    | Ok plan => pbind (execute_read_plan_p t ix plan [out]) (fun y => Ret (hd out (fst y), snd y))
    | q => Ret (out, recast q)
    end
  end.
End Programs.

(** ** The device and [BufReader] *)

(** What the device does.  [rd_gives n len]: how many bytes, at least one, it
    returns in its [n]-th call when asked for [len] (fewer if the file ends);
    [None] is an error.  [rd_seeks n]: does a seek succeed in the [n]-th call.
    These are the [Read] and [Seek] of file/mod.rs 56
    ([ErrorKind::Interrupted], on which std retries, does not occur). *)
Record rdevice := mkRD { rd_gives : nat -> N -> option N; rd_seeks : nat -> bool }.

(** Position of the file, number of calls so far, and the buffer of the current
    [BufReader] with the number of bytes consumed (io/reader.rs 61, 77). *)
Record rstate := mkRS { rs_pos : N; rs_calls : nat; rs_buf : list byte; rs_at : N }.

Section Device.
Context (E : env) (D : rdevice) (cap : N) (f : list byte).

(** [Read::read] of the file, for the reads of meta_data.rs 178, 195 and of
    [BufReader]. *)
Definition dev_read (n : N) (s : rstate) : rstate * res (list byte) :=
  match rd_gives D (rs_calls s) n with
  | None => (mkRS (rs_pos s) (S (rs_calls s)) (rs_buf s) (rs_at s), Err (EIo DeviceError))
  | Some j =>
    let bs := firstn (N.to_nat (N.min n (N.max 1 j))) (dropN (rs_pos s) f) in
    (mkRS (rs_pos s + lenN bs) (S (rs_calls s)) (rs_buf s) (rs_at s), Ok bs)
  end.

(** [Seek::seek] of the file to an absolute position, given as a number that may
    be out of range; file/mod.rs 60, 66. *)
Definition dev_seek (p : Z) (s : rstate) : rstate * res (list byte) :=
  if rd_seeks D (rs_calls s) then
    if ((0 <=? p) && (p <=? Z.of_N (seek_max E)))%Z
    then (mkRS (Z.to_N p) (S (rs_calls s)) (rs_buf s) (rs_at s), Ok [])
    else (mkRS (rs_pos s) (S (rs_calls s)) (rs_buf s) (rs_at s), Err (EIo InvalidSeek))
  else (mkRS (rs_pos s) (S (rs_calls s)) (rs_buf s) (rs_at s), Err (EIo DeviceError)).

(** The loop of [default_read_exact] (std) over a given [read], for
    meta_data.rs 178 and native_numerics.rs 20.  Every round yields a byte or
    ends the loop, so the fuel (bytes of the file plus one) suffices. *)
Fixpoint exact_loop (read : N -> rstate -> rstate * res (list byte))
         (fuel : nat) (n : N) (acc : list byte) (s : rstate) : rstate * res (list byte) :=
  if n =? 0 then (s, Ok acc)
  else match fuel with
  | O => (s, Diverge)
  | S fuel' =>
    match read n s with
    | (s', Ok []) => (s', Err (EIo UnexpectedEof))
    | (s', Ok bs) => exact_loop read fuel' (n - lenN bs) (acc ++ bs) s'
    | (s', q) => (s', q)
    end
  end.

(** The unread part of the buffer of [BufReader] (std), io/reader.rs 61, 77. *)
Definition unread (s : rstate) : list byte := skipn (N.to_nat (rs_at s)) (rs_buf s).
(** [BufReader::discard_buffer] (std), in the seeks of io/reader.rs 33, 39. *)
Definition discard (s : rstate) : rstate := mkRS (rs_pos s) (rs_calls s) [] 0.
(** [BufReader::consume] (std), in the reads of native_numerics.rs 20. *)
Definition consume (n : N) (s : rstate) : rstate :=
  mkRS (rs_pos s) (rs_calls s) (rs_buf s) (rs_at s + n).

(** [BufReader::fill_buf] (std), in the reads of native_numerics.rs 20: reads
    only if the buffer is exhausted. *)
Definition fill_buf (s : rstate) : rstate * res unit :=
  match unread s with
  | [] =>
    match dev_read cap (discard s) with
    | (s', Ok bs) => (mkRS (rs_pos s') (rs_calls s') bs 0, Ok tt)
    | (s', q) => (s', recast q)
    end
  | _ => (s, Ok tt)
  end.

(** [BufReader::read] (std), in the reads of native_numerics.rs 20: large reads
    with an empty buffer go to the file directly. *)
Definition buf_read (n : N) (s : rstate) : rstate * res (list byte) :=
  if (lenN (unread s) =? 0) && (cap <=? n) then dev_read n (discard s)
  else
    match fill_buf s with
    | (s', Ok _) =>
      let bs := firstn (N.to_nat n) (unread s') in
      (consume (lenN bs) s', Ok bs)
    | (s', q) => (s', recast q)
    end.

(** [BufReader::read_exact] (std), native_numerics.rs 20. *)
Definition buf_exact (n : N) (s : rstate) : rstate * res (list byte) :=
  if n <=? lenN (unread s) then (consume n s, Ok (firstn (N.to_nat n) (unread s)))
  else exact_loop buf_read (S (length f)) n [] s.

(** [BufReader::seek(SeekFrom::Current(d))] (std), in io/reader.rs 39: the
    subtraction of the unread bytes may leave i64, then in two steps. *)
Definition buf_seek_current (d : Z) (s : rstate) : rstate * res (list byte) :=
  let rem := Z.of_N (lenN (unread s)) in
  if (- 2 ^ 63 <=? d - rem)%Z then
    match dev_seek (Z.of_N (rs_pos s) + (d - rem)) s with
    | (s', Ok x) => (discard s', Ok x)
    | (s', q) => (s', q)
    end
  else
    match dev_seek (Z.of_N (rs_pos s) - rem) s with
    | (s', Ok _) => dev_seek (Z.of_N (rs_pos s') + d) (discard s')
    | (s', q) => (s', q)
    end.

(** [BufReader::seek_relative] (std), io/reader.rs 39: stays in the buffer if it
    can. *)
Definition buf_rel (d : Z) (s : rstate) : rstate * res (list byte) :=
  let p := (Z.of_N (rs_at s) + d)%Z in
  if ((0 <=? p) && (p <=? Z.of_N (lenN (rs_buf s))))%Z
  then (mkRS (rs_pos s) (rs_calls s) (rs_buf s) (Z.to_N p), Ok [])
  else buf_seek_current d s.

(** One operation (file/mod.rs 60, 66; meta_data.rs 178, 195; io/reader.rs 33,
    39, 69; native_numerics.rs 20). *)
Definition dev_op (o : rop) (s : rstate) : rstate * res (list byte) :=
  match o with
  | RawSeek p => dev_seek (Z.of_N p) s
  | RawRead n => exact_loop dev_read (S (length f)) n [] s
  | NewBuf => (discard s, Ok [])
  | BufSeek p => match dev_seek (Z.of_N p) s with
                 | (s', Ok x) => (discard s', Ok x)
                 | (s', q) => (s', q)
                 end
  | BufRel d => buf_rel d s
  | BufRead n => buf_exact n s
  end.

(** Run a program (any of the above, e.g. file/mod.rs 56-75): the results of its
    operations and its own result. *)
Fixpoint run_prog {A} (p : prog A) (s : rstate) : rstate * list (res (list byte)) * A :=
  match p with
  | Ret a => (s, [], a)
  | Do o k =>
    let '(s1, x) := dev_op o s in
    let '(s2, xs, a) := run_prog (k x) s1 in
    (s2, x :: xs, a)
  end.
End Device.
