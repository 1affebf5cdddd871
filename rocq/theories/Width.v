(** * The same code where usize has fewer bits than u64.
      The other files take usize to be u64.  Here [W] is the number of values of
      usize, [2 ^ 32] on 32-bit machines, and every function in which a usize is
      computed from a u64 or usizes are added or multiplied is given again for
      any [W]; the functions they call that only convert u32 to usize, index
      slices or count values held in memory are used as they are.
      [as i64] on a usize keeps the value.  Simplification: the size of a Rust
      String, which a read as strings would use (records.rs 29), is left at that
      of 64-bit machines. *)
From Verif Require Import Base DataTypes MetaData DataBlock Index RawData ChannelReader TdmsFile.

Section Width.
Context (W : N).

(** [as usize] on a u64 (raw_data/mod.rs 183, records.rs 133): the low bits. *)
Definition to_usize (n : N) : N := n mod W.

(** Plain [+] on usize (the sums of records.rs 107 and 125). *)
Definition wadd (E : env) (a b : N) : res N :=
  if a + b <? W then Ok (a + b)
  else if overflow_checks E then Panic POverflow else Ok ((a + b) mod W).
(** Plain [*] on usize, records.rs 121-123. *)
Definition wmul (E : env) (a b : N) : res N :=
  if a * b <? W then Ok (a * b)
  else if overflow_checks E then Panic POverflow else Ok ((a * b) mod W).
(** [Iterator::sum] over usize, records.rs 107. *)
Fixpoint wsum_from (E : env) (acc : N) (l : list N) : res N :=
  match l with
  | [] => Ok acc
  | x :: r => acc' <- wadd E acc x ;; wsum_from E acc' r
  end.

(** ** Opening and writing *)

(** [DataBlock::number_of_chunks], raw_data/mod.rs 178-187: the quotient of
    line 183 is a u64 made a usize. *)
Definition w_number_of_chunks (b : dblock) : res N :=
  s <- chunk_size b ;;
  Ok (match s with
      | CFixed n => if n =? 0 then 0 else to_usize (b_len b / n)
      | CVar _ => 1
      end).

(** [Index::insert_data_block], building.rs 119-142 ([chunks as u64], 130). *)
Definition w_insert_data_block (ix : index) (b : dblock) : index * res unit :=
  match w_number_of_chunks b with
  | Ok chunks =>
    let '(objs, r) := insert_locs (ix_objs ix) (length (ix_blocks ix)) chunks 0
                                  (ix_active ix) in
    (mkIx (ix_active ix) objs (ix_blocks ix ++ [b]) (ix_next ix), r)
  | f => (ix, recast f)
  end.

(** The raw-data part of [add_segment], building.rs 82-93. *)
Definition w_add_raw (E : env) (ix : index) (s : segment) : index * res unit :=
  match active_metas (ix_objs ix) (ix_active ix) with
  | Ok [] => (ix, Err ESegmentTocDataBlockWithoutDataChannels)
  | Ok ms =>
    match from_segment E s (ix_next ix) ms with
    | Ok b => w_insert_data_block ix b
    | f => (ix, recast f)
    end
  | f => (ix, recast f)
  end.

(** [Index::add_segment], building.rs 64-101. *)
Definition w_add_segment (E : env) (ix : index) (s : segment) : index * res N :=
  let ix0 := if toc_newlist (sg_toc s) then set_active ix [] else ix in
  match (match sg_meta s with Some objs => add_objects ix0 objs | None => (ix0, Ok tt) end) with
  | (ix1, Ok _) =>
    match (if toc_raw (sg_toc s) then w_add_raw E ix1 s else (ix1, Ok tt)) with
    | (ix2, Ok _) =>
      match total_size_bytes s with
      | Ok size =>
        match checked_add (ix_next ix2) size with
        | Some n => (set_next ix2 n, Ok n)
        | None => (ix2, Err ESegmentAddressOverflow)
        end
      | f => (ix2, recast f)
      end
    | (ix2, f) => (ix2, recast f)
    end
  | (ix1, f) => (ix1, recast f)
  end.

(** The loop of [build_index], file/mod.rs 61-74. *)
Fixpoint w_build_loop (E : env) (f : list byte) (fuel : nat) (ix : index) (pos : N)
  : res index :=
  match fuel with
  | O => Diverge
  | S fuel' =>
    match segment_read E f pos with
    | Ok s =>
      let '(ix', r) := w_add_segment E ix s in
      next <- r ;;
      match seek_to E next with
      | Ok p => w_build_loop E f fuel' ix' p
      | _ => Ok ix'
      end
    | Err EEndOfFile => Ok ix
    | Err x => Err x
    | Panic p => Panic p
    | Diverge => Diverge
    end
  end.

(** [TdmsFile::new], file/mod.rs 56-75 and 86-89. *)
Definition w_tdms_new (E : env) (f : list byte) : res tfile :=
  ix <- w_build_loop E f (S (length f)) index_new 0 ;; Ok (mkTF ix f).

(** [TdmsFileWriter::write_channels], file_writer.rs 39-48 with 107-164. *)
Definition w_write_channels (E : env) (e : endian) (t : sty) (F : tfile)
           (chans : list str) (vs : list (carrier t)) (lay : layout) : tfile * res unit :=
  match stream_segment e t (tf_ix F) chans vs lay with
  | Ok (bs, sg) =>
    let '(ix', r) := w_add_segment E (tf_ix F) sg in
    (mkTF ix' (tf_bytes F ++ bs), _n <- r ;; Ok tt)
  | q => (F, recast q)
  end.

(** [TdmsFileWriter::write_properties], file_writer.rs 68-94. *)
Definition w_write_properties (E : env) (e : endian) (F : tfile) (path : str)
           (props : list (str * pval)) : tfile * res unit :=
  let '(bs, sg) := write_segment e toc_default (Some [mkObj path props RINone]) None in
  let '(ix', r) := w_add_segment E (tf_ix F) sg in
  (mkTF ix' (tf_bytes F ++ bs), _n <- r ;; Ok tt).

(** ** Reading *)

(** [build_base_record], records.rs 129-138: [number_of_values as usize]. *)
Definition w_base_record {V} (chans : list rawmeta) : list (entry V) :=
  map (fun c => mkEntry (to_usize (rm_n c)) (PSkip (as_i64 (dtype_size (rm_type c))))) chans.

(** [build_record_plan], records.rs 56-66. *)
Definition w_build_record_plan {V} (t : sty) (chans : list rawmeta) (reqs : list req)
  : res (list (entry V)) :=
  _x <- validate t reqs chans ;; Ok (set_readable 0 reqs (w_base_record chans)).

(** [entry_size_bytes], records.rs 26-31: [*bytes as usize]. *)
Definition w_entry_size {V} (t : sty) (p : plan V) : N :=
  match p with PSkip b => to_usize (as_u64 b) | PRead _ _ _ _ => size_bytes t end.

(** [row_size], records.rs 100-108. *)
Definition w_row_size {V} (E : env) (t : sty) (es : list (entry V)) : res N :=
  wsum_from E 0 (map (fun x => w_entry_size t (en_plan x)) es).

(** [block_size], records.rs 115-126. *)
Fixpoint w_block_size_from {V} (E : env) (t : sty) (acc : N) (es : list (entry V)) : res N :=
  match es with
  | [] => Ok acc
  | x :: r =>
    v <- wmul E (w_entry_size t (en_plan x)) (en_len x) ;;
    acc' <- wadd E acc v ;;
    w_block_size_from E t acc' r
  end.
(** The whole sum, records.rs 115-126. *)
Definition w_block_size {V} (E : env) (t : sty) (es : list (entry V)) : res N :=
  w_block_size_from E t 0 es.

Section Read.
Context (E : env) (f : list byte) (t : sty) (e : endian).
Local Notation V := (carrier t).

(** The loop over sub-blocks, contigious_multi_channel_read.rs 71-101 and
    127-169. *)
Fixpoint w_contig_loop (step : N -> list (entry V) -> option (list (entry V)))
         (n : nat) (idx : N) (es : list (entry V)) (len pos : N)
  : list (entry V) * res N :=
  match n with
  | O => (es, Ok len)
  | S n' =>
    match step idx es with
    | None =>
      match (bs <- w_block_size E t es ;; seek_rel E pos (as_i64 bs)) with
      | Ok pos' => w_contig_loop step n' (idx + 1) es len pos'
      | q => (es, recast q)
      end
    | Some es1 =>
      match read_sub_block E f t e es1 0 pos with
      | (es2, Ok (l, pos')) => w_contig_loop step n' (idx + 1) es2 (len + l) pos'
      | (es2, q) => (es2, recast q)
      end
    end
  end.

(** [MultiChannelContiguousReader::read_from],
    contigious_multi_channel_read.rs 55-104. *)
Definition w_contig_read_from (start blen : N) (es : list (entry V)) (s : N)
  : list (entry V) * res N :=
  match (pos <- seek_to E start ;;
         bs <- w_block_size E t es ;;
         total <- udiv blen bs ;;
         match es with
         | [] => Panic PIndex
         | x :: _ => q <- udiv s (en_len x) ;; Ok (pos, total, q, s mod en_len x)
         end) with
  | Ok (pos, total, q, rm) =>
    w_contig_loop (fun idx es =>
                   if idx <? q then None
                   else if idx =? q then Some (set_all_skips rm es)
                   else Some (set_all_skips 0 es))
                (N.to_nat total) 0 es 0 pos
  | r => (es, recast r)
  end.

(** [MultiChannelContiguousReader::read_with_per_channel_skip],
    contigious_multi_channel_read.rs 109-172. *)
Definition w_contig_read_skips (start blen : N) (es : list (entry V)) (skips : list N)
  : list (entry V) * res N :=
  match (pos <- seek_to E start ;;
         bs <- w_block_size E t es ;;
         total <- udiv blen bs ;;
         match es with
         | [] => Panic PIndex
         | x :: _ => l <- div_skips (en_len x) skips ;; Ok (pos, total, l)
         end) with
  | Ok (pos, total, l) =>
    w_contig_loop (fun idx es =>
                   if forallb (fun p => fst p <=? idx) l
                   then Some (zip_skips (map (skip_for idx) l) es)
                   else None)
                (N.to_nat total) 0 es 0 pos
  | r => (es, recast r)
  end.

(** [MultiChannelInterleavedReader::read],
    interleaved_multi_channel_read.rs 44-96. *)
Definition w_inter_read (start blen : N) (es : list (entry V)) : list (entry V) * res N :=
  let mn := min_or_0 (block_skips es) in
  match (pos <- seek_to E start ;;
         rs <- w_row_size E t es ;;
         total <- udiv blen rs ;;
         if 0 <? mn then
           off <- imul E (as_i64 mn) (as_i64 rs) ;;
           pos' <- seek_rel E pos off ;; Ok (pos', total)
         else Ok (pos, total)) with
  | Ok (pos, total) =>
    let es' := map (fun x => match en_plan x with
                             | PRead o g r s => mkEntry (en_len x) (PRead o g r (s - mn))
                             | PSkip _ => x
                             end) es in
    inter_rows E f t e (N.to_nat (total - mn)) 0 es' 0 pos
  | r => (es, recast r)
  end.
End Read.

(** [DataBlock::read], raw_data/mod.rs 197-237. *)
Definition w_block_read (E : env) (f : list byte) (t : sty) (b : dblock) (reqs : list req)
  : list (list (carrier t)) * res N :=
  match w_build_record_plan t (b_chans b) reqs with
  | Ok es =>
    let '(es', r) :=
      match b_layout b with
      | Contigious => w_contig_read_from E f t (b_order b) (b_start b) (b_len b) es 0
      | Interleaved => w_inter_read E f t (b_order b) (b_start b) (b_len b) es
      end in
    (outputs reqs es', r)
  | r => (map (fun _ => []) reqs, recast r)
  end.

(** [DataBlock::read_with_per_channel_skip], raw_data/mod.rs 321-389. *)
Definition w_block_read_skips (E : env) (f : list byte) (t : sty) (b : dblock)
           (reqs : list req) : list (list (carrier t)) * res N :=
  let skips := map rq_skip reqs in
  match w_build_record_plan t (b_chans b) reqs with
  | Ok es =>
    let '(es', r) :=
      match b_layout b with
      | Contigious => w_contig_read_skips E f t (b_order b) (b_start b) (b_len b) es skips
      | Interleaved => w_inter_read E f t (b_order b) (b_start b) (b_len b) (zip_skips skips es)
      end in
    (outputs reqs es', r)
  | r => (map (fun _ => []) reqs, recast r)
  end.

(** The loop of [execute_read_plan], channel_reader.rs 155-197. *)
Fixpoint w_execute (E : env) (f : list byte) (t : sty) (ix : index)
         (plan : list blockread) (prs : list progress) (outs : list (list (carrier t)))
  : list (list (carrier t)) * res unit :=
  match plan with
  | [] => (outs, Ok tt)
  | br :: rest =>
    match get_data_block ix (br_block br) with
    | None => (outs, Err (EDataBlockNotFound (br_block br)))
    | Some b =>
      let reqs := block_requests (br_chans br) prs in
      let '(got, r) := if any_skip (br_chans br) then w_block_read_skips E f t b reqs
                       else w_block_read E f t b reqs in
      let outs' := store (br_chans br) prs outs got in
      match r with
      | Ok n =>
        let prs' := advance (br_chans br) n prs in
        if forallb complete prs' then (outs', Ok tt)
        else w_execute E f t ix rest prs' outs'
      | q => (outs', recast q)
      end
    end
  end.

(** [read_channels_from], channel_reader.rs 120-139 and 145-200. *)
Definition w_read_channels_from (E : env) (F : tfile) (t : sty) (chans : list str)
           (start : N) (outs : list (list (carrier t))) : list (list (carrier t)) * res unit :=
  match (locs <- lookup_positions (tf_ix F) chans ;;
         read_plan locs (repeat start (length chans))) with
  | Ok plan => w_execute E (tf_bytes F) t (tf_ix F) plan (map (fun o => mkPr 0 (lenN o)) outs) outs
  | q => (outs, recast q)
  end.

(** [read_channel_from], channel_reader.rs 79-92. *)
Definition w_read_channel_from (E : env) (F : tfile) (t : sty) (chan : str)
           (start : N) (out : list (carrier t)) : list (carrier t) * res unit :=
  match get_positions (tf_ix F) chan with
  | None => (out, Err (EMissingObject chan))
  | Some l =>
    match read_plan [l] [start] with
    | Ok plan =>
      let '(outs, r) := w_execute E (tf_bytes F) t (tf_ix F) plan [mkPr 0 (lenN out)] [out] in
      (hd out outs, r)
    | q => (out, recast q)
    end
  end.
End Width.
