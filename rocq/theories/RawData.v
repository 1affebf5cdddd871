(** * Reading and writing raw data: src/raw_data/mod.rs 188-389, records.rs,
      contigious_multi_channel_read.rs, interleaved_multi_channel_read.rs,
      write.rs *)
From Verif Require Import Base DataTypes MetaData DataBlock.

Section Records.
Context {V : Type}.

(** [RecordEntryPlan], records.rs 13-23.  The output iterator of a [Read] entry
    is modelled by the number of slots left ([room]); the values stored through
    it so far are [got].  [oid] is the position of the request in the list of
    requested channels. *)
Inductive plan :=
| PSkip (bytes : Z)
| PRead (oid : nat) (got : list V) (room : nat) (skip : N).

(** [RecordEntry], records.rs 36-41. *)
Record entry := mkEntry { en_len : N; en_plan : plan }.

(** A requested channel of a block: index in the block, size of the output
    slice, samples to skip ([(usize, &mut [T])], raw_data/mod.rs 200, and
    [BlockReadChannelConfig], 98-102). *)
Record req := mkReq { rq_chan : nat; rq_room : nat; rq_skip : N }.

(** [build_base_record], records.rs 129-138. *)
Definition base_record (chans : list rawmeta) : list entry :=
  map (fun c => mkEntry (rm_n c) (PSkip (as_i64 (dtype_size (rm_type c))))) chans.

(** [validate_types_match], records.rs 154-167. *)
Fixpoint validate (t : sty) (reqs : list req) (chans : list rawmeta) : res unit :=
  match reqs with
  | [] => Ok tt
  | q :: r =>
    match nth_error chans (rq_chan q) with
    | None => Panic PIndex
    | Some c => if supports t (rm_type c) then validate t r chans
                else Err (EDataTypeMismatch (rm_type c) (natural t))
    end
  end.

(** Replace the plan of entry [i] (the assignment of records.rs 143). *)
Fixpoint set_plan (i : nat) (p : plan) (es : list entry) : list entry :=
  match es, i with
  | [], _ => []
  | x :: r, O => mkEntry (en_len x) p :: r
  | x :: r, S i' => x :: set_plan i' p r
  end.

(** [set_readable_records], records.rs 141-148.  Indexes were checked by
    [validate], which reads [channels[i]] for the same indexes. *)
Fixpoint set_readable (oid : nat) (reqs : list req) (es : list entry) : list entry :=
  match reqs with
  | [] => es
  | q :: r => set_readable (S oid) r (set_plan (rq_chan q) (PRead oid [] (rq_room q) 0) es)
  end.

(** [build_record_plan], records.rs 56-66 ([compress_reads] is empty). *)
Definition build_record_plan (t : sty) (chans : list rawmeta) (reqs : list req)
  : res (list entry) :=
  _x <- validate t reqs chans ;; Ok (set_readable 0 reqs (base_record chans)).

(** [entry_size_bytes], records.rs 26-31. *)
Definition entry_size (t : sty) (p : plan) : N :=
  match p with PSkip b => as_u64 b | PRead _ _ _ _ => size_bytes t end.

(** [row_size], records.rs 100-108. *)
Definition row_size (E : env) (t : sty) (es : list entry) : res N :=
  usum E (map (fun x => entry_size t (en_plan x)) es).

(** [block_size], records.rs 115-126: [map] is lazy, so each product is
    evaluated just before it is added. *)
Fixpoint block_size_from (E : env) (t : sty) (acc : N) (es : list entry) : res N :=
  match es with
  | [] => Ok acc
  | x :: r =>
    v <- umul E (entry_size t (en_plan x)) (en_len x) ;;
    acc' <- uadd E acc v ;;
    block_size_from E t acc' r
  end.
(** The whole sum, records.rs 115-126. *)
Definition block_size (E : env) (t : sty) (es : list entry) : res N :=
  block_size_from E t 0 es.

(** The assignment [block_skip = s] to every [Read] entry,
    contigious_multi_channel_read.rs 77-84, 87-95 and
    interleaved_multi_channel_read.rs 103-105. *)
Definition set_skip (s : N) (x : entry) : entry :=
  match en_plan x with
  | PRead o g r _ => mkEntry (en_len x) (PRead o g r s)
  | PSkip _ => x
  end.
(** The loops over all entries, same lines. *)
Definition set_all_skips (s : N) (es : list entry) : list entry := map (set_skip s) es.

(** [block_skips_mut().zip(skips)]: the [Read] entries in block order take the
    given values in order, raw_data/mod.rs 366-368 and 377-379, and
    contigious_multi_channel_read.rs 143-166. *)
Fixpoint zip_skips (skips : list N) (es : list entry) : list entry :=
  match es with
  | [] => []
  | x :: r =>
    match en_plan x with
    | PSkip _ => x :: zip_skips skips r
    | PRead _ _ _ _ =>
      match skips with
      | [] => es
      | s :: ss => set_skip s x :: zip_skips ss r
      end
    end
  end.

(** [block_skips], records.rs 74-82. *)
Definition block_skips (es : list entry) : list N :=
  concat (map (fun x => match en_plan x with PRead _ _ _ s => [s] | _ => [] end) es).

(** [Iterator::min().unwrap_or(0)], interleaved_multi_channel_read.rs 52. *)
Definition min_or_0 (l : list N) : N :=
  match l with
  | [] => 0
  | x :: r => fold_left N.min r x
  end.

(** What request [oid] received: the slots written through the output iterator
    of its entry (records.rs 17-22, 143-147). *)
Fixpoint harvest (oid : nat) (es : list entry) : list V :=
  match es with
  | [] => []
  | x :: r =>
    match en_plan x with
    | PRead o g _ _ => if Nat.eqb o oid then g else harvest oid r
    | PSkip _ => harvest oid r
    end
  end.

End Records.
Arguments plan V : clear implicits.
Arguments entry V : clear implicits.

Section Read.
Context (E : env) (f : list byte) (t : sty) (e : endian).
Local Notation V := (carrier t).

(** [TdmsReader::read_value] at an absolute position, io/reader.rs 64-66 and
    80-82: the value and the position after it. *)
Definition read_at (pos : N) : res (V * N) :=
  '(v, r) <- dec E e t (dropN pos f) ;;
  Ok (v, pos + (lenN (dropN pos f) - lenN r)).

(** The value loop of [read_sequential_samples],
    contigious_multi_channel_read.rs 233-236: values stored so far, and the
    position or the failure. *)
Fixpoint read_vals (n : nat) (pos : N) : list V * res N :=
  match n with
  | O => ([], Ok pos)
  | S n' =>
    match read_at pos with
    | Ok (v, pos') => let '(vs, r) := read_vals n' pos' in (v :: vs, r)
    | x => ([], recast x)
    end
  end.

(** [read_sequential_samples], contigious_multi_channel_read.rs 227-244. *)
Definition read_seq (room : nat) (samples pos : N) : list V * res (N * N) :=
  let k := N.min (N.of_nat room) samples in
  let '(vs, r) := read_vals (N.to_nat k) pos in
  (vs,
   pos1 <- r ;;
   let unread := samples - k in
   if 0 <? unread then
     off <- imul E (as_i64 unread) (as_i64 (size_bytes t)) ;;
     pos2 <- seek_rel E pos1 off ;;
     Ok (k, pos2)
   else Ok (k, pos1)).

(** One entry of [read_sub_block], contigious_multi_channel_read.rs 197-220.
    The number is [Some] length for a [Read] entry. *)
Definition read_entry (x : entry V) (pos : N) : entry V * res (option N * N) :=
  match en_plan x with
  | PRead oid got room skip =>
    let sk := N.min skip (en_len x) in
    let samples := en_len x - sk in
    match (if 0 <? sk then
             off <- imul E (as_i64 sk) (as_i64 (size_bytes t)) ;; seek_rel E pos off
           else Ok pos) with
    | Ok pos1 =>
      let '(vs, r) := read_seq room samples pos1 in
      (mkEntry (en_len x) (PRead oid (got ++ vs) (room - length vs) skip),
       '(l, pos2) <- r ;; Ok (Some l, pos2))
    | r => (x, recast r)
    end
  | PSkip b =>
    (x, off <- imul E b (as_i64 (en_len x)) ;;
        pos1 <- seek_rel E pos off ;;
        Ok (None, pos1))
  end.

(** [read_sub_block], contigious_multi_channel_read.rs 191-224. *)
Fixpoint read_sub_block (es : list (entry V)) (len pos : N)
  : list (entry V) * res (N * N) :=
  match es with
  | [] => ([], Ok (len, pos))
  | x :: r =>
    match read_entry x pos with
    | (x', Ok (l, pos')) =>
      let '(r', res) := read_sub_block r (match l with Some l => l | None => len end) pos' in
      (x' :: r', res)
    | (x', q) => (x' :: r, recast q)
    end
  end.

(** The loop over sub-blocks ([length] is a usize counter in the code; here it is
    unbounded, it counts values stored in memory) shared by [read_from]
    (contigious_multi_channel_read.rs 71-101) and [read_with_per_channel_skip]
    (127-169): [step] gives the entries with their skips set, or [None] to seek
    over the whole sub-block. *)
Fixpoint contig_loop (step : N -> list (entry V) -> option (list (entry V)))
         (n : nat) (idx : N) (es : list (entry V)) (len pos : N)
  : list (entry V) * res N :=
  match n with
  | O => (es, Ok len)
  | S n' =>
    match step idx es with
    | None =>
      match (bs <- block_size E t es ;; seek_rel E pos (as_i64 bs)) with
      | Ok pos' => contig_loop step n' (idx + 1) es len pos'
      | q => (es, recast q)
      end
    | Some es1 =>
      match read_sub_block es1 0 pos with
      | (es2, Ok (l, pos')) => contig_loop step n' (idx + 1) es2 (len + l) pos'
      | (es2, q) => (es2, recast q)
      end
    end
  end.

(** [u64 /], contigious_multi_channel_read.rs 62-67, 116-127 and
    interleaved_multi_channel_read.rs 49: panics on a zero divisor. *)
Definition udiv (a b : N) : res N := if b =? 0 then Panic PDivZero else Ok (a / b).

(** [MultiChannelContiguousReader::read_from],
    contigious_multi_channel_read.rs 55-104. *)
Definition contig_read_from (start blen : N) (es : list (entry V)) (s : N)
  : list (entry V) * res N :=
  match (pos <- seek_to E start ;;
         bs <- block_size E t es ;;
         total <- udiv blen bs ;;
         match es with
         | [] => Panic PIndex
         | x :: _ => q <- udiv s (en_len x) ;; Ok (pos, total, q, s mod en_len x)
         end) with
  | Ok (pos, total, q, rm) =>
    contig_loop (fun idx es =>
                   if idx <? q then None
                   else if idx =? q then Some (set_all_skips rm es)
                   else Some (set_all_skips 0 es))
                (N.to_nat total) 0 es 0 pos
  | r => (es, recast r)
  end.

(** The two [collect]s of contigious_multi_channel_read.rs 120-127; the division
    panics for a zero sub-block length only if there is a skip to divide. *)
Fixpoint div_skips (sbl : N) (skips : list N) : res (list (N * N)) :=
  match skips with
  | [] => Ok []
  | s :: r => q <- udiv s sbl ;; l <- div_skips sbl r ;; Ok ((q, s mod sbl) :: l)
  end.

(** [calculate_skip_for_this_block], contigious_multi_channel_read.rs 174-189. *)
Definition skip_for (idx : N) (p : N * N) : N := if idx =? fst p then snd p else 0.

(** [MultiChannelContiguousReader::read_with_per_channel_skip],
    contigious_multi_channel_read.rs 109-172. *)
Definition contig_read_skips (start blen : N) (es : list (entry V)) (skips : list N)
  : list (entry V) * res N :=
  match (pos <- seek_to E start ;;
         bs <- block_size E t es ;;
         total <- udiv blen bs ;;
         match es with
         | [] => Panic PIndex
         | x :: _ => l <- div_skips (en_len x) skips ;; Ok (pos, total, l)
         end) with
  | Ok (pos, total, l) =>
    contig_loop (fun idx es =>
                   if forallb (fun p => fst p <=? idx) l
                   then Some (zip_skips (map (skip_for idx) l) es)
                   else None)
                (N.to_nat total) 0 es 0 pos
  | r => (es, recast r)
  end.

(** One row of [MultiChannelInterleavedReader::read],
    interleaved_multi_channel_read.rs 71-89: new entries, and whether any value
    was stored, with the position. *)
Fixpoint inter_row (row : N) (es : list (entry V)) (any : bool) (pos : N)
  : list (entry V) * res (bool * N) :=
  match es with
  | [] => ([], Ok (any, pos))
  | x :: r =>
    match en_plan x with
    | PRead oid got room skip =>
      match read_at pos with
      | Ok (v, pos') =>
        if skip <=? row then
          match room with
          | S room' =>
            let '(r', q) := inter_row row r true pos' in
            (mkEntry (en_len x) (PRead oid (got ++ [v]) room' skip) :: r', q)
          | O => let '(r', q) := inter_row row r any pos' in (x :: r', q)
          end
        else let '(r', q) := inter_row row r any pos' in (x :: r', q)
      | q => (es, recast q)
      end
    | PSkip b =>
      match seek_rel E pos b with
      | Ok pos' => let '(r', q) := inter_row row r any pos' in (x :: r', q)
      | q => (es, recast q)
      end
    end
  end.

(** The row loop, interleaved_multi_channel_read.rs 69-93. *)
Fixpoint inter_rows (n : nat) (row : N) (es : list (entry V)) (read pos : N)
  : list (entry V) * res N :=
  match n with
  | O => (es, Ok read)
  | S n' =>
    match inter_row row es false pos with
    | (es', Ok (true, pos')) => inter_rows n' (row + 1) es' (read + 1) pos'
    | (es', Ok (false, _)) => (es', Ok read)
    | (es', q) => (es', recast q)
    end
  end.

(** [MultiChannelInterleavedReader::read],
    interleaved_multi_channel_read.rs 44-96. *)
Definition inter_read (start blen : N) (es : list (entry V)) : list (entry V) * res N :=
  let mn := min_or_0 (block_skips es) in
  match (pos <- seek_to E start ;;
         rs <- row_size E t es ;;
         total <- udiv blen rs ;;
         if 0 <? mn then
           off <- imul E (as_i64 mn) (as_i64 rs) ;;
           pos' <- seek_rel E pos off ;; Ok (pos', total)
         else Ok (pos, total)) with
  | Ok (pos, total) =>
    let es' := map (fun x => match en_plan x with
                             | PRead o g r s => mkEntry (en_len x) (PRead o g r (s - mn))
                             | PSkip _ => x
                             end) es in
    inter_rows (N.to_nat (total - mn)) 0 es' 0 pos
  | r => (es, recast r)
  end.
End Read.

(** Outputs of a block read: for every request the values stored, in order (the
    slices passed in at raw_data/mod.rs 200, 275, 324). *)
Definition outputs {V} (reqs : list req) (es : list (entry V)) : list (list V) :=
  map (fun i => harvest i es) (seq 0 (length reqs)).

(** [DataBlock::read], raw_data/mod.rs 197-237: what each request received, and
    the number of samples read or the failure. *)
Definition block_read (E : env) (f : list byte) (t : sty) (b : dblock) (reqs : list req)
  : list (list (carrier t)) * res N :=
  match build_record_plan t (b_chans b) reqs with
  | Ok es =>
    let '(es', r) :=
      match b_layout b with
      | Contigious => contig_read_from E f t (b_order b) (b_start b) (b_len b) es 0
      | Interleaved => inter_read E f t (b_order b) (b_start b) (b_len b) es
      end in
    (outputs reqs es', r)
  | r => (map (fun _ => []) reqs, recast r)
  end.

(** [DataBlock::read_from], raw_data/mod.rs 272-312 (and [read_single_from],
    258-266, for one request). *)
Definition block_read_from (E : env) (f : list byte) (t : sty) (b : dblock)
           (reqs : list req) (s : N) : list (list (carrier t)) * res N :=
  match build_record_plan t (b_chans b) reqs with
  | Ok es =>
    let '(es', r) :=
      match b_layout b with
      | Contigious => contig_read_from E f t (b_order b) (b_start b) (b_len b) es s
      | Interleaved => inter_read E f t (b_order b) (b_start b) (b_len b) (set_all_skips s es)
      end in
    (outputs reqs es', r)
  | r => (map (fun _ => []) reqs, recast r)
  end.

(** [DataBlock::read_with_per_channel_skip], raw_data/mod.rs 321-389. *)
Definition block_read_skips (E : env) (f : list byte) (t : sty) (b : dblock)
           (reqs : list req) : list (list (carrier t)) * res N :=
  let skips := map rq_skip reqs in
  match build_record_plan t (b_chans b) reqs with
  | Ok es =>
    let '(es', r) :=
      match b_layout b with
      | Contigious => contig_read_skips E f t (b_order b) (b_start b) (b_len b) es skips
      | Interleaved => inter_read E f t (b_order b) (b_start b) (b_len b) (zip_skips skips es)
      end in
    (outputs reqs es', r)
  | r => (map (fun _ => []) reqs, recast r)
  end.

(** ** Writing, raw_data/write.rs *)

(** [MultiChannelSlice] as a [WriteBlock], write.rs 19-38 and 76-82:
    [size_of_val] is the length times the in-memory size of the element. *)
Definition slice_block (e : endian) (t : sty) (vs : list (carrier t)) : wblock :=
  mkWB (lenN vs * size_bytes t) (concat (map (enc e t) vs)).

(** [MultiChannelSlice::data_structure], write.rs 57-74. *)
Definition slice_structure (t : sty) (vs : list (carrier t)) (chans : nat) : list rawmeta :=
  repeat (mkRaw (natural t) (lenN vs / N.of_nat chans) None) chans.
