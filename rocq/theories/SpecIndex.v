(** * Specification of a file's contents from its history of segments.
      Independent of the index: everything is defined directly on the list of
      segments.  It follows the TDMS format description, except that an object
      whose raw data index says "no data" does not leave the list of active
      channels (the library keeps it, building.rs 74-79; see DESIGN.md). *)
From Verif Require Import Base DataTypes MetaData DataBlock Index.

(** The objects a segment mentions, in order. *)
Definition seg_objs (s : segment) : list objmeta :=
  match sg_meta s with Some os => os | None => [] end.
Definition all_objs (H : list segment) : list objmeta := flat_map seg_objs H.

(** Last format given to [path]: the last raw-data index that carries one. *)
Definition fmt_obj (path : str) (acc : option rawmeta) (o : objmeta) : option rawmeta :=
  if str_eqb path (om_path o)
  then match om_idx o with RIRaw m => Some m | _ => acc end
  else acc.
Definition last_format (os : list objmeta) (path : str) : option rawmeta :=
  fold_left (fmt_obj path) os None.

(** Last value given to property [name] of [path]. *)
Definition prop_step (name : str) (acc : option pval) (p : str * pval) : option pval :=
  if str_eqb name (fst p) then Some (snd p) else acc.
Definition prop_obj (path name : str) (acc : option pval) (o : objmeta) : option pval :=
  if str_eqb path (om_path o) then fold_left (prop_step name) (om_props o) acc else acc.
Definition last_prop (os : list objmeta) (path name : str) : option pval :=
  fold_left (prop_obj path name) os None.

Definition mentioned (os : list objmeta) (path : str) : Prop := In path (map om_path os).

(** The ordered list of channels with data after one object, one segment, a
    history. *)
Definition act_obj (l : list str) (o : objmeta) : list str :=
  match om_idx o with
  | RINone => l
  | _ => if existsb (str_eqb (om_path o)) l then l else l ++ [om_path o]
  end.
Definition act_seg (l : list str) (s : segment) : list str :=
  fold_left act_obj (seg_objs s) (if toc_newlist (sg_toc s) then [] else l).
Definition active_after (H : list segment) : list str := fold_left act_seg H [].

(** Address at which the segment after [H] starts. *)
Definition offset (H : list segment) : N := fold_left (fun a s => a + 28 + sg_next s) H 0.

(** The formats of the active channels after [H]. *)
Definition active_formats (H : list segment) : list rawmeta :=
  map (fun p => match last_format (all_objs H) p with Some m => m | None => mkRaw Void 0 None end)
      (active_after H).

(** The data block of segment [s] following [H]. *)
Definition block_of (H : list segment) (s : segment) : dblock :=
  mkBlock (offset H + 28 + sg_raw s) (sg_next s - sg_raw s)
          (if toc_inter (sg_toc s) then Interleaved else Contigious)
          (active_formats (H ++ [s]))
          (if toc_big (sg_toc s) then BigE else LittleE).

(** Histories are read oldest first; [pre] is what came before. *)
Fixpoint blocks_from (pre H : list segment) : list dblock :=
  match H with
  | [] => []
  | s :: r => (if toc_raw (sg_toc s) then [block_of pre s] else []) ++ blocks_from (pre ++ [s]) r
  end.
Definition blocks_after (H : list segment) : list dblock := blocks_from [] H.

(** Bytes of one chunk, and the number of whole chunks in a block. *)
Definition chunk_bytes (ms : list rawmeta) : N :=
  fold_right (fun m a => rm_n m * dtype_size (rm_type m) + a) 0 ms.
Definition whole_chunks (b : dblock) : N :=
  let c := chunk_bytes (b_chans b) in if c =? 0 then 0 else b_len b / c.

(** Samples of [path] in the data block [b] of a segment whose active channels
    are [act]. *)
Definition samples_in (path : str) (act : list str) (b : dblock) : N :=
  fold_right N.add 0
    (map (fun pm => if str_eqb path (fst pm) then rm_n (snd pm) * whole_chunks b else 0)
         (combine act (b_chans b))).

Fixpoint length_from (path : str) (pre H : list segment) : N :=
  match H with
  | [] => 0
  | s :: r => (if toc_raw (sg_toc s)
               then samples_in path (active_after (pre ++ [s])) (block_of pre s) else 0)
              + length_from path (pre ++ [s]) r
  end.
(** Number of samples of [path] in the whole history. *)
Definition length_after (H : list segment) (path : str) : N := length_from path [] H.

(** Segments the library can produce or read: formats carry no explicit size
    (meta_data.rs 293, write.rs 24). *)
Definition plain_obj (o : objmeta) : Prop :=
  match om_idx o with RIRaw m => rm_total m = None | _ => True end.
Definition plain (s : segment) : Prop := Forall plain_obj (seg_objs s).

(** A history of segments each accepted by [add_segment], from the empty index. *)
Inductive accepted (E : env) : list segment -> index -> Prop :=
| acc_nil : accepted E [] index_new
| acc_snoc H ix s ix' n :
    accepted E H ix -> add_segment E ix s = (ix', Ok n) -> accepted E (H ++ [s]) ix'.

(** [H] is the list of segments found in [f]: they follow one another from the
    start, at addresses the stream can seek to, and after the last there are
    fewer than four bytes, or its end is beyond what the stream can seek to. *)
Definition file_segments (E : env) (f : list byte) (H : list segment) : Prop :=
  (forall i s, nth_error H i = Some s ->
     segment_read E f (offset (firstn i H)) = Ok s /\ offset (firstn i H) <= seek_max E)
  /\ (lenN f < offset H + 4 \/ seek_max E < offset H).

(** Where the samples of [path] are: in data block [j], at position [i] of the
    active channels. *)
Fixpoint locs_in (path : str) (j i : nat) (c : N) (act : list str) (ms : list rawmeta) : list loc :=
  match act, ms with
  | p :: act', m :: ms' =>
    (if str_eqb path p then [mkLoc j i (rm_n m * c)] else []) ++ locs_in path j (S i) c act' ms'
  | _, _ => []
  end.
Fixpoint locs_from (path : str) (pre H : list segment) : list loc :=
  match H with
  | [] => []
  | s :: r => (if toc_raw (sg_toc s)
               then locs_in path (length (blocks_after pre)) 0 (whole_chunks (block_of pre s))
                            (active_after (pre ++ [s])) (b_chans (block_of pre s)) else [])
              ++ locs_from path (pre ++ [s]) r
  end.
Definition locs_after (H : list segment) (path : str) : list loc := locs_from path [] H.
