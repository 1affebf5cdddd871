(** * What becomes of a segment, from the segments before it.
      Independent of the index: conditions on the history, in the order in
      which they are reported. *)
From Verif Require Import Base DataTypes MetaData DataBlock Index SpecIndex.

(** Some object says "same format as before" though none was given before. *)
Fixpoint unfounded (before os : list objmeta) : bool :=
  match os with
  | [] => false
  | o :: r =>
    match om_idx o, last_format before (om_path o) with
    | RIMatch, None => true
    | _, _ => unfounded (before ++ [o]) r
    end
  end.

(** The outcome of the first condition that holds. *)
Fixpoint first_of {A} (rules : list (bool * A)) (otherwise : A) : A :=
  match rules with
  | [] => otherwise
  | (c, x) :: r => if c then x else first_of r otherwise
  end.

(** Outcome of adding segment [s] after the segments [H]: the address of the
    next segment, or the first defect.  [checks]: is arithmetic checked? *)
Definition verdict (checks : bool) (H : list segment) (s : segment) : res N :=
  let raw := toc_raw (sg_toc s) in
  let chunk := chunk_bytes (active_formats (H ++ [s])) in
  let chunks := whole_chunks (block_of H s) in
  first_of
    [ (unfounded (all_objs H) (seg_objs s), Err ENoPreviousType);
      (raw && (lenN (active_after (H ++ [s])) =? 0), Err ESegmentTocDataBlockWithoutDataChannels);
      (raw && (sg_next s <? sg_raw s), Err EInvalidRawOffset);
      (raw && (sg_next s =? sg_raw s), Err EZeroLengthDataBlock);
      (raw && checks && (2 ^ 64 <=? offset H + 28 + sg_raw s), Panic POverflow);
      (raw && (2 ^ 64 <=? chunk), Err EChunkSizeOverflow);
      (raw && existsb (fun m => 2 ^ 64 <=? rm_n m * chunks) (active_formats (H ++ [s])), Err EChunkSizeOverflow);
      (2 ^ 64 <=? offset H + 28 + sg_next s, Err ESegmentAddressOverflow) ]
    (Ok (offset H + 28 + sg_next s)).

(** [H] is a list of segments that follow one another from the start of [f],
    each acceptable after those before it. *)
Definition good_start (E : env) (f : list byte) (H : list segment) : Prop :=
  forall i s, nth_error H i = Some s ->
    segment_read E f (offset (firstn i H)) = Ok s /\ offset (firstn i H) <= seek_max E
    /\ exists n, verdict (overflow_checks E) (firstn i H) s = Ok n.
