(** * Blocks whose data are not whole chunks.
      How many samples of a channel a read takes from a block. *)
From Verif Require Import Base DataTypes MetaData DataBlock Index SpecIndex SpecRead SpecUneven.

(** Whole rows in the data of an interleaved block. *)
Definition rows (b : dblock) : N := b_len b / row_bytes (b_chans b).
(** Samples of channel number [i] that are read from [b]: all whole rows if
    interleaved, else those of the whole chunks. *)
Definition extent (b : dblock) (i : nat) : N :=
  match b_layout b, nth_error (b_chans b) i with
  | Interleaved, Some _ => rows b
  | Contigious, Some m => rm_n m * whole_chunks b
  | _, None => 0
  end.

(** Values of known sizes, and all that is read present in the file.  In an
    interleaved block there is a row for every sample that the index counts, as
    there is when the numbers of values are equal. *)
Definition ragged_block (f : list byte) (b : dblock) (m : rawmeta) : Prop :=
  match b_layout b with
  | Interleaved =>
    Forall (fun m => 0 < width (rm_type m)) (b_chans b) /\ rm_n m * whole_chunks b <= rows b
    /\ b_start b + rows b * row_bytes (b_chans b) <= lenN f
  | Contigious => loose_block f b
  end.
Definition raggedly_stored (f : list byte) (t : sty) (H : list segment) (path : str) : Prop :=
  Forall (fun l => 0 < l_n l -> exists b m, nth_error (blocks_after H) (l_block l) = Some b /\ ragged_block f b m
                     /\ nth_error (b_chans b) (l_chan l) = Some m /\ In (rm_type m) (stored_as t))
         (locs_after H path).

(** What a read of the locations [ls] from sample [s] on takes. *)
Definition obtained (f : list byte) (t : sty) (bs : list dblock) (ls : list loc) (s : N) : list (carrier t) :=
  concat (map (fun x => let '(j, i, s) := x in
     match nth_error bs j with
     | Some b => skipn (N.to_nat (passed_over b i s)) (block_samples f t b i (extent b i))
     | None => []
     end) (needed ls s)).
