(** * Contiguous blocks with different numbers of values per channel.
      Where a read with a start position begins in such a block. *)
From Verif Require Import Base DataTypes MetaData DataBlock Index SpecIndex SpecRead.

(** Samples of channel number [i] of block [b] that a read passes over when it
    should pass over [s]: the code counts chunks and the rest with the number of
    values of the first channel of the block
    (contigious_multi_channel_read.rs 63-69, 118-127). *)
Definition passed_over (b : dblock) (i : nat) (s : N) : N :=
  match b_layout b, b_chans b, nth_error (b_chans b) i with
  | Contigious, m0 :: _, Some m => (s / rm_n m0) * rm_n m + N.min (s mod rm_n m0) (rm_n m)
  | _, _, _ => s
  end.

(** A contiguous block with any numbers of values, the first of them not zero,
    with [c] whole chunks in the file; or a block as in [whole_block]. *)
Definition loose_block (f : list byte) (b : dblock) : Prop :=
  match b_layout b with
  | Interleaved => whole_block f b
  | Contigious =>
    exists m0 ms c, b_chans b = m0 :: ms /\ 0 < rm_n m0 /\ 0 < c
      /\ Forall (fun m => 0 < width (rm_type m)) (b_chans b)
      /\ chunks b c /\ b_start b + c * sub_bytes (b_chans b) <= lenN f
  end.

Definition loosely_stored (f : list byte) (t : sty) (H : list segment) (path : str) : Prop :=
  Forall (fun l => exists b m, nth_error (blocks_after H) (l_block l) = Some b /\ loose_block f b
                     /\ nth_error (b_chans b) (l_chan l) = Some m /\ In (rm_type m) (stored_as t))
         (locs_after H path).

(** What a read of the locations [ls] from sample [s] on delivers. *)
Definition delivered (f : list byte) (t : sty) (bs : list dblock) (ls : list loc) (s : N) : list (carrier t) :=
  concat (map (fun x => let '(j, i, s) := x in
     match nth_error bs j with
     | Some b => match nth_error (b_chans b) i with
                 | Some m => skipn (N.to_nat (passed_over b i s)) (block_samples f t b i (rm_n m * whole_chunks b))
                 | None => []
                 end
     | None => []
     end) (needed ls s)).
