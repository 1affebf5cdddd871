(** * Specification: blocks whose reads divide by zero *)
From Verif Require Import Base Lib DataTypes MetaData DataBlock Index TdmsFile SpecIndex SpecSession SpecRead.

(** A contiguous block whose first channel has no values in a chunk.  (A notion
    of the statement; the division concerned is
    contigious_multi_channel_read.rs 65 and 122.) *)
Definition starts_empty (b : dblock) : Prop :=
  b_layout b = Contigious /\ exists m ms, b_chans b = m :: ms /\ rm_n m = 0.

(** The blocks that hold samples of channel [p] after the segments [H].  (A
    notion of the statement.) *)
Definition holds (H : list segment) (p : str) (b : dblock) : Prop :=
  exists l, In l (locs_after H p) /\ 0 < l_n l /\ nth_error (blocks_after H) (l_block l) = Some b.

(** Samples in the locations [ls].  (A notion of the statement.) *)
Definition samples_of (ls : list loc) : N := fold_right (fun l a => l_n l + a) 0 ls.
