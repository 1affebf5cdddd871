(** * Specification: rows that a read of several channels goes through
    For reads from the start of channels in interleaved blocks (channel_reader.rs 120-200,
    interleaved_multi_channel_read.rs 44-96). *)
From Verif Require Import Base DataTypes MetaData DataBlock Index SpecIndex SpecRead SpecCutFile.

(** The number of samples of [p] in the blocks before block number [j] (channel_reader.rs 266-325). *)
Definition before (H : list segment) (p : str) (j : nat) : nat :=
  length (concat (map (loc_places (blocks_after H)) (filter (fun l => Nat.ltb (l_block l) j) (locs_after H p)))).
(** The largest room that a channel with samples in block [j] still has there; channels with the lengths of their buffers
    (channel_reader.rs 145-200, interleaved_multi_channel_read.rs 44-96). *)
Definition rows_wanted (H : list segment) (asked : list (str * nat)) (j : nat) : nat :=
  list_max (map (fun pn => if existsb (fun l => Nat.eqb (l_block l) j) (locs_after H (fst pn))
                           then (snd pn - before H (fst pn) j)%nat else 0%nat) asked).
