(** * How much the index holds *)
From Verif Require Import Base DataBlock Index SpecCost.

(** The formats the index keeps: every data block has its own copy of the formats
    of all channels that are active in it (raw_data/mod.rs 146-151). *)
Definition formats_held (ix : index) : N := total_of (fun b => lenN (b_chans b)) (ix_blocks ix).
