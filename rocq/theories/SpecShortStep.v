(** * Specification: reads of several channels that stay in step
    The conditions under which a read of several channels (channel_reader.rs 120-200) gives what reads of
    the single channels give. *)
From Verif Require Import Base DataTypes MetaData DataBlock Index SpecIndex SpecSession SpecRead.

(** The channels are in the same blocks, with as many samples in each. *)
Definition same_places (H : list segment) (chans : list str) : Prop :=
  forall p q, In p chans -> In q chans ->
    map (fun l => (l_block l, l_n l)) (locs_after H p) = map (fun l => (l_block l, l_n l)) (locs_after H q).
(** All blocks with samples of the channels are interleaved. *)
Definition interleaved_only (H : list segment) (chans : list str) : Prop :=
  forall p l b, In p chans -> In l (locs_after H p) -> nth_error (blocks_after H) (l_block l) = Some b -> b_layout b = Interleaved.
(** Equal buffers for channels in the same places; or from the start, with room for all; or from interleaved blocks only. *)
Definition stay_in_step {V} (samples : str -> list V) (H : list segment) (chans : list str) (start : N) (outs : list (list V)) : Prop :=
  (same_places H chans /\ exists k, Forall (fun o => length o = k) outs)
  \/ (start = 0 /\ forall p o, In (p, o) (combine chans outs) -> (length (samples p) <= length o)%nat)
  \/ (interleaved_only H chans /\ (start = 0 \/ same_places H chans)).
