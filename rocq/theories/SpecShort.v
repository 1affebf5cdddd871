(** * Specification: a read of a file that has lost its end
    What channel_reader.rs 85-200 does on two files of which one is the beginning of the other. *)
From Verif Require Import Base DataTypes DataBlock Index ChannelReader.

(** The buffer [o] holds the new values up to some place and the old ones from there on:
    [old] is the buffer before a step and [new] the buffer after it. *)
Definition partly {A} (old new o : list A) : Prop :=
  length o = length old /\ length new = length old
  /\ exists k, firstn k o = firstn k new /\ skipn k o = skipn k old.

(** The same for every buffer. *)
Definition all_partly {A} (old new os : list (list A)) : Prop :=
  length os = length old /\ length new = length old
  /\ forall i o, nth_error os i = Some o ->
       exists a b, nth_error old i = Some a /\ nth_error new i = Some b /\ partly a b o.

(** What the buffers hold after the first [k] block reads of a read of [chans] from [start]
    (the loop of channel_reader.rs 155-197 over the plan of 126-137 cut after [k] entries). *)
Definition after_blocks (E : env) (f : list byte) (t : sty) (ix : index) (chans : list str) (start : N)
    (outs : list (list (carrier t))) (k : nat) : list (list (carrier t)) :=
  match (locs <- lookup_positions ix chans ;; read_plan locs (repeat start (length chans))) with
  | Ok plan => fst (execute_read_plan E f t ix (firstn k plan) outs)
  | _ => outs
  end.
