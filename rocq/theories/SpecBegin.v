(** * Specification of the beginnings of a file *)
From Verif Require Import Base MetaData SpecIndex SpecGrammar.

(** The lead-in and metadata of the segment at [pos] end at [e]. *)
Definition head_ends (E : env) (f : list byte) (pos e : N) : Prop :=
  exists s pre bs rest, f = pre ++ bs ++ rest /\ lenN pre = pos /\ segment_bytes E s bs /\ e = pos + lenN bs.
(** The first [k] bytes contain the lead-in and metadata of segment [j] of [H]. *)
Definition head_within (E : env) (f : list byte) (H : list segment) (k : nat) (j : nat) : Prop :=
  exists e, head_ends E f (offset (firstn j H)) e /\ e <= N.of_nat k.
