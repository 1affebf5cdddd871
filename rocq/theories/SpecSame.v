(** * Specification of programs that say the same.
      What two lists of write calls tell about each object, whatever the order and
      the number of the calls, their byte order and layout. *)
From Verif Require Import Base DataTypes MetaData DataBlock Index TdmsFile SpecCodec SpecIndex SpecRead SpecWrite.

(** They name the same objects, last give the same values to all properties, and
    give the same values to every channel. *)
Definition same_told (ty : str -> sty) (cs1 cs2 : list call) : Prop :=
  (forall p, Exists (names p) cs1 <-> Exists (names p) cs2)
  /\ (forall p n, fold_left (prop_call p n) cs1 None = fold_left (prop_call p n) cs2 None)
  /\ (forall p vss1 vss2, Forall2 (gives (ty p) p) cs1 vss1 -> Forall2 (gives (ty p) p) cs2 vss2 ->
        concat vss1 = concat vss2).

(** No object is named by both calls. *)
Definition unrelated (c d : call) : Prop := forall p, ~ (names p c /\ names p d).

(** The same call in another byte order. *)
Inductive reordered : call -> call -> Prop :=
| reordered_props e e' path kvs : reordered (CallProps e path kvs) (CallProps e' path kvs)
| reordered_chans e e' t chans vs lay : reordered (CallChans e t chans vs lay) (CallChans e' t chans vs lay).
