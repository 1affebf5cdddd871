(** * Specification of files whose channels are listed as they should be. *)
From Verif Require Import Base Paths DataTypes MetaData Maps Maps_proofs Index TdmsFile SpecIndex SpecPaths.

(** The channels of group [g] are listed: each one once, in ascending order, and
    nothing else. *)
Definition lists_group (F : tfile) (H : list segment) (g : str) : Prop :=
  exists l, list_channels_in_group F (path_group g) = Ok l /\ sorted l
    /\ forall x, In x l <-> exists c, noslash c /\ x = path_channel g c /\ mentioned (all_objs H) x.

(** No object behind the path of a group has a part that is one quote, and no
    channel has a quote in its names. *)
Definition listable (H : list segment) : Prop :=
  (forall g r, noslash g -> noquote g -> mentioned (all_objs H) (raw_group g ++ r) -> ~ lone_quote (raw_group g ++ r))
  /\ (forall g c, noslash g -> noslash c -> mentioned (all_objs H) (raw_channel g c) -> noquote g /\ noquote c).
