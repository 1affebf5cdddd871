(** * Specification of object paths.
      Stated on strings, without the parsing functions of the library. *)
From Verif Require Import Base.

(** Name without the separator. *)
Definition noslash (s : str) : Prop := ~ In x2f s.
(** Name without the quote character. *)
Definition noquote (s : str) : Prop := ~ In x27 s.

(** [/'g'] and [/'g'/'c'], the names taken literally. *)
Definition raw_group (g : str) : str := x2f :: x27 :: g ++ [x27].
Definition raw_channel (g c : str) : str := raw_group g ++ raw_group c.

(** [b] is [a] with every single quote replaced by a double quote. *)
Definition escaped (a b : str) : Prop :=
  Forall2 (fun x y => (x = x27 /\ y = x22) \/ (x <> x27 /\ y = x)) a b.

(** Paths in which, after nothing, a group or a group and a channel, a part
    consists of one quote only. *)
Definition lone_quote (s : str) : Prop :=
  exists pre r,
    (pre = [] \/ (exists g, noslash g /\ pre = raw_group g)
     \/ exists g c, noslash g /\ noslash c /\ pre = raw_channel g c)
    /\ (s = pre ++ [x2f; x27] \/ s = pre ++ [x2f; x27; x2f] ++ r).

(** The group name of a well-formed path. *)
Definition group_of (s g : str) : Prop :=
  noslash g /\ (s = raw_group g \/ exists c, noslash c /\ s = raw_channel g c).

(** Well-formed paths whose names contain no quote: the form in which the
    library writes objects. *)
Definition canonical (s : str) : Prop :=
  s = [x2f]
  \/ (exists g, noslash g /\ noquote g /\ s = raw_group g)
  \/ exists g c, noslash g /\ noquote g /\ noslash c /\ noquote c /\ s = raw_channel g c.
