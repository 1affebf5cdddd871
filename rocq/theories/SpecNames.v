(** * Names with slashes *)
From Verif Require Import Base SpecPaths.

(** A slash at the start or at the end of the name. *)
Definition outer (n : str) : Prop := exists r, n = x2f :: r \/ n = r ++ [x2f].
(** Slashes, but only between other characters. *)
Definition inner (n : str) : Prop := ~ noslash n /\ ~ outer n.

(** What asking for the [k]-th name of an object with the names [ns] gives: names
    with inner slashes are passed over, names with outer slashes panic. *)
Inductive asked : nat -> list str -> res (option str) -> Prop :=
| asked_none k : asked k [] (Ok None)
| asked_this n n' ns : noslash n -> escaped n n' -> asked 0 (n :: ns) (Ok (Some n'))
| asked_next k n ns r : noslash n -> asked k ns r -> asked (S k) (n :: ns) r
| asked_skip k n ns r : inner n -> asked k ns r -> asked k (n :: ns) r
| asked_panic k n ns : outer n -> asked k (n :: ns) (Panic PSlice).
