(** * Specification of what a build and a stream can change *)
From Verif Require Import Base.

(** [E'] allows everything [E] allows: it panics on overflow only if [E] does,
    allocates all that [E] allocates and seeks as far. *)
Definition allows (E E' : env) : Prop :=
  (overflow_checks E = false -> overflow_checks E' = false)
  /\ (forall k n, alloc_ok E k n = true -> alloc_ok E' k n = true)
  /\ seek_max E <= seek_max E'.

(** The outcomes by which a limit that differs between [E] and [E'] shows. *)
Inductive at_limit (E E' : env) {A} : res A -> Prop :=
| overflowed : overflow_checks E = true -> overflow_checks E' = false -> at_limit E E' (Panic POverflow)
| unseekable : seek_max E < seek_max E' -> at_limit E E' (Err (EIo InvalidSeek))
| no_string n : alloc_ok E AString n = false -> alloc_ok E' AString n = true -> at_limit E E' (Err EStringAllocationFailed)
| no_objects n : alloc_ok E AObjects n = false -> alloc_ok E' AObjects n = true -> at_limit E E' (Err EVecAllocationFailed)
| no_props n : alloc_ok E AProps n = false -> alloc_ok E' AProps n = true -> at_limit E E' (Err EPropertyTableAllocationFailed).

(** The same outcome, unless a limit was met; with what was stored or changed. *)
Definition same_unless (E E' : env) {A} (r r' : res A) : Prop := at_limit E E' r \/ r' = r.
Definition same_with (E E' : env) {A B} (x x' : A * res B) : Prop := at_limit E E' (snd x) \/ x' = x.
