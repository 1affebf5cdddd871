(** * Ordered maps keyed by strings: std::collections::BTreeMap<String, V> and
      BTreeSet<&str>, as used in src/index/mod.rs 59, 114 and
      src/file/mod.rs 130.  A map is its sorted list of entries. *)
From Verif Require Import Base.

Section Map.
Context {V : Type}.

(** The type of the maps of index/mod.rs 59 and 114. *)
Definition smap := list (str * V).

(** [BTreeMap::get], index/mod.rs 136-137, 151-155, 161-162, 170. *)
Fixpoint map_get (k : str) (m : smap) : option V :=
  match m with
  | [] => None
  | (k', v) :: r => if str_eqb k k' then Some v else map_get k r
  end.

(** [BTreeMap::insert], index/mod.rs 84 and building.rs 189. *)
Fixpoint map_insert (k : str) (v : V) (m : smap) : smap :=
  match m with
  | [] => [(k, v)]
  | (k', v') :: r =>
    match str_cmp k k' with
    | Lt => (k, v) :: m
    | Eq => (k, v) :: r
    | Gt => (k', v') :: map_insert k v r
    end
  end.

(** Mutation through [BTreeMap::get_mut], building.rs 52, 185. *)
Fixpoint map_alter (k : str) (f : V -> V) (m : smap) : smap :=
  match m with
  | [] => []
  | (k', v) :: r => if str_eqb k k' then (k', f v) :: r else (k', v) :: map_alter k f r
  end.

(** [BTreeMap::keys], querying.rs 19. *)
Definition map_keys (m : smap) : list str := map fst m.

(** [BTreeMap::range((Included(k), Unbounded))], querying.rs 30-34: the entries
    with key >= k. *)
Definition map_range_from (k : str) (m : smap) : smap :=
  filter (fun e => match str_cmp k (fst e) with Gt => false | _ => true end) m.

End Map.
Arguments smap V : clear implicits.

(** [BTreeSet::insert], file/mod.rs 133-138. *)
Fixpoint set_insert (k : str) (s : list str) : list str :=
  match s with
  | [] => [k]
  | k' :: r =>
    match str_cmp k k' with
    | Lt => k :: s
    | Eq => s
    | Gt => k' :: set_insert k r
    end
  end.

(** [Iterator::take_while], querying.rs 36. *)
Fixpoint take_while {A} (p : A -> bool) (l : list A) : list A :=
  match l with
  | [] => []
  | x :: r => if p x then x :: take_while p r else []
  end.
