(** * How many paths are compared when segments are added to the index *)
From Verif Require Import Base DataTypes MetaData DataBlock Index SpecIndex.

(** Going through [l] for [p], up to the place where it is found. *)
Fixpoint looked (p : str) (l : list str) : N :=
  match l with
  | [] => 0
  | q :: r => if str_eqb q p then 1 else 1 + looked p r
  end.

(** [add_objects] with the number of comparisons of [find] (building.rs 155-158)
    in each call of [update_or_activate]. *)
Fixpoint add_objects_counted (ix : index) (objs : list objmeta) : (index * res unit) * N :=
  match objs with
  | [] => (ix, Ok tt, 0)
  | o :: r =>
    let c := match om_idx o with RINone => 0 | _ => looked (om_path o) (map a_path (ix_active ix)) end in
    match (match om_idx o with
           | RINone => update_meta_object ix o
           | _ => update_or_activate ix o
           end) with
    | (ix1, Ok _) => let '(q, n) := add_objects_counted ix1 r in (q, c + n)
    | (ix1, f) => (ix1, f, c)
    end
  end.

(** The same from the segments alone. *)
Fixpoint objs_compared (act : list str) (os : list objmeta) : N :=
  match os with
  | [] => 0
  | o :: r => (match om_idx o with RINone => 0 | _ => looked (om_path o) act end) + objs_compared (act_obj act o) r
  end.
Fixpoint compared_from (act : list str) (H : list segment) : N :=
  match H with
  | [] => 0
  | s :: r => objs_compared (if toc_newlist (sg_toc s) then [] else act) (seg_objs s) + compared_from (act_seg act s) r
  end.
(** Comparisons made by adding all the segments of [H] to an empty index. *)
Definition compared (H : list segment) : N := compared_from [] H.
