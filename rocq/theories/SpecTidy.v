(** * Files whose parts do not overlap *)
From Verif Require Import Base DataTypes MetaData SpecIndex.

(** Stretches of a file, from the first byte to behind the last. *)
Definition apart (x y : N * N) : Prop := snd x <= fst y \/ snd y <= fst x.

(** The lead-in and metadata of each segment and its raw data; the first starts at
    [o]. *)
Fixpoint parts_from (o : N) (H : list segment) : list (N * N) :=
  match H with
  | [] => []
  | s :: r =>
    (o, o + 28 + metadata_size (seg_objs s))
    :: (if toc_raw (sg_toc s) then [(o + 28 + sg_raw s, o + 28 + sg_next s)] else [])
    ++ parts_from (o + 28 + sg_next s) r
  end.
Definition parts (H : list segment) : list (N * N) := parts_from 0 H.

(** Raw data start behind the metadata, and so does a further segment. *)
Fixpoint tidy (H : list segment) : Prop :=
  match H with
  | [] => True
  | s :: r => (toc_raw (sg_toc s) = true -> metadata_size (seg_objs s) <= sg_raw s)
              /\ (r <> [] -> metadata_size (seg_objs s) <= sg_next s) /\ tidy r
  end.
