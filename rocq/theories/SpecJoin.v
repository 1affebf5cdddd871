(** * Two files one behind the other.
      What the joined bytes hold, stated on the segments of both. *)
From Verif Require Import Base DataTypes MetaData DataBlock Index SpecIndex SpecRead.

(** Every segment with data finds the same channel list behind [H] as it finds
    when [K] stands alone. *)
Definition lists_agree (H K : list segment) : Prop :=
  forall A s B, K = A ++ s :: B -> toc_raw (sg_toc s) = true ->
  active_after (H ++ A ++ [s]) = active_after (A ++ [s]).

(** No segment has data before a segment starts a new channel list (that may be
    the segment itself). *)
Definition own_lists (K : list segment) : Prop :=
  forall A s B, K = A ++ s :: B -> toc_raw (sg_toc s) = true ->
  Exists (fun s => toc_newlist (sg_toc s) = true) (A ++ [s]).

(** The same block, [d] bytes further on; the same place, [k] blocks further on. *)
Definition moved (d : N) (b : dblock) : dblock :=
  mkBlock (b_start b + d) (b_len b) (b_layout b) (b_chans b) (b_order b).
Definition renumbered (k : nat) (l : loc) : loc := mkLoc (k + l_block l) (l_chan l) (l_n l).

(** The number of samples of a channel, none if there is no such channel. *)
Definition count_of (r : option N) : N := match r with Some n => n | None => 0 end.

(** The segment counts samples of [p] when it follows [A]. *)
Definition counts (A : list segment) (s : segment) (p : str) : Prop :=
  toc_raw (sg_toc s) = true /\ 0 < samples_in p (active_after (A ++ [s])) (block_of A s).

(** What is answered about a property of an object: the value in the second file
    if it has one, else what the first file has. *)
Definition later (first second : res (option pval)) : res (option pval) :=
  match second with
  | Ok (Some v) => Ok (Some v)
  | Ok None => match first with Ok x => Ok x | _ => Ok None end
  | _ => first
  end.
(** The length in both files together. *)
Definition both (first second : option N) : option N :=
  match first, second with
  | None, None => None
  | a, b => Some (count_of a + count_of b)
  end.
