(** * How much reading costs *)
From Verif Require Import Base DataBlock.

(** The sum of a quantity over a list. *)
Definition total_of {A} (g : A -> N) (l : list A) : N := fold_right (fun x n => g x + n) 0 l.

(** Operations allowed for opening a file of [n] bytes: one to go to its start,
    and for every 28 bytes (the lead-in of a segment) one per byte and two
    more. *)
Definition opening_budget (n : N) : N := 1 + (n / 28 + 1) * (n + 2).

(** Operations allowed for a block when at most [k] values are wanted from it:
    three to get there, for every declared byte two per channel and one more, and
    two per value. *)
Definition block_budget (k : N) (b : dblock) : N := 3 + b_len b * (2 * lenN (b_chans b) + 1) + 2 * k.
