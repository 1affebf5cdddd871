(** * Specification: the samples whose bytes are in the file
    Of the places of a channel's samples (the layout that raw_data/mod.rs 197-389 reads), those before the end of the file. *)
From Verif Require Import Base DataTypes MetaData DataBlock Index SpecIndex SpecRead SpecCutFile.

(** The samples of [p] from number [start] on whose bytes are all in the file [f]. *)
Definition arrived (f : list byte) (t : sty) (H : list segment) (p : str) (start : N) : list (carrier t) :=
  map (value_at f t) (filter (present f t) (skipn (N.to_nat start) (places_after H p))).

(** The places of the samples of a location that a read needs (block, number of the channel, samples passed over). *)
Definition rest_places (bs : list dblock) (q : nat * nat * N) : list (endian * N) :=
  let '(j, i, s) := q in
  match nth_error bs j with
  | Some b => match nth_error (b_chans b) i with
              | Some m => skipn (N.to_nat s)
                  (map (fun k => (b_order b, sample_addr b i (N.of_nat k))) (seq 0 (N.to_nat (rm_n m * whole_chunks b))))
              | None => []
              end
  | None => []
  end.
(** The places a read of [n] > 0 samples looks at: those of the samples, and the one behind them if it is in the same
    interleaved block. *)
Fixpoint looked_at (bs : list dblock) (nd : list (nat * nat * N)) (n : nat) : list (endian * N) :=
  match nd with
  | [] => []
  | q :: r =>
    let ps := rest_places bs q in
    firstn (match nth_error bs (fst (fst q)) with
            | Some b => match b_layout b with Interleaved => S n | Contigious => n end
            | None => n end) ps
    ++ (if Nat.leb n (length ps) then [] else looked_at bs r (n - length ps))
  end.
(** The places that a read of interleaved blocks looks at for a channel with a buffer of [n] samples, if the largest
    buffer has [m]: in every block that begins before the buffer is full, those of all rows it reads there. *)
Fixpoint rows_looked_at (bs : list dblock) (nd : list (nat * nat * N)) (n m : nat) : list (endian * N) :=
  match nd with
  | [] => []
  | q :: r =>
    let ps := rest_places bs q in
    if Nat.eqb n 0 then [] else firstn (S m) ps ++ rows_looked_at bs r (n - length ps) (m - length ps)
  end.
