(** * Specification of which samples a read of several channels delivers, by number.
      Only the locations of the channels and the lengths of the buffers matter:
      no bytes, no values and no reading functions occur here. *)
From Verif Require Import Base DataTypes MetaData DataBlock Index RawData ChannelReader SpecIndex SpecRead SpecMulti.

(** Number of the first sample a channel has in block [j]. *)
Definition first_in (ls : list loc) (j : nat) : N :=
  fold_right (fun l a => (if Nat.ltb (l_block l) j then l_n l else 0) + a) 0 ls.
(** The numbers from [a] on, [n] of them. *)
Definition numbers (a n : N) : list N := map (fun k => a + N.of_nat k) (seq 0 (N.to_nat n)).

(** A channel being read: its locations and start, samples counted so far, and for
    every position of its buffer the number of the sample there, if any. *)
Record picker := mkPick { pk_locs : list loc; pk_start : N; pk_count : N; pk_from : list (option N) }.
(** What it wants of block [j]. *)
Definition seeks (j : nat) (k : picker) : option (nat * N) :=
  if lenN (pk_from k) <=? pk_count k then None
  else match find (fun x => Nat.eqb (fst (fst x)) j) (needed (pk_locs k) (pk_start k)) with
       | Some (_, c, s) => Some (c, s)
       | None => None
       end.
Definition request (k : picker) (cs : nat * N) : req :=
  mkReq (fst cs) (N.to_nat (lenN (pk_from k) - pk_count k)) (snd cs).
Definition calls (j : nat) (k : picker) : list req :=
  match seeks j k with Some cs => [request k cs] | None => [] end.
(** [vs] instead of what is at position [a]. *)
Definition place_at {A} (buf : list A) (a : N) (vs : list A) : list A :=
  firstn (N.to_nat a) buf ++ vs ++ skipn (N.to_nat a + length vs) buf.
(** Block [j], laid out as [b], serves one channel that asks among [reqs]. *)
Definition pick (j : nat) (b : dblock) (reqs : list req) (k : picker) : picker :=
  match seeks j k with
  | Some cs =>
    mkPick (pk_locs k) (pk_start k)
      (pk_count k + count_of_block (b_layout b) (per_chunk b) (per_block b) reqs)
      (place_at (pk_from k) (pk_count k)
         (map Some (got_of (b_layout b) (per_chunk b) (per_block b) reqs (request k cs)
                      (numbers (first_in (pk_locs k) j) (per_block b)))))
  | None => k
  end.
Definition pick_all (bs : list dblock) (j : nat) (ks : list picker) : list picker :=
  match nth_error bs j with
  | Some b => map (pick j b (concat (map (calls j) ks))) ks
  | None => ks
  end.

(** For each channel, which of its samples gets where in a buffer of the given
    length; [None] for a place that keeps what it held. *)
Definition sources (H : list segment) (chans : list str) (start : N) (ns : list nat) : list (list (option N)) :=
  map pk_from
    (fold_left (fun ks j => pick_all (blocks_after H) j ks) (seq 0 (length (blocks_after H)))
       (map (fun pn => mkPick (locs_after H (fst pn)) start 0 (repeat None (snd pn))) (combine chans ns))).

(** The buffer [o] after it received samples of [xs] by number. *)
Definition filled_by {V} (src : list (option N)) (o xs o' : list V) : Prop :=
  length o = length src /\ length o' = length src
  /\ forall a s, nth_error src a = Some s ->
       nth_error o' a = match s with Some i => nth_error xs (N.to_nat i) | None => nth_error o a end.

(** What a user asks for: [start] and the following samples, as far as there are
    any. *)
Definition in_order (total start : N) (n : nat) : list (option N) :=
  map (fun a => let i := start + N.of_nat a in if i <? total then Some i else None) (seq 0 n).
