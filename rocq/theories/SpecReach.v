(** * The whole outcome of reading one channel.
      Where the read looks for its samples in blocks of any make-up, and which of
      these places must be in the file for the read to succeed. *)
From Verif Require Import Base DataTypes MetaData DataBlock Index SpecIndex SpecRead SpecUneven SpecSeen SpecCutFile.

(** Places (byte order and address) of the samples taken from the block [b] for
    channel number [i], when [s] samples are to be passed over. *)
Definition sought_in (t : sty) (b : dblock) (i : nat) (s : N) : list (endian * N) :=
  let ws := seen_widths t i (b_chans b) in
  skipn (N.to_nat (passed_over b i s))
    (map (fun k => (b_order b, addr_with b ws i (N.of_nat k))) (seq 0 (N.to_nat (count_with b ws i)))).
Definition sought_at (t : sty) (bs : list dblock) (x : nat * nat * N) : list (endian * N) :=
  let '(j, i, s) := x in match nth_error bs j with Some b => sought_in t b i s | None => [] end.
(** All places, in the order in which they are read. *)
Definition sought (t : sty) (bs : list dblock) (ls : list loc) (s : N) : list (endian * N) :=
  concat (map (sought_at t bs) (needed ls s)).

(** The place behind a window of [n] samples, if the window ends inside an
    interleaved block: it is read too. *)
Fixpoint peeked (t : sty) (bs : list dblock) (nd : list (nat * nat * N)) (n : nat) : list (endian * N) :=
  match nd with
  | [] => []
  | (j, i, s) :: r =>
    match nth_error bs j with
    | Some b =>
      let ps := sought_in t b i s in
      if Nat.leb n (length ps)
      then match b_layout b with Interleaved => firstn 1 (skipn n ps) | Contigious => [] end
      else peeked t bs r (n - length ps)
    | None => []
    end
  end.

(** The addresses that the read passes over or reads can be sought to. Nothing is
    said about what is in the file. *)
Definition reach_block (E : env) (t : sty) (b : dblock) (i : nat) (m : rawmeta) : Prop :=
  let ws := seen_widths t i (b_chans b) in
  let top := N.min (2 ^ 63 - 1) (seek_max E) in
  nth_error (b_chans b) i = Some m /\ In (rm_type m) (stored_as t)
  /\ Forall (fun m => 0 < reckoned (rm_type m)) (b_chans b)
  /\ match b_layout b with
     | Interleaved => in_row ws <= top
                      /\ b_start b + N.max (b_len b / in_row ws) (rm_n m * whole_chunks b) * in_row ws <= top
     | Contigious => in_chunk ws <= top /\ b_start b + b_len b / in_chunk ws * in_chunk ws <= top
                     /\ exists m0 ms, b_chans b = m0 :: ms /\ 0 < rm_n m0
     end.
Definition reachable (E : env) (t : sty) (H : list segment) (path : str) : Prop :=
  Forall (fun l => 0 < l_n l -> exists b m, nth_error (blocks_after H) (l_block l) = Some b
                     /\ reach_block E t b (l_chan l) m) (locs_after H path).
