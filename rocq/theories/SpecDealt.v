(** * Reads of any channels, some of them more than once, from blocks of any
      make-up.  SpecRepeat says what repetitions do where all channels of a block
      are alike, SpecMixed what blocks of any make-up give to different channels;
      here is what both do together. *)
From Verif Require Import Base DataTypes MetaData DataBlock Index RawData ChannelReader
  SpecIndex SpecRead SpecMulti SpecUneven SpecSeen SpecMixed SpecRepeat.

(** The first sample that the request [q] gets of a contiguous block. *)
Definition dealt_first (b : dblock) (reqs : list req) (q : req) : N :=
  let s := skip_dealt reqs q in
  let n := values_of b (rq_chan q) in
  let k := first_chunk (per_chunk b) reqs in
  k * n + (if s / per_chunk b =? k then N.min (s mod per_chunk b) n else 0).

(** One block: what a request that is answered gets, and how many samples are
    counted for all. *)
Definition dealt_got (f : list byte) (t : sty) (b : dblock) (reqs : list req) (q : req) : list (carrier t) :=
  let ws := widths_for t (map rq_chan reqs) (b_chans b) in
  let column := samples_with f t b ws (rq_chan q) in
  match b_layout b with
  | Contigious => firstn (rq_room q) (skipn (N.to_nat (dealt_first b reqs q)) column)
  | Interleaved =>
    firstn (rq_room q) (skipn (N.to_nat (skip_dealt reqs q))
      (firstn (N.to_nat (least_dealt reqs + rows_passed reqs (b_len b / in_row ws))) column))
  end.
Definition dealt_count (t : sty) (b : dblock) (reqs : list req) : N :=
  let ws := widths_for t (map rq_chan reqs) (b_chans b) in
  match b_layout b with
  | Contigious =>
    match last_request (final_ones reqs) with
    | Some q => N.min (N.of_nat (rq_room q)) (count_with b ws (rq_chan q) - dealt_first b reqs q)
    | None => 0
    end
  | Interleaved => rows_passed reqs (b_len b / in_row ws)
  end.

(** ** Whole files *)
Section Deliver.
Context (f : list byte) (t : sty) (bs : list dblock).

(** The block [b], number [j], serves the channels that want it, the requests
    being [reqs]: all advance by the same count, and those not asked for again
    receive samples. *)
Fixpoint dealt_to (j : nat) (b : dblock) (reqs : list req) (ks : list (taker t)) : list (taker t) :=
  match ks with
  | [] => []
  | k :: r =>
    match wants t j k with
    | Some (c, s) =>
      let q := mkReq c (N.to_nat (lenN (tk_buf t k) - tk_count t k)) s in
      mkTaker t (tk_needs t k) (tk_count t k + dealt_count t b reqs)
        (if again q (concat (map (asks t j) r)) then tk_buf t k
         else put t (tk_buf t k) (tk_count t k) (dealt_got f t b reqs q))
    | None => k
    end :: dealt_to j b reqs r
  end.
Definition dealt_serve (j : nat) (ks : list (taker t)) : list (taker t) :=
  match nth_error bs j with
  | None => ks
  | Some b => dealt_to j b (concat (map (asks t j) ks)) ks
  end.
Definition dealt_served (ks : list (taker t)) : list (taker t) :=
  fold_left (fun ks j => dealt_serve j ks) (seq 0 (length bs)) ks.
End Deliver.
