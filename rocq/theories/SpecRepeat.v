(** * Specification of reads in which a channel may be asked for more than once.
      As in SpecMulti, what is delivered and counted is stated on the samples of
      the channels, without the reading functions. *)
From Verif Require Import Base DataTypes MetaData DataBlock Index RawData ChannelReader SpecIndex SpecRead SpecMulti.

(** One of [later] asks for the same channel. *)
Definition again (q : req) (later : list req) : bool :=
  existsb (fun q' => Nat.eqb (rq_chan q') (rq_chan q)) later.
(** Of the requests for one channel only the last is answered. *)
Fixpoint final_ones (reqs : list req) : list req :=
  match reqs with
  | [] => []
  | q :: r => if again q r then final_ones r else q :: final_ones r
  end.
(** Skips are handed out in the order of the channels in the block to those
    answered, although all are listed. *)
Definition skip_dealt (reqs : list req) (q : req) : N :=
  nth (rank (final_ones reqs) q) (map rq_skip reqs) 0.
Definition contig_dealt (n : N) (reqs : list req) (q : req) : N :=
  let s := skip_dealt reqs q in
  first_chunk n reqs * n + (if s / n =? first_chunk n reqs then s mod n else 0).
(** The least skip handed out. *)
Definition least_dealt (reqs : list req) : N :=
  least_skip (firstn (length (final_ones reqs)) reqs).
Definition wanted_by_final (reqs : list req) (u : N) : bool :=
  existsb (fun q => (skip_dealt reqs q <=? u) && (u <? skip_dealt reqs q + N.of_nat (rq_room q))) (final_ones reqs).
Definition rows_passed (reqs : list req) (total : N) : N :=
  N.of_nat (rows_run (wanted_by_final reqs) (least_dealt reqs) (N.to_nat (total - least_dealt reqs))).

(** One block of [total] samples per channel, [n] per chunk: what a request that
    is answered gets, and how many samples are counted for all. *)
Definition got_final {V} (lay : layout) (n total : N) (reqs : list req) (q : req) (column : list V) : list V :=
  match lay with
  | Contigious => firstn (rq_room q) (skipn (N.to_nat (contig_dealt n reqs q)) column)
  | Interleaved =>
    firstn (rq_room q)
      (skipn (N.to_nat (skip_dealt reqs q)) (firstn (N.to_nat (least_dealt reqs + rows_passed reqs total)) column))
  end.
Definition count_final (lay : layout) (n total : N) (reqs : list req) : N :=
  match lay with
  | Contigious =>
    match last_request (final_ones reqs) with
    | Some q => N.min (N.of_nat (rq_room q)) (total - contig_dealt n reqs q)
    | None => 0
    end
  | Interleaved => rows_passed reqs total
  end.

(** ** Whole files *)
Section Deliver.
Context (f : list byte) (t : sty) (bs : list dblock).
Local Notation V := (carrier t).

(** Block [j], laid out as [b], serves the channels that want it, the requests
    being [reqs]: all advance by the same count, and those not asked for again
    receive samples. *)
Fixpoint serve_final (j : nat) (b : dblock) (reqs : list req) (ks : list (taker t)) : list (taker t) :=
  match ks with
  | [] => []
  | k :: r =>
    match wants t j k with
    | Some (c, s) =>
      let q := mkReq c (N.to_nat (lenN (tk_buf t k) - tk_count t k)) s in
      mkTaker t (tk_needs t k)
        (tk_count t k + count_final (b_layout b) (per_chunk b) (per_block b) reqs)
        (if again q (concat (map (asks t j) r)) then tk_buf t k
         else put t (tk_buf t k) (tk_count t k)
                (got_final (b_layout b) (per_chunk b) (per_block b) reqs q (block_samples f t b c (per_block b))))
    | None => k
    end :: serve_final j b reqs r
  end.
Definition serve_again (j : nat) (ks : list (taker t)) : list (taker t) :=
  match nth_error bs j with
  | None => ks
  | Some b => serve_final j b (concat (map (asks t j) ks)) ks
  end.
Definition served_again (ks : list (taker t)) : list (taker t) :=
  fold_left (fun ks j => serve_again j ks) (seq 0 (length bs)) ks.
End Deliver.

(** ** What is left when only the last of several requests for a channel counts *)
Fixpoint last_only {A} (l : list (str * A)) : list (str * A) :=
  match l with
  | [] => []
  | (p, x) :: r => if existsb (str_eqb p) (map fst r) then last_only r else (p, x) :: last_only r
  end.
(** Every block that several channels still need from [start] on is entered at the
    same sample by all of them: so if [start] is 0, or if all channels are in the
    same blocks. *)
Definition entered_alike (H : list segment) (chans : list str) (start : N) : Prop :=
  forall p p' j c s c' s', In p chans -> In p' chans ->
    In (j, c, s) (needed (locs_after H p) start) -> In (j, c', s') (needed (locs_after H p') start) -> s = s'.
(** No buffer is longer than that of a later request for the same channel. *)
Definition later_no_shorter {A} (chans : list str) (outs : list (list A)) : Prop :=
  forall i i' p o o', (i < i')%nat -> nth_error chans i = Some p -> nth_error chans i' = Some p ->
    nth_error outs i = Some o -> nth_error outs i' = Some o' -> (length o <= length o')%nat.
