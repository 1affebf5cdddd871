(** * Specification of reads of several channels at once.
      What is delivered and how many samples are counted, stated on the samples
      of the channels (columns) without the reading functions.  It describes what
      the code does, not what a user would ask for: see claim C30. *)
From Verif Require Import Base DataTypes MetaData DataBlock Index RawData ChannelReader SpecIndex SpecRead.

(** Requests for channels before that of [q] in the block. *)
Definition rank (reqs : list req) (q : req) : nat :=
  length (filter (fun q' => Nat.ltb (rq_chan q') (rq_chan q)) reqs).
(** The skip used for [q]: skips are handed out in the order of the channels in
    the block, although they are listed in the order of the requests. *)
Definition skip_given (reqs : list req) (q : req) : N := nth (rank reqs q) (map rq_skip reqs) 0.

(** ** Contiguous blocks with [n] values per channel and chunk *)
(** No chunk is read before the furthest chunk any request skips to. *)
Definition first_chunk (n : N) (reqs : list req) : N :=
  fold_right (fun q a => N.max (rq_skip q / n) a) 0 reqs.
(** The first sample of the channel of [q] that is read. *)
Definition contig_first (n : N) (reqs : list req) (q : req) : N :=
  let s := skip_given reqs q in
  first_chunk n reqs * n + (if s / n =? first_chunk n reqs then s mod n else 0).
(** The request for the last channel in the block. *)
Definition last_request (reqs : list req) : option req :=
  find (fun q => Nat.eqb (S (rank reqs q)) (length reqs)) reqs.

(** ** Interleaved blocks *)
Definition least_skip (reqs : list req) : N :=
  match reqs with
  | [] => 0
  | q :: r => fold_right (fun q a => N.min (rq_skip q) a) (rq_skip q) r
  end.
(** Some request wants row [t]. *)
Definition wanted (reqs : list req) (t : N) : bool :=
  existsb (fun q => (skip_given reqs q <=? t) && (t <? skip_given reqs q + N.of_nat (rq_room q))) reqs.
(** Rows from [t] on, at most [m], until the first one that is not wanted. *)
Fixpoint rows_run (want : N -> bool) (t : N) (m : nat) : nat :=
  match m with
  | O => O
  | S m' => if want t then S (rows_run want (t + 1) m') else O
  end.
Definition rows_read (reqs : list req) (total : N) : N :=
  N.of_nat (rows_run (wanted reqs) (least_skip reqs) (N.to_nat (total - least_skip reqs))).

(** ** One block of [total] samples per channel, [n] per chunk *)
Definition got_of {V} (lay : layout) (n total : N) (reqs : list req) (q : req) (column : list V) : list V :=
  match lay with
  | Contigious => firstn (rq_room q) (skipn (N.to_nat (contig_first n reqs q)) column)
  | Interleaved =>
    firstn (rq_room q)
      (skipn (N.to_nat (skip_given reqs q)) (firstn (N.to_nat (least_skip reqs + rows_read reqs total)) column))
  end.
Definition count_of_block (lay : layout) (n total : N) (reqs : list req) : N :=
  match lay with
  | Contigious =>
    match last_request reqs with
    | Some q => N.min (N.of_nat (rq_room q)) (total - contig_first n reqs q)
    | None => 0
    end
  | Interleaved => rows_read reqs total
  end.

(** ** Whole files *)
Section Deliver.
Context (f : list byte) (t : sty) (bs : list dblock).
Local Notation V := (carrier t).

(** A channel being read: what it needs, samples counted so far, its buffer. *)
Record taker := mkTaker { tk_needs : list (nat * nat * N); tk_count : N; tk_buf : list V }.
(** What it wants of block [j]: channel number and skip. *)
Definition wants (j : nat) (k : taker) : option (nat * N) :=
  if lenN (tk_buf k) <=? tk_count k then None
  else match find (fun x => Nat.eqb (fst (fst x)) j) (tk_needs k) with
       | Some (_, c, s) => Some (c, s)
       | None => None
       end.
Definition asks (j : nat) (k : taker) : list req :=
  match wants j k with
  | Some (c, s) => [mkReq c (N.to_nat (lenN (tk_buf k) - tk_count k)) s]
  | None => []
  end.
(** Values stored in the buffer from position [at_] on. *)
Definition put (buf : list V) (at_ : N) (vs : list V) : list V :=
  firstn (N.to_nat at_) buf ++ vs ++ skipn (N.to_nat at_ + length vs) buf.

(** Values per chunk and samples per channel of a block. *)
Definition per_chunk (b : dblock) : N := match b_chans b with m :: _ => rm_n m | [] => 0 end.
Definition per_block (b : dblock) : N := whole_chunks b * per_chunk b.

(** Block [j] serves the channels that want it: every one of them receives its
    part and advances by the same count. *)
Definition serve (j : nat) (ks : list taker) : list taker :=
  match nth_error bs j with
  | None => ks
  | Some b =>
    let reqs := concat (map (asks j) ks) in
    map (fun k =>
           match wants j k with
           | Some (c, s) =>
             let q := mkReq c (N.to_nat (lenN (tk_buf k) - tk_count k)) s in
             mkTaker (tk_needs k)
               (tk_count k + count_of_block (b_layout b) (per_chunk b) (per_block b) reqs)
               (put (tk_buf k) (tk_count k)
                    (got_of (b_layout b) (per_chunk b) (per_block b) reqs q (block_samples f t b c (per_block b))))
           | None => k
           end) ks
  end.
Definition served (ks : list taker) : list taker := fold_left (fun ks j => serve j ks) (seq 0 (length bs)) ks.
End Deliver.
