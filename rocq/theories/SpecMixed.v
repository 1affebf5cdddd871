(** * Reads of several channels at once from blocks of any make-up:
      different numbers of values per channel, incomplete last chunks, and
      channels of any types.  As in SpecMulti, what is delivered and counted is
      stated on the samples of the channels, without the reading functions. *)
From Verif Require Import Base DataTypes MetaData DataBlock Index RawData ChannelReader
  SpecIndex SpecRead SpecMulti SpecUneven SpecSeen.

(** Number of values and width of each channel while the channels [cs] of the
    block are read and the others passed over. *)
Definition widths_for (t : sty) (cs : list nat) (ms : list rawmeta) : list (N * N) :=
  map (fun im => (rm_n (snd im), if existsb (Nat.eqb (fst im)) cs then own_width t else reckoned (rm_type (snd im))))
      (combine (seq 0 (length ms)) ms).
(** The same with every channel that could be read as [t]. *)
Definition widest (t : sty) (ms : list rawmeta) : list (N * N) :=
  map (fun m => (rm_n m, if existsb (dtype_eqb (rm_type m)) (stored_as t) then own_width t else reckoned (rm_type m))) ms.
(** Values per chunk of channel number [i]. *)
Definition values_of (b : dblock) (i : nat) : N := match nth_error (b_chans b) i with Some m => rm_n m | None => 0 end.

(** The first sample that the request [q] gets of a contiguous block: the chunk
    is reckoned with the values of the first channel of the block. *)
Definition mixed_first (b : dblock) (reqs : list req) (q : req) : N :=
  let s := skip_given reqs q in
  let n := values_of b (rq_chan q) in
  let k := first_chunk (per_chunk b) reqs in
  k * n + (if s / per_chunk b =? k then N.min (s mod per_chunk b) n else 0).

(** One block: what a request gets, and how many samples are counted for all. *)
Definition mixed_got (f : list byte) (t : sty) (b : dblock) (reqs : list req) (q : req) : list (carrier t) :=
  let ws := widths_for t (map rq_chan reqs) (b_chans b) in
  let column := samples_with f t b ws (rq_chan q) in
  match b_layout b with
  | Contigious => firstn (rq_room q) (skipn (N.to_nat (mixed_first b reqs q)) column)
  | Interleaved =>
    firstn (rq_room q) (skipn (N.to_nat (skip_given reqs q))
      (firstn (N.to_nat (least_skip reqs + rows_read reqs (b_len b / in_row ws))) column))
  end.
Definition mixed_count (t : sty) (b : dblock) (reqs : list req) : N :=
  let ws := widths_for t (map rq_chan reqs) (b_chans b) in
  match b_layout b with
  | Contigious =>
    match last_request reqs with
    | Some q => N.min (N.of_nat (rq_room q)) (count_with b ws (rq_chan q) - mixed_first b reqs q)
    | None => 0
    end
  | Interleaved => rows_read reqs (b_len b / in_row ws)
  end.

(** All data of the block is present and can be addressed. *)
Definition mixed_block (E : env) (f : list byte) (t : sty) (b : dblock) : Prop :=
  b_start b + b_len b <= lenN f
  /\ Forall (fun m => 0 < reckoned (rm_type m)) (b_chans b)
  /\ match b_layout b with
     | Interleaved => in_row (widest t (b_chans b)) < 2 ^ 63
         /\ Forall (fun m => b_start b + rm_n m * whole_chunks b * in_row (widest t (b_chans b)) <= N.min (2 ^ 63 - 1) (seek_max E)) (b_chans b)
     | Contigious => in_chunk (widest t (b_chans b)) < 2 ^ 63 /\ 0 < per_chunk b
     end.
Definition mixed_stored (E : env) (f : list byte) (t : sty) (H : list segment) (path : str) : Prop :=
  Forall (fun l => 0 < l_n l -> exists b m, nth_error (blocks_after H) (l_block l) = Some b
                     /\ nth_error (b_chans b) (l_chan l) = Some m /\ In (rm_type m) (stored_as t) /\ mixed_block E f t b)
         (locs_after H path).

(** ** Whole files *)
Section Deliver.
Context (f : list byte) (t : sty) (bs : list dblock).

(** Block [j] serves the channels that want it. *)
Definition mixed_serve (j : nat) (ks : list (taker t)) : list (taker t) :=
  match nth_error bs j with
  | None => ks
  | Some b =>
    let reqs := concat (map (asks t j) ks) in
    map (fun k =>
           match wants t j k with
           | Some (c, s) =>
             mkTaker t (tk_needs t k) (tk_count t k + mixed_count t b reqs)
               (put t (tk_buf t k) (tk_count t k)
                  (mixed_got f t b reqs (mkReq c (N.to_nat (lenN (tk_buf t k) - tk_count t k)) s)))
           | None => k
           end) ks
  end.
Definition mixed_served (ks : list (taker t)) : list (taker t) :=
  fold_left (fun ks j => mixed_serve j ks) (seq 0 (length bs)) ks.
End Deliver.

(** ** Channels that are in the same blocks with as many samples each *)
(** Numbers in block [j] of the channels that are read. *)
Definition numbers_in (H : list segment) (chans : list str) (j : nat) : list nat :=
  flat_map (fun p => flat_map (fun l => if Nat.eqb (l_block l) j then [l_chan l] else []) (locs_after H p)) chans.
(** What a read of the locations [ls] from sample [s] on takes while all the
    channels [chans] are read. *)
Definition together (f : list byte) (t : sty) (H : list segment) (chans : list str) (ls : list loc) (s : N) : list (carrier t) :=
  concat (map (fun x => let '(j, i, s) := x in
     match nth_error (blocks_after H) j with
     | Some b => skipn (N.to_nat (passed_over b i s)) (samples_with f t b (widths_for t (numbers_in H chans j) (b_chans b)) i)
     | None => []
     end) (needed ls s)).
