(** * Blocks with channels of any types.
      Where a read of one channel looks for its samples. *)
From Verif Require Import Base DataTypes MetaData DataBlock Index SpecIndex SpecRead SpecUneven.

(** Bytes that a value of each type is reckoned with when its channel is passed
    over (io/data_types/mod.rs: DataType::size): timestamps 8 although they are
    stored in 16. *)
Definition reckoned (d : dtype) : N :=
  match d with
  | Timestamp | FixedPoint => 8
  | DAQmxRawData => 4
  | ExtendedFloat | ExtendedFloatWithUnit => 16
  | _ => width d
  end.
(** Bytes that a value of the channel being read takes. *)
Definition own_width (t : sty) : N :=
  match t, stored_as t with
  | STime, _ => 16
  | _, d :: _ => width d
  | _, [] => 0
  end.

(** Number of values and width of each channel: as reckoned, except for channel
    number [i], which is read. *)
Definition plain (m : rawmeta) : N * N := (rm_n m, reckoned (rm_type m)).
Definition seen_widths (t : sty) (i : nat) (ms : list rawmeta) : list (N * N) :=
  firstn i (map plain ms)
  ++ match nth_error ms i with Some m => [(rm_n m, own_width t)] | None => [] end
  ++ skipn (S i) (map plain ms).
Definition in_row (ws : list (N * N)) : N := fold_right (fun w a => snd w + a) 0 ws.
Definition in_chunk (ws : list (N * N)) : N := fold_right (fun w a => fst w * snd w + a) 0 ws.

(** Address of sample [k] of channel [i], for channels of widths [ws]. *)
Definition addr_with (b : dblock) (ws : list (N * N)) (i : nat) (k : N) : N :=
  match b_layout b, nth_error ws i with
  | Interleaved, _ => b_start b + k * in_row ws + in_row (firstn i ws)
  | Contigious, Some (n, w) => b_start b + (k / n) * in_chunk ws + in_chunk (firstn i ws) + (k mod n) * w
  | Contigious, None => 0
  end.
(** Samples of channel [i] in the data of the block. *)
Definition count_with (b : dblock) (ws : list (N * N)) (i : nat) : N :=
  match b_layout b, nth_error ws i with
  | Interleaved, Some _ => b_len b / in_row ws
  | Contigious, Some (n, _) => n * (b_len b / in_chunk ws)
  | _, None => 0
  end.
Definition samples_with (f : list byte) (t : sty) (b : dblock) (ws : list (N * N)) (i : nat) : list (carrier t) :=
  map (fun k => elem (b_order b) t (slice f (addr_with b ws i (N.of_nat k)) (own_width t)))
      (seq 0 (N.to_nat (count_with b ws i))).

(** All that is passed over or read is present and can be addressed. *)
Definition seen_block (E : env) (f : list byte) (t : sty) (b : dblock) (i : nat) (m : rawmeta) : Prop :=
  let ws := seen_widths t i (b_chans b) in
  nth_error (b_chans b) i = Some m /\ In (rm_type m) (stored_as t)
  /\ Forall (fun m => 0 < reckoned (rm_type m)) (b_chans b)
  /\ match b_layout b with
     | Interleaved => 0 < b_len b / in_row ws /\ b_start b + b_len b / in_row ws * in_row ws <= lenN f
                      /\ b_start b + rm_n m * whole_chunks b * in_row ws <= N.min (2 ^ 63 - 1) (seek_max E)
     | Contigious => 0 < b_len b / in_chunk ws /\ b_start b + b_len b / in_chunk ws * in_chunk ws <= lenN f
                     /\ exists m0 ms, b_chans b = m0 :: ms /\ 0 < rm_n m0
     end.
Definition seen_stored (E : env) (f : list byte) (t : sty) (H : list segment) (path : str) : Prop :=
  Forall (fun l => 0 < l_n l -> exists b m, nth_error (blocks_after H) (l_block l) = Some b
                     /\ seen_block E f t b (l_chan l) m) (locs_after H path).

(** What a read of the locations [ls] from sample [s] on takes. *)
Definition seen (f : list byte) (t : sty) (bs : list dblock) (ls : list loc) (s : N) : list (carrier t) :=
  concat (map (fun x => let '(j, i, s) := x in
     match nth_error bs j with
     | Some b => skipn (N.to_nat (passed_over b i s)) (samples_with f t b (seen_widths t i (b_chans b)) i)
     | None => []
     end) (needed ls s)).

(** Where the samples are: timestamps are stored in 16 bytes. *)
Definition real_width (d : dtype) : N := match d with Timestamp => 16 | _ => reckoned d end.
Definition real_widths (ms : list rawmeta) : list (N * N) := map (fun m => (rm_n m, real_width (rm_type m))) ms.
