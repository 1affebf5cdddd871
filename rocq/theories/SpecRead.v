(** * Specification of channel samples.
      Where each sample of a channel is stored and what value it has, stated on
      the bytes of the file without the reading functions. *)
From Coq Require Import Sorting.Sorted.
From Verif Require Import Base DataTypes MetaData DataBlock Index ChannelReader SpecIndex.

(** Bytes [a, a + n) of [f]. *)
Definition slice (f : list byte) (a n : N) : list byte :=
  firstn (N.to_nat n) (skipn (N.to_nat a) f).

(** Bytes per value in a TDMS file, for the types with a fixed size that the
    library stores in that size; 0 for the others. *)
Definition width (d : dtype) : N :=
  match d with
  | I8 | U8 | Boolean => 1
  | I16 | U16 => 2
  | I32 | U32 | SingleFloat | SingleFloatWithUnit => 4
  | I64 | U64 | DoubleFloat | DoubleFloatWithUnit | ComplexSingleFloat => 8
  | ComplexDoubleFloat => 16
  | _ => 0
  end.

(** Element types of fixed size: all but extended floats, strings and
    timestamps. *)
Definition fixed (t : sty) : Prop := t <> SExt /\ t <> SStr /\ t <> STime.

(** The TDMS types whose values are read as elements of type [t]. *)
Definition stored_as (t : sty) : list dtype :=
  match t with
  | SI8 => [I8] | SI16 => [I16] | SI32 => [I32] | SI64 => [I64]
  | SU8 => [U8] | SU16 => [U16] | SU32 => [U32] | SU64 => [U64]
  | SF32 => [SingleFloat; SingleFloatWithUnit]
  | SF64 => [DoubleFloat; DoubleFloatWithUnit]
  | SExt => [ExtendedFloat; ExtendedFloatWithUnit]
  | SBool => [Boolean; U8]  (* LabVIEW stores booleans as U8, bool.rs 5 *)
  | SStr => [TdmsString]
  | SC32 => [ComplexSingleFloat]
  | SC64 => [ComplexDoubleFloat]
  | STime => [Timestamp]
  end.

(** The value the bytes [bs] of one element stand for. *)
Definition elem (e : endian) (t : sty) (bs : list byte) : carrier t :=
  match t return carrier t with
  | SI8 => to_signed 1 (uint_val e bs) | SI16 => to_signed 2 (uint_val e bs)
  | SI32 => to_signed 4 (uint_val e bs) | SI64 => to_signed 8 (uint_val e bs)
  | SU8 => uint_val e bs | SU16 => uint_val e bs
  | SU32 => uint_val e bs | SU64 => uint_val e bs
  | SF32 => uint_val e bs | SF64 => uint_val e bs
  | SBool => negb (uint_val e bs =? 0)
  | SExt => 0
  | SStr => []
  | SC32 => (uint_val e (firstn 4 bs), uint_val e (skipn 4 bs))
  | SC64 => (uint_val e (firstn 8 bs), uint_val e (skipn 8 bs))
  | STime => uint_val e bs
  end.

(** Bytes of one value of each channel, and of one chunk. *)
Definition row_bytes (ms : list rawmeta) : N :=
  fold_right (fun m a => width (rm_type m) + a) 0 ms.
Definition sub_bytes (ms : list rawmeta) : N :=
  fold_right (fun m a => rm_n m * width (rm_type m) + a) 0 ms.

(** Address of sample [k] of channel number [i] of a block.  Interleaved: row
    [k], after the values of the channels before it.  Contiguous: chunk
    [k / n], after the runs of the channels before it. *)
Definition sample_addr (b : dblock) (i : nat) (k : N) : N :=
  match b_layout b with
  | Interleaved => b_start b + k * row_bytes (b_chans b) + row_bytes (firstn i (b_chans b))
  | Contigious =>
    match nth_error (b_chans b) i with
    | Some m => b_start b + (k / rm_n m) * sub_bytes (b_chans b) + sub_bytes (firstn i (b_chans b))
                + (k mod rm_n m) * width (rm_type m)
    | None => 0
    end
  end.

(** Sample [k] of channel [i] of block [b], read as type [t]. *)
Definition sample (f : list byte) (t : sty) (b : dblock) (i : nat) (k : N) : carrier t :=
  elem (b_order b) t
    (slice f (sample_addr b i k)
       (match nth_error (b_chans b) i with Some m => width (rm_type m) | None => 0 end)).

(** The first [n] samples of channel [i] of block [b]. *)
Definition block_samples (f : list byte) (t : sty) (b : dblock) (i : nat) (n : N) : list (carrier t) :=
  map (fun k => sample f t b i (N.of_nat k)) (seq 0 (N.to_nat n)).

(** The samples of a channel: those of its locations, in order. *)
Definition loc_samples (f : list byte) (t : sty) (bs : list dblock) (l : loc) : list (carrier t) :=
  match nth_error bs (l_block l) with
  | Some b => block_samples f t b (l_chan l) (l_n l)
  | None => []
  end.
Definition samples_at (f : list byte) (t : sty) (bs : list dblock) (ls : list loc) : list (carrier t) :=
  concat (map (loc_samples f t bs) ls).

(** All samples of [path] in a file with bytes [f] and history [H]. *)
Definition samples_after (f : list byte) (t : sty) (H : list segment) (path : str) : list (carrier t) :=
  samples_at f t (blocks_after H) (locs_after H path).

(** The data of the block are [c] whole chunks; a contiguous block may have
    further bytes, too few for another chunk. *)
Definition chunks (b : dblock) (c : N) : Prop :=
  match b_layout b with
  | Interleaved => b_len b = c * sub_bytes (b_chans b)
  | Contigious => b_len b / sub_bytes (b_chans b) = c
  end.

(** A block all of whose channels have fixed-size types and the same, non-zero
    number of values per chunk, made of whole chunks that are present in the
    file. *)
Definition whole_block (f : list byte) (b : dblock) : Prop :=
  exists n c, 0 < n /\ 0 < c /\ b_chans b <> []
     /\ Forall (fun m => rm_n m = n /\ 0 < width (rm_type m)) (b_chans b)
     /\ chunks b c /\ b_start b + c * sub_bytes (b_chans b) <= lenN f.

(** The file is not longer than what the stream can address. *)
Definition addressable (E : env) (f : list byte) : Prop :=
  lenN f < 2 ^ 63 /\ lenN f <= seek_max E.

(** The buffer after storing [vs] at its start. *)
Definition overlay {A} (buf vs : list A) : list A := vs ++ skipn (length vs) buf.

(** The locations that still hold samples after skipping [s] of them: block,
    channel in the block, samples to skip in it. *)
Fixpoint needed (ls : list loc) (s : N) : list (nat * nat * N) :=
  match ls with
  | [] => []
  | l :: r => if l_n l <=? s then needed r (s - l_n l) else (l_block l, l_chan l, s) :: needed r 0
  end.

(** The location [l] is channel number [l_chan l] of an existing block, with all
    its samples in whole chunks. *)
Definition located (bs : list dblock) (l : loc) : Prop :=
  exists b m, nth_error bs (l_block l) = Some b /\ nth_error (b_chans b) (l_chan l) = Some m
              /\ l_n l = rm_n m * whole_chunks b.

(** Every block with samples of [path] is whole and stores them as elements of
    type [t]. *)
Definition stored (f : list byte) (t : sty) (H : list segment) (path : str) : Prop :=
  Forall (fun l => exists b m, nth_error (blocks_after H) (l_block l) = Some b /\ whole_block f b
                     /\ nth_error (b_chans b) (l_chan l) = Some m /\ In (rm_type m) (stored_as t))
         (locs_after H path).

(** Locations in strictly increasing blocks. *)
Definition ascending (ls : list loc) : Prop := StronglySorted lt (map l_block ls).

(** The entries of channel number [i] in a plan. *)
Definition planned (i : nat) (plan : list blockread) : list (nat * nat * N) :=
  flat_map (fun br => match nth_error (br_chans br) i with
                      | Some (Some (c, s)) => [(br_block br, c, s)]
                      | _ => []
                      end) plan.

(** Locations in the same blocks with the same numbers of samples. *)
Definition shape (ls : list loc) : list (nat * N) := map (fun l => (l_block l, l_n l)) ls.
