(** * Machines on which usize has [W] values, fewer than u64 *)
From Verif Require Import Base DataTypes MetaData DataBlock Index RawData TdmsFile Width
  SpecIndex SpecSession SpecRead SpecSeen SpecMulti SpecMixed SpecWrite.

(** A location as such a machine records it: the chunks are counted modulo [W]. *)
Definition recounted (W : N) (bs : list dblock) (l : loc) : loc :=
  match nth_error bs (l_block l) with
  | Some b => match nth_error (b_chans b) (l_chan l) with
              | Some m => mkLoc (l_block l) (l_chan l) (rm_n m * (whole_chunks b mod W))
              | None => l
              end
  | None => l
  end.

(** Calls on such a machine. *)
Definition do_call_on (W : N) (E : env) (F : tfile) (c : call) : tfile * res unit :=
  match c with
  | CallProps e path kvs => w_write_properties W E e F path kvs
  | CallChans e t chans vs lay => w_write_channels W E e t F chans vs lay
  end.
Fixpoint run_calls_on (W : N) (E : env) (F : tfile) (cs : list call) : tfile * list (res unit) :=
  match cs with
  | [] => (F, [])
  | c :: r => let '(F1, x) := do_call_on W E F c in let '(F2, xs) := run_calls_on W E F1 r in (F2, x :: xs)
  end.
(** The values given to a call are in memory, so their bytes are counted by a usize. *)
Definition in_memory (W : N) (c : call) : Prop :=
  match c with CallProps _ _ _ => True | CallChans _ t _ vs _ => lenN vs * size_bytes t < W end.

(** The numbers a read of the block computes fit a usize. *)
Definition narrow_block (W : N) (t : sty) (b : dblock) : Prop :=
  Forall (fun m => rm_n m < W /\ 0 < reckoned (rm_type m)) (b_chans b)
  /\ match b_layout b with
     | Contigious => in_chunk (widest t (b_chans b)) < W
     | Interleaved => in_row (widest t (b_chans b)) < W
     end.
Definition narrowly_stored (W : N) (t : sty) (H : list segment) (path : str) : Prop :=
  Forall (fun l => 0 < l_n l -> exists b, nth_error (blocks_after H) (l_block l) = Some b /\ narrow_block W t b)
         (locs_after H path).

(** Everything in the file: what a file in a small store looks like. *)
Definition ordinary_block (f : list byte) (b : dblock) : Prop :=
  b_start b + b_len b <= lenN f
  /\ Forall (fun m => 0 < reckoned (rm_type m)) (b_chans b)
  /\ (b_layout b = Interleaved -> Forall (fun m => 0 < rm_n m) (b_chans b)).
