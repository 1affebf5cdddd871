(** * Specification for reads that need only part of a channel, and for
      re-opening written files *)
From Verif Require Import Base DataTypes MetaData DataBlock Index SpecCodec SpecIndex SpecRead SpecWrite.

(** The location [l] is in a whole block and holds values of type [t]. *)
Definition stored_at (f : list byte) (t : sty) (H : list segment) (l : loc) : Prop :=
  exists b m, nth_error (blocks_after H) (l_block l) = Some b /\ whole_block f b
    /\ nth_error (b_chans b) (l_chan l) = Some m /\ In (rm_type m) (stored_as t).

(** The locations that a read of [n] samples from sample [s] on goes to: those
    overlapping the window, and the one at [s] even when [n] is zero. *)
Fixpoint touched (ls : list loc) (s n : N) : list loc :=
  match ls with
  | [] => []
  | l :: r =>
    if l_n l <=? s then touched r (s - l_n l) n
    else l :: (if n <=? l_n l - s then [] else touched r 0 (n - (l_n l - s)))
  end.

(** A call whose strings and values the file format can hold, and for which the
    reader can allocate memory.  Extended floats and strings as channel data are
    left out: their segments have other sizes than announced (C45). *)
Definition good_call (E : env) (cl : call) : Prop :=
  match cl with
  | CallProps _ path kvs =>
    good_str E path /\ Forall (fun p => good_str E (fst p) /\ good_pval E (snd p)) kvs
    /\ lenN kvs < 2 ^ 32 /\ alloc_ok E AProps (lenN kvs) = true /\ alloc_ok E AObjects 1 = true
  | CallChans _ t chans vs _ =>
    Forall (good_str E) chans /\ lenN chans < 2 ^ 32 /\ lenN vs < 2 ^ 64
    /\ alloc_ok E AProps 0 = true /\ alloc_ok E AObjects (lenN chans) = true
    /\ t <> SExt /\ t <> SStr
  end.

(** Data whose first four bytes are zero. *)
Definition zero_start (e : endian) (t : sty) (vs : list (carrier t)) : Prop :=
  exists r, concat (map (enc e t) vs) = x00 :: x00 :: x00 :: x00 :: r.

(** Every data call either names channels that do not continue those of the
    data call before it, or starts with four zero bytes (which read as an empty
    list of objects). *)
Fixpoint restarts (E : env) (prev : list str) (cs : list call) : Prop :=
  match cs with
  | [] => True
  | CallProps _ _ _ :: r => restarts E prev r
  | CallChans e t chans vs _ :: r =>
    (~ continues prev chans /\ NoDup chans /\ restarts E chans r)
    \/ (continues prev chans /\ zero_start e t vs /\ alloc_ok E AObjects 0 = true /\ restarts E prev r)
  end.

(** Bytes of sample data a call hands over. *)
Definition data_bytes (cl : call) : N :=
  match cl with CallProps _ _ _ => 0 | CallChans e t _ vs _ => lenN (concat (map (enc e t) vs)) end.

(** With the current channel list [act], the call leaves out its metadata. *)
Definition leaves_out (act : list str) (cl : call) : Prop :=
  match cl with CallProps _ _ _ => False | CallChans _ _ chans _ _ => continues act chans end.

(** If it does, its data start with four zero bytes. *)
Definition zero_if_left_out (E : env) (act : list str) (cl : call) : Prop :=
  match cl with
  | CallProps _ _ _ => True
  | CallChans e t chans vs _ => ~ continues act chans \/ (zero_start e t vs /\ alloc_ok E AObjects 0 = true)
  end.
