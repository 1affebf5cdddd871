(** * Specification of writing: which values go to which channel, stated
      without the writing functions. *)
From Verif Require Import Base DataTypes MetaData DataBlock Index TdmsFile SpecCodec SpecIndex SpecRead.

(** The values for channel number [i] of [n] in a call with values [vs]:
    interleaved, every [n]-th value from the [i]-th; contiguous, the [i]-th of
    [n] runs of the same length. *)
Definition dealt {A} (lay : layout) (n i : nat) (vs : list A) : list A :=
  let k := (length vs / n)%nat in
  match lay with
  | Interleaved =>
    flat_map (fun j => match nth_error vs (j * n + i) with Some v => [v] | None => [] end) (seq 0 k)
  | Contigious => firstn k (skipn (i * k) vs)
  end.

(** One list is a prefix of the other. *)
Definition prefix {A} (a b : list A) : Prop := exists c, b = a ++ c.

(** The channels of a call continue the current channel list: then the library
    leaves out the metadata (writing.rs 17-28, which compares only as many
    channels as the shorter list has). *)
Definition continues (act chans : list str) : Prop :=
  act <> [] /\ (prefix act chans \/ prefix chans act).

(** With [n] values per chunk, [k] values per channel can be stored as they are
    dealt: whole chunks, and no second chunk if the runs of several channels
    alternate in it. *)
Definition chunked (lay : layout) (n k : N) (chans : list str) : Prop :=
  0 < n /\ k mod n = 0 /\ (lay = Interleaved \/ length chans = 1%nat \/ k = n).

(** The call goes on with the current channel list: the formats last given to
    its channels are for values of type [t] and fit the number of values. *)
Definition steady (H : list segment) (t : sty) (lay : layout) (k : N) (chans : list str) : Prop :=
  active_after H = chans
  /\ exists n, chunked lay n k chans
     /\ Forall (fun p => exists d, last_format (all_objs H) p = Some (mkRaw d n None) /\ In d (stored_as t)) chans.

(** A call whose segment describes its own data: the metadata is written, or the
    formats last given do. *)
Definition described_call (H : list segment) (t : sty) (lay : layout) (k : N) (chans : list str) : Prop :=
  ~ continues (active_after H) chans \/ steady H t lay k chans.

(** Next segment goes right after the last byte. *)
Definition exact_end (H : list segment) (F : tfile) : Prop := offset H = lenN (tf_bytes F).

(** ** Programs of write calls *)
Inductive call :=
| CallProps (e : endian) (path : str) (kvs : list (str * pval))
| CallChans (e : endian) (t : sty) (chans : list str) (vs : list (carrier t)) (lay : layout).

Definition do_call (E : env) (F : tfile) (c : call) : tfile * res unit :=
  match c with
  | CallProps e path kvs => write_properties_e E e F path kvs
  | CallChans e t chans vs lay => write_channels_e E e t F chans vs lay
  end.

(** All calls one after the other, and what each returned. *)
Fixpoint run_calls (E : env) (F : tfile) (cs : list call) : tfile * list (res unit) :=
  match cs with
  | [] => (F, [])
  | c :: r => let '(F1, x) := do_call E F c in let '(F2, xs) := run_calls E F1 r in (F2, x :: xs)
  end.

(** Values of a fixed-size type for distinct channels, the same number, not
    zero, for each. *)
Definition good_values (t : sty) (chans : list str) (vs : list (carrier t)) : Prop :=
  fixed t /\ Forall (rust_value t) vs /\ NoDup chans /\ chans <> [] /\ vs <> []
  /\ lenN vs mod lenN chans = 0.

(** The formats the file has for the last channel list: type, values per chunk,
    channels. *)
Definition shape_of := (dtype * N * list str)%type.

(** Each data call either names a channel list that does not continue the
    current one, or the same channels with values the current formats are for. *)
Fixpoint sequenced (prev : option shape_of) (cs : list call) : Prop :=
  match cs with
  | [] => True
  | CallProps _ _ _ :: r => sequenced prev r
  | CallChans _ t chans vs lay :: r =>
    let k := lenN vs / lenN chans in
    good_values t chans vs
    /\ match prev with
       | None => sequenced (Some (natural t, k, chans)) r
       | Some (d, n, chans0) =>
         (~ continues chans0 chans /\ sequenced (Some (natural t, k, chans)) r)
         \/ (chans0 = chans /\ In d (stored_as t) /\ chunked lay n k chans /\ sequenced prev r)
       end
  end.

(** The values of type [t] a call gives to the channel [p]. *)
Inductive gives (t : sty) (p : str) : call -> list (carrier t) -> Prop :=
| gives_props e path kvs : gives t p (CallProps e path kvs) []
| gives_other e t' chans vs lay : ~ In p chans -> gives t p (CallChans e t' chans vs lay) []
| gives_chans e chans vs lay i : nth_error chans i = Some p ->
    gives t p (CallChans e t chans vs lay) (dealt lay (length chans) i vs).

(** The call names the channel [p]. *)
Definition names (p : str) (c : call) : Prop :=
  match c with CallProps _ path _ => path = p | CallChans _ _ chans _ _ => In p chans end.

(** The formats of the channel list of the history [H] are [prev]; 0 values stand
    for formats that are not all the same (as in a file made by another
    program). *)
Definition last_shape (H : list segment) (prev : option shape_of) : Prop :=
  match prev with
  | None => active_after H = []
  | Some (d, k, chans) => active_after H = chans
      /\ (k = 0 \/ Forall (fun p => last_format (all_objs H) p = Some (mkRaw d k None)) chans)
  end.

(** The value of property [name] of [p] after a call, [acc] being that before. *)
Definition prop_call (p name : str) (acc : option pval) (c : call) : option pval :=
  match c with
  | CallProps _ path kvs => if str_eqb p path then fold_left (prop_step name) kvs acc else acc
  | CallChans _ _ _ _ _ => acc
  end.
