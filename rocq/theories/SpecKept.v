(** * Specification of programs that keep everything they write.
      Whatever the values, after every call each channel holds what it held
      before the program and what the calls so far gave to it. *)
From Verif Require Import Base DataTypes MetaData DataBlock Index TdmsFile SpecCodec SpecIndex SpecRead SpecWrite.

(** The same call with other values of the same number. *)
Inductive refill : call -> call -> Prop :=
| refill_props e path kvs : refill (CallProps e path kvs) (CallProps e path kvs)
| refill_chans e t chans vs vs' lay : Forall (rust_value t) vs' -> lenN vs' = lenN vs ->
    refill (CallChans e t chans vs lay) (CallChans e t chans vs' lay).

(** Data calls have proper arguments, and write to each channel values of the
    type [ty] says. *)
Definition sound (ty : str -> sty) (c : call) : Prop :=
  match c with
  | CallProps _ _ _ => True
  | CallChans _ t chans vs _ => good_values t chans vs /\ Forall (fun p => ty p = t) chans
  end.

(** [F1] holds what [F] (with the segments [H]) held and what the calls [past]
    gave: lengths, and the answers to every read. *)
Definition holds_all (E : env) (ty : str -> sty) (H : list segment) (F : tfile) (past : list call) (F1 : tfile) : Prop :=
  forall t p vss, ty p = t -> Forall2 (gives t p) past vss ->
  let all := samples_after (tf_bytes F) t H p ++ concat vss in
  (mentioned (all_objs H) p \/ Exists (names p) past ->
     channel_length E F1 p = Ok (Some (lenN all))
     /\ forall start out, read_channel_from E F1 t p start out
          = (overlay out (firstn (length out) (skipn (N.to_nat start) all)), Ok tt))
  /\ (~ (mentioned (all_objs H) p \/ Exists (names p) past) -> channel_length E F1 p = Ok None).

(** All calls return [Ok], and this holds after each of them. *)
Definition kept (E : env) (ty : str -> sty) (H : list segment) (F : tfile) (cs : list call) : Prop :=
  forall past rest F1 rs, cs = past ++ rest -> run_calls E F past = (F1, rs) ->
  Forall (eq (Ok tt)) rs /\ holds_all E ty H F past F1.

(** The formats of the current channels: all the same, for [n] values of type
    [d] of fixed size; or there are none. *)
Definition exact_shape (H : list segment) (prev : option shape_of) : Prop :=
  match prev with
  | None => active_after H = []
  | Some (d, n, chans) => active_after H = chans /\ 0 < n /\ 0 < width d
      /\ Forall (fun p => last_format (all_objs H) p = Some (mkRaw d n None)) chans
  end.
