(** * Specification of a data call that is served: what it wrote is what the
      channels contain, and nothing else has changed. *)
From Verif Require Import Base DataTypes MetaData DataBlock Index TdmsFile SpecCodec SpecIndex SpecRead SpecWrite.

(** The call returned [Ok]; each of its channels has the samples it had before
    and those dealt to it, for every reading request; no other channel has become
    longer or shorter. *)
Definition served (E : env) (H : list segment) (F : tfile) (t : sty) (lay : layout) (chans : list str)
    (vs : list (carrier t)) (F' : tfile) (r : res unit) : Prop :=
  r = Ok tt
  /\ (forall i p, nth_error chans i = Some p ->
        let all := samples_after (tf_bytes F) t H p ++ dealt lay (length chans) i vs in
        channel_length E F' p = Ok (Some (lenN all))
        /\ forall start out, read_channel_from E F' t p start out
             = (overlay out (firstn (length out) (skipn (N.to_nat start) all)), Ok tt))
  /\ (forall q, ~ In q chans -> channel_length E F' q = channel_length E F q).

(** Any [k] values of type [t] for each of the channels. *)
Definition values_for (t : sty) (k : N) (chans : list str) (vs : list (carrier t)) : Prop :=
  Forall (rust_value t) vs /\ lenN vs = lenN chans * k.

(** The current channels have fixed-size formats for some values. *)
Definition sized_now (H : list segment) : Prop :=
  Forall (fun m => 0 < rm_n m /\ 0 < width (rm_type m)) (active_formats H).

(** Room for one more segment of [k] values for each of the channels, without
    metadata. *)
Definition room (E : env) (F : tfile) (t : sty) (k : N) (chans : list str) : Prop :=
  lenN (tf_bytes F) + 28 + lenN chans * k * size_bytes t < 2 ^ 63
  /\ lenN (tf_bytes F) + 28 + lenN chans * k * size_bytes t <= seek_max E.
