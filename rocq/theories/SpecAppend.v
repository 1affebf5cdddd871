(** * Specification of the room a data call needs on any file *)
From Verif Require Import Base DataTypes MetaData DataBlock Index TdmsFile SpecCodec SpecIndex SpecRead SpecWrite SpecExact.

(** The file after the call, and the place where the index expects the data of
    the call to end, can be addressed. *)
Definition roomy (E : env) (e : endian) (H : list segment) (F : tfile) (t : sty) (lay : layout) (k : N)
    (chans : list str) : Prop :=
  forall vs F' r, values_for t k chans vs -> write_channels_e E e t F chans vs lay = (F', r) ->
  addressable E (tf_bytes F')
  /\ offset H + (lenN (tf_bytes F') - lenN (tf_bytes F)) < 2 ^ 63
  /\ offset H + (lenN (tf_bytes F') - lenN (tf_bytes F)) <= seek_max E.

(** Calls that write [k] values to each of [chans] are served, whatever the
    values. *)
Definition all_served (E : env) (e : endian) (H : list segment) (F : tfile) (t : sty) (lay : layout) (k : N)
    (chans : list str) : Prop :=
  forall vs F' r, values_for t k chans vs -> write_channels_e E e t F chans vs lay = (F', r) ->
  served E H F t lay chans vs F' r.
