(** * Sessions: a file is opened and then written through the API.
      Definitions used to state the claims; the calls are those of the model. *)
From Verif Require Import Base DataTypes MetaData DataBlock Index RawData TdmsFile SpecIndex.

(** A call of the API that wrote segment [s], leaving the file [F'] and
    returning [r]. *)
Inductive wrote (E : env) (F : tfile) : segment -> tfile -> res unit -> Prop :=
| wrote_props e path props bs s F' r :
    write_segment e toc_default (Some [mkObj path props RINone]) None = (bs, s) ->
    write_properties_e E e F path props = (F', r) -> wrote E F s F' r
| wrote_chans e t chans vs lay bs s F' r :
    stream_segment e t (tf_ix F) chans vs lay = Ok (bs, s) ->
    write_channels_e E e t F chans vs lay = (F', r) -> wrote E F s F' r.

(** [H]: all segments in the index, those found on opening and those written
    since, when every write that reached the index succeeded.  The bytes of the
    file may have become others in between, without the library knowing: a device
    that failed has taken only a part of a segment, or a dropped writer has lost
    what was in its buffer. *)
Inductive session (E : env) : list segment -> tfile -> Prop :=
| ss_open f F H : file_segments E f H -> tdms_new E f = Ok F -> session E H F
| ss_write H F s F' : session E H F -> wrote E F s F' (Ok tt) -> session E (H ++ [s]) F'
| ss_bytes H F f : session E H F -> session E H (mkTF (tf_ix F) f).

(** The same when writes may have failed half-way. *)
Inductive any_session (E : env) : list segment -> tfile -> Prop :=
| as_open f F H : file_segments E f H -> tdms_new E f = Ok F -> any_session E H F
| as_write H F s F' r : any_session E H F -> wrote E F s F' r -> any_session E (H ++ [s]) F'
| as_bytes H F f : any_session E H F -> any_session E H (mkTF (tf_ix F) f).
