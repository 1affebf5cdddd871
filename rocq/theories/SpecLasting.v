(** * Specification of programs after which a file can always be closed *)
From Verif Require Import Base DataTypes MetaData DataBlock Index TdmsFile SpecCodec SpecIndex SpecRead SpecWrite.

(** All calls return [Ok], and after each of them opening the bytes of the file
    gives the file as it is. *)
Definition lasting (E : env) (F : tfile) (cs : list call) : Prop :=
  forall past rest F1 rs, cs = past ++ rest -> run_calls E F past = (F1, rs) ->
  Forall (eq (Ok tt)) rs /\ tdms_new E (tf_bytes F1) = Ok F1.

(** The file opens after each of the calls. *)
Definition closable (E : env) (F : tfile) (cs : list call) : Prop :=
  forall past rest F1 rs, cs = past ++ rest -> run_calls E F past = (F1, rs) ->
  exists F2, tdms_new E (tf_bytes F1) = Ok F2.

(** No data call names channels that continue those of the data call before
    ([act] for the first). *)
Fixpoint fresh_lists (act : list str) (cs : list call) : Prop :=
  match cs with
  | [] => True
  | CallProps _ _ _ :: r => fresh_lists act r
  | CallChans _ _ chans _ _ :: r => ~ continues act chans /\ fresh_lists chans r
  end.

(** The arguments of data calls are values of a type of fixed size, equally many
    for each of some different channels. *)
Definition proper (c : call) : Prop :=
  match c with
  | CallProps _ _ _ => True
  | CallChans _ t chans vs _ => good_values t chans vs
  end.
