(** * Specification of a session whose device fails now and then. *)
From Verif Require Import Base DataTypes MetaData DataBlock Index TdmsFile SpecCodec SpecIndex SpecRead SpecWrite SpecLocal SpecIO.

(** What a run of operations with the results [xs] makes of the file, whatever the
    device does.  [left]: the number of bytes that calls left in the file or in
    the buffer although they failed because of the device.  [lost]: the number of
    bytes that dropped writers did not get onto the device. *)
Inductive goes (E : env) : tfile -> list io_op -> list (res unit) -> tfile -> N -> N -> Prop :=
| goes_end F : goes E F [] [] F 0 0
| goes_done F c F1 x ops xs F' left lost :
    do_call E F c = (F1, x) -> ~ device_error x -> goes E F1 ops xs F' left lost ->
    goes E F (IoCall c :: ops) (x :: xs) F' left lost
| goes_failed F c p q x ops xs F' left lost :
    tf_bytes (fst (do_call E F c)) = tf_bytes F ++ p ++ q -> device_error x ->
    goes E (mkTF (tf_ix F) (tf_bytes F ++ p)) ops xs F' left lost ->
    goes E F (IoCall c :: ops) (x :: xs) F' (lenN p + left) lost
| goes_sync F x ops xs F' left lost :
    goes E F ops xs F' left lost -> goes E F (IoSync :: ops) (x :: xs) F' left lost
| goes_new F f g x ops xs F' left lost :
    tf_bytes F = f ++ g -> goes E (mkTF (tf_ix F) f) ops xs F' left lost ->
    goes E F (IoNew :: ops) (x :: xs) F' left (lenN g + lost).

(** The calls are of properties, or of values of a fixed size. *)
Definition sized_op (o : io_op) : Prop :=
  match o with IoCall (CallChans _ t _ _ _) => fixed t | _ => True end.
(** The operation succeeded, or it failed because of the device. *)
Definition ok_or_device (x : res unit) : Prop := x = Ok tt \/ device_error x.

(** The number of calls that succeeded. *)
Fixpoint succeeded (ops : list io_op) (xs : list (res unit)) : nat :=
  match ops, xs with
  | IoCall _ :: ops', x :: xs' => (if is_ok x then 1 else 0) + succeeded ops' xs'
  | _ :: ops', _ :: xs' => succeeded ops' xs'
  | _, _ => 0%nat
  end.
