(** * Specification of writing through a device that may fail. *)
From Verif Require Import Base DataTypes MetaData DataBlock Index TdmsFile WriterIO SpecWrite.

(** What a program does with a writer: a call, [sync], or dropping the writer
    and asking for a new one. *)
Inductive io_op := IoCall (c : call) | IoSync | IoNew.

Definition do_op (E : env) (D : device) (cap : N) (s : wstate) (o : io_op)
  : wstate * res unit :=
  match o with
  | IoCall (CallProps e path kvs) => write_properties_io E D cap e s path kvs
  | IoCall (CallChans e t chans vs lay) => write_channels_io E D cap e t s chans vs lay
  | IoSync => sync_io D s
  | IoNew => (new_writer_io D s, Ok tt)
  end.

Fixpoint run_ops (E : env) (D : device) (cap : N) (s : wstate) (ops : list io_op)
  : wstate * list (res unit) :=
  match ops with
  | [] => (s, [])
  | o :: r =>
    let '(s1, x) := do_op E D cap s o in
    let '(s2, xs) := run_ops E D cap s1 r in (s2, x :: xs)
  end.

(** The calls among the operations, and their results among the results. *)
Fixpoint calls_of (ops : list io_op) : list call :=
  match ops with
  | [] => []
  | IoCall c :: r => c :: calls_of r
  | _ :: r => calls_of r
  end.
Fixpoint call_results (ops : list io_op) (xs : list (res unit)) : list (res unit) :=
  match ops, xs with
  | IoCall _ :: r, x :: xs' => x :: call_results r xs'
  | _ :: r, _ :: xs' => call_results r xs'
  | _, _ => []
  end.

(** A device that never refuses: it takes at least one byte whenever some are
    offered. *)
Definition reliable (D : device) : Prop :=
  (forall n l, 0 < l -> exists k, dv_takes D n l = Some k /\ 0 < k)
  /\ (forall n, dv_flushes D n = true).

(** The operation failed because of the device. *)
Definition device_error (x : res unit) : Prop := x = Err (EIo DeviceError).

(** No call failed because of the device, and no writer was dropped with bytes in
    its buffer: every drop comes right after a successful [sync] (or after
    getting the writer, [clean true]). *)
Fixpoint clean (empty : bool) (ops : list io_op) (xs : list (res unit)) : Prop :=
  match ops, xs with
  | IoCall _ :: r, x :: xs' => ~ device_error x /\ clean false r xs'
  | IoSync :: r, x :: xs' => clean (is_ok x) r xs'
  | IoNew :: r, _ :: xs' => empty = true /\ clean true r xs'
  | _, _ => True
  end.

(** The bytes handed to the writer so far. *)
Definition handed (s : wstate) : list byte := dv_bytes (bw_dev (ws_w s)) ++ bw_buf (ws_w s).
(** The bytes on the device. *)
Definition on_device (s : wstate) : list byte := dv_bytes (bw_dev (ws_w s)).
(** The bytes on the device once the writer is dropped. *)
Definition after_drop (D : device) (s : wstate) : list byte := dv_bytes (bw_drop D (ws_w s)).

(** The writer works on a file: same index, the bytes handed over are the file's,
    and the buffer is within its capacity. *)
Definition writes_to (cap : N) (s : wstate) (F : tfile) : Prop :=
  ws_ix s = tf_ix F /\ handed s = tf_bytes F /\ lenN (bw_buf (ws_w s)) <= cap.

(** A writer as [TdmsFile::writer] makes it, on the device holding a file. *)
Definition fresh_writer (F : tfile) : wstate :=
  mkWS (tf_ix F) (mkBufw (mkDev (tf_bytes F) 0) []).
