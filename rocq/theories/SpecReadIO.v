(** * Small specification: reading through a device *)
From Verif Require Import Base MetaData Index TdmsFile SpecIndex ReaderIO.

(** The device never fails. *)
Definition reliable_reader (D : rdevice) : Prop :=
  (forall n len, rd_gives D n len <> None) /\ (forall n, rd_seeks D n = true).

(** Some operation of a run failed because of the device. *)
Definition device_failed (xs : list (res (list byte))) : Prop := In (Err (EIo DeviceError)) xs.

(** [K] are the first segments found in [f] (perhaps not all). *)
Definition first_segments (E : env) (f : list byte) (K : list segment) : Prop :=
  forall i s, nth_error K i = Some s -> segment_read E f (offset (firstn i K)) = Ok s.
