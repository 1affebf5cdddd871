(** * Files on a disk: src/file/mod.rs 36-54

    A disk maps paths to contents.  [File::options] (std) is the only part of the
    operating system used; its errors other than a missing file (permissions,
    directories, a full disk) are not modelled, nor is the kind of the error. *)
From Verif Require Import Base DataTypes MetaData Index RawData TdmsFile.

(** The files that [File::options] opens, file/mod.rs 40 and 46-51. *)
Definition disk := str -> option (list byte).
(** Replacing the contents of one file ([truncate(true)], file/mod.rs 49, and
    writes through an open file, file_writer.rs 53-82). *)
Definition put (p : str) (f : list byte) (d : disk) : disk :=
  fun q => if str_eqb q p then Some f else d q.

(** [TdmsFile::load], file/mod.rs 39-42: without [create(true)] a missing file is
    an error. *)
Definition load (E : env) (d : disk) (p : str) : res tfile :=
  match d p with
  | None => Err (EIo DeviceError)
  | Some f => tdms_new E f
  end.

(** [TdmsFile::create], file/mod.rs 45-53. *)
Definition create (E : env) (d : disk) (p : str) : disk * res tfile :=
  (put p [] d, tdms_new E []).
