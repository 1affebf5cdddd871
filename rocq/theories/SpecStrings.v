(** * Specification: sizes that reads reckon with, and string channels as the
      TDMS format describes them *)
From Verif Require Import Base DataTypes MetaData DataBlock Index SpecIndex SpecSession SpecRead.

(** Bytes a value of type [d] is taken for when read as [t].  (A notion of the
    statement; the sizes concerned are those of records.rs 26-31.) *)
Definition wide (t : sty) (d : dtype) : N := if supports t d then size_bytes t else dtype_size d.
(** The same for a chunk and for a row of the channels [ms].  (Notions of the
    statement.) *)
Definition wide_chunk (t : sty) (ms : list rawmeta) : N := fold_right (fun m a => rm_n m * wide t (rm_type m) + a) 0 ms.
Definition wide_row (t : sty) (ms : list rawmeta) : N := fold_right (fun m a => wide t (rm_type m) + a) 0 ms.

(** A block whose sizes the machine can reckon with; where overflow is checked
    also the products. *)
Definition reckonable (E : env) (t : sty) (b : dblock) : Prop :=
  match b_layout b with
  | Contigious => wide_chunk t (b_chans b) < 2 ^ 64
      /\ (overflow_checks E = true -> Forall (fun m => rm_n m * wide t (rm_type m) < 2 ^ 63) (b_chans b))
  | Interleaved => wide_row t (b_chans b) < 2 ^ 64
      /\ (overflow_checks E = true ->
          Forall (fun m => rm_n m * whole_chunks b * wide_row t (b_chans b) < 2 ^ 63) (b_chans b))
  end.

(** The raw data index of a string channel with [n] values that take [total]
    bytes: 28 bytes long and with the total size at its end ("TDMS File Format
    Internal Structure", raw data index). *)
Definition string_index (e : endian) (n total : N) : list byte :=
  enc_uint e 4 28 ++ enc_uint e 4 32 ++ enc_uint e 4 1 ++ enc_uint e 8 n ++ enc_uint e 8 total.
(** An object with such an index, its path and its properties. *)
Definition string_object (e : endian) (path : str) (n total : N) (props : list (str * pval)) : list byte :=
  enc e SStr path ++ string_index e n total ++ enc_uint e 4 (lenN props) ++ concat (map (write_prop e) props).
