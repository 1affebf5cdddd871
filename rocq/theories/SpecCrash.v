(** * Specification of what has reached a file that was cut inside the data of
      a call *)
From Verif Require Import Base DataTypes MetaData DataBlock Index SpecCodec SpecIndex SpecRead SpecWrite.

(** Of [k] values for each of [n] channels, [sz] bytes each, the first [d] bytes
    of data have arrived.  So many values of channel number [i] are complete:
    contiguous data hold all values of one channel after the other, interleaved
    data one value of each in turn. *)
Definition arrived (lay : layout) (n i k sz d : N) : N :=
  match lay with
  | Contigious => N.min k ((d - i * k * sz) / sz)
  | Interleaved => N.min k ((d / sz + n - 1 - i) / n)
  end.
