(** * Specification of reads from files whose data end early.
      Where the samples of a channel would be, and which of these places the
      file still holds, stated without the reading functions. *)
From Verif Require Import Base DataTypes MetaData DataBlock Index SpecIndex SpecRead SpecLocal.

(** The places (byte order and address) of the samples of a location. *)
Definition loc_places (bs : list dblock) (l : loc) : list (endian * N) :=
  match nth_error bs (l_block l) with
  | Some b => map (fun k => (b_order b, sample_addr b (l_chan l) (N.of_nat k))) (seq 0 (N.to_nat (l_n l)))
  | None => []
  end.

(** The places of all samples of [path], in order. *)
Definition places_after (H : list segment) (path : str) : list (endian * N) :=
  concat (map (loc_places (blocks_after H)) (locs_after H path)).

(** All bytes of the sample at place [q] are in the file. *)
Definition present (f : list byte) (t : sty) (q : endian * N) : bool := snd q + size_bytes t <=? lenN f.

(** The value at place [q]. *)
Definition value_at (f : list byte) (t : sty) (q : endian * N) : carrier t :=
  elem (fst q) t (slice f (snd q) (size_bytes t)).

(** The longest prefix whose elements all satisfy [P]. *)
Fixpoint while {A} (P : A -> bool) (l : list A) : list A :=
  match l with
  | [] => []
  | x :: r => if P x then x :: while P r else []
  end.

(** The sample behind a window of [n] samples from sample [s] on, if the window
    ends inside an interleaved block: the reader fetches it too, before it
    notices that the buffer is full. *)
Fixpoint behind (bs : list dblock) (ls : list loc) (s n : N) : list (endian * N) :=
  match ls with
  | [] => []
  | l :: r =>
    if l_n l <=? s then behind bs r (s - l_n l) n
    else if n <=? l_n l - s then
      match nth_error bs (l_block l) with
      | Some b =>
        match b_layout b with
        | Interleaved =>
          if (0 <? n) && (n <? l_n l - s) then [(b_order b, sample_addr b (l_chan l) (s + n))] else []
        | Contigious => []
        end
      | None => []
      end
    else behind bs r 0 (n - (l_n l - s))
  end.

(** Like [whole_block], but the chunks need not be in the file; it is enough
    that a stream can address them. *)
Definition even_block (E : env) (b : dblock) : Prop :=
  exists n c, 0 < n /\ 0 < c /\ b_chans b <> []
     /\ Forall (fun m => rm_n m = n /\ 0 < width (rm_type m)) (b_chans b)
     /\ chunks b c
     /\ b_start b + c * sub_bytes (b_chans b) < 2 ^ 63
     /\ b_start b + c * sub_bytes (b_chans b) <= seek_max E.

(** The location [l] is in such a block and is declared to hold values of type
    [t]. *)
Definition laid_out (E : env) (t : sty) (H : list segment) (l : loc) : Prop :=
  exists b m, nth_error (blocks_after H) (l_block l) = Some b /\ even_block E b
    /\ nth_error (b_chans b) (l_chan l) = Some m /\ In (rm_type m) (stored_as t).
