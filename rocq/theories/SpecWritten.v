(** * What the library writes, byte by byte.
      Stricter than the grammar of what it reads ([SpecGrammar]); the model's
      writing functions are not used. *)
From Verif Require Import Base DataTypes MetaData Index TdmsFile SpecCodec SpecIndex SpecWrite SpecGrammar.

(** A 32-bit length and the bytes. *)
Definition string_bytes (e : endian) (s : str) (bs : list byte) : Prop :=
  exists l, bs = l ++ s /\ number e 4 (lenN s) l.
(** Two numbers. *)
Definition pair_bytes (e : endian) (w : nat) (c : N * N) (bs : list byte) : Prop :=
  exists a b, bs = a ++ b /\ number e w (fst c) a /\ number e w (snd c) b.

(** One sample of a channel. *)
Definition sample_bytes (e : endian) (t : sty) : carrier t -> list byte -> Prop :=
  match t return carrier t -> list byte -> Prop with
  | SI8 => signed e 1 | SI16 => signed e 2 | SI32 => signed e 4 | SI64 => signed e 8
  | SU8 => number e 1 | SU16 => number e 2 | SU32 => number e 4 | SU64 => number e 8
  | SF32 => number e 4 | SF64 => number e 8
  | SBool => fun b bs => bs = [if b then x01 else x00]
  | SExt => number e 10
  | SStr => string_bytes e
  | SC32 => pair_bytes e 4 | SC64 => pair_bytes e 8
  | STime => number e 16
  end.

(** The value of a property. *)
Definition pvalue_bytes (e : endian) (p : pval) : list byte -> Prop :=
  match p with
  | PVoid => fun bs => bs = []
  | PBoolean b => sample_bytes e SBool b
  | PI8 z => sample_bytes e SI8 z | PI16 z => sample_bytes e SI16 z
  | PI32 z => sample_bytes e SI32 z | PI64 z => sample_bytes e SI64 z
  | PU8 n => sample_bytes e SU8 n | PU16 n => sample_bytes e SU16 n
  | PU32 n => sample_bytes e SU32 n | PU64 n => sample_bytes e SU64 n
  | PSingle n => sample_bytes e SF32 n | PDouble n => sample_bytes e SF64 n
  | PExtended n => sample_bytes e SExt n
  | PString s => sample_bytes e SStr s
  | PComplexSingle c => sample_bytes e SC32 c | PComplexDouble c => sample_bytes e SC64 c
  | PTimestamp n => sample_bytes e STime n
  end.
(** A property: name, type code, value. *)
Definition prop_bytes (e : endian) (p : str * pval) (bs : list byte) : Prop :=
  exists n c v, bs = n ++ c ++ v /\ string_bytes e (fst p) n /\ type_code e (pval_dtype (snd p)) c
    /\ pvalue_bytes e (snd p) v.

(** A raw data index: length 20, type, dimension 1, number of values. *)
Definition index_bytes (e : endian) (x : rawidx) (bs : list byte) : Prop :=
  match x with
  | RINone => number e 4 (2 ^ 32 - 1) bs
  | RIMatch => number e 4 0 bs
  | RIRaw m => exists l c d n, bs = l ++ c ++ d ++ n /\ number e 4 20 l /\ type_code e (rm_type m) c
                 /\ number e 4 1 d /\ number e 8 (rm_n m) n
  end.
Definition obj_bytes (e : endian) (o : objmeta) (bs : list byte) : Prop :=
  exists p i n q, bs = p ++ i ++ n ++ q /\ string_bytes e (om_path o) p /\ index_bytes e (om_idx o) i
    /\ number e 4 (lenN (om_props o)) n /\ items (prop_bytes e) (om_props o) q.
Definition objs_bytes (e : endian) (os : list objmeta) (bs : list byte) : Prop :=
  exists n q, bs = n ++ q /\ number e 4 (lenN os) n /\ items (obj_bytes e) os q.

(** "TDSm", flags (little endian), version 4713, length of the rest of the
    segment, length of the metadata.  (Both are sizes of things in memory, so
    the reduction to 64 bits changes nothing on a real machine.) *)
Definition lead_bytes (e : endian) (toc next raw : N) (bs : list byte) : Prop :=
  exists t v n r, bs = [x54; x44; x53; x6d] ++ t ++ v ++ n ++ r
    /\ number LittleE 4 toc t /\ number e 4 4713 v /\ number e 8 (next mod 2 ^ 64) n /\ number e 8 (raw mod 2 ^ 64) r.

(** Flags: metadata 2, new list 4, raw data 8, interleaved 32, big endian 64. *)
Definition order_flag (e : endian) : N := match e with BigE => 64 | LittleE => 0 end.
Definition layout_flag (lay : layout) : N := match lay with Interleaved => 32 | Contigious => 0 end.

(** How a call says the format of a channel, after the segments [H]: "as
    before" when the last format given to the channel is the same. *)
Definition said (H : list segment) (m : rawmeta) (c : str) (o : objmeta) : Prop :=
  om_path o = c /\ om_props o = []
  /\ (last_format (all_objs H) c = Some m -> om_idx o = RIMatch)
  /\ (last_format (all_objs H) c <> Some m -> om_idx o = RIRaw m).

(** A call of [write_channels] after [H]: without metadata when it continues
    the active channels, else with an object for each channel; then the
    samples.  The announced length counts a sample by its size in memory. *)
Definition data_call (e : endian) (t : sty) (H : list segment) (chans : list str)
    (vs : list (carrier t)) (lay : layout) (bs : list byte) : Prop :=
  exists lead md data, bs = lead ++ md ++ data
    /\ items (sample_bytes e t) vs data
    /\ let next := lenN md + lenN vs * size_bytes t in
       (continues (active_after H) chans /\ md = []
        /\ lead_bytes e (8 + layout_flag lay + order_flag e) next 0 lead
        \/ ~ continues (active_after H) chans
        /\ (exists os, Forall2 (said H (mkRaw (natural t) (lenN vs / lenN chans) None)) chans os
                       /\ objs_bytes e os md)
        /\ lead_bytes e (2 + 4 + 8 + layout_flag lay + order_flag e) next (lenN md) lead).

(** A call of [write_properties]. *)
Definition property_call (e : endian) (path : str) (kvs : list (str * pval)) (bs : list byte) : Prop :=
  exists lead md, bs = lead ++ md /\ objs_bytes e [mkObj path kvs RINone] md
    /\ lead_bytes e (2 + order_flag e) (lenN md) (lenN md) lead.

(** A property whose name and value have a form in the file. *)
Definition writable_prop (p : str * pval) : Prop :=
  lenN (fst p) < 2 ^ 32 /\ rust_pval (snd p) /\ storable_pval (snd p).
