(** * Specification of copying a file through the library.
      A program that opens a file, asks for the properties and all values of
      every object and writes them to another file. *)
From Verif Require Import Base DataTypes Paths MetaData DataBlock Index RawData TdmsFile SpecIndex SpecRead SpecWrite.

(** The properties of the object [p], in one call. *)
Definition copy_props (ord : str -> endian) (F : tfile) (p : str) : list call :=
  match read_all_properties F p with Some kvs => [CallProps (ord p) p kvs] | None => [] end.
(** The values of the channel [p], read as the type [ty p] into a buffer of the
    reported length and written in one call; nothing if there are none. *)
Definition copy_data (E : env) (ord : str -> endian) (lay : str -> layout) (ty : str -> sty)
           (blank : forall t, carrier t) (F : tfile) (p : str) : list call :=
  match channel_length E F p with
  | Ok (Some n) =>
    if n =? 0 then []
    else [CallChans (ord p) (ty p) [p] (fst (read_channel E F (ty p) p (repeat (blank (ty p)) (N.to_nat n)))) (lay p)]
  | _ => []
  end.
Definition copy (E : env) (ord : str -> endian) (lay : str -> layout) (ty : str -> sty)
           (blank : forall t, carrier t) (F : tfile) (paths : list str) : list call :=
  flat_map (copy_props ord F) paths ++ flat_map (copy_data E ord lay ty blank F) paths.

(** The paths to copy as the library tells them: the file, the groups it lists,
    and the channels it lists in each. *)
Definition listed (F : tfile) : list str :=
  path_file :: match list_groups F with
    | Ok gs => map path_group gs
               ++ flat_map (fun g => match list_channels_in_group F (path_group g) with Ok l => l | _ => [] end) gs
    | _ => []
    end.

(** Two files give the same answers: objects and their names, properties,
    lengths, and reads of each channel as the type [ty] says. *)
Definition same_contents (E : env) (ty : str -> sty) (F F' : tfile) : Prop :=
  list_groups F' = list_groups F
  /\ (forall s, list_channels_in_group F' s = list_channels_in_group F s)
  /\ (forall p n, read_property F' p n = read_property F p n)
  /\ (forall p, read_all_properties F' p = read_all_properties F p)
  /\ (forall p, channel_length E F' p = channel_length E F p)
  /\ (forall p start out, read_channel_from E F' (ty p) p start out = read_channel_from E F (ty p) p start out).

(** Memory is granted for one object, and for its properties, which are not more
    than the format can count. *)
Definition enough_room (E : env) (F : tfile) : Prop :=
  alloc_ok E AObjects 1 = true /\ alloc_ok E AProps 0 = true
  /\ forall p kvs, read_all_properties F p = Some kvs -> lenN kvs < 2 ^ 32 /\ alloc_ok E AProps (lenN kvs) = true.
