(** * The index: src/index/mod.rs, building.rs, querying.rs, writing.rs *)
From Verif Require Import Base DataTypes MetaData Maps DataBlock.

(** [DataLocation], index/mod.rs 22-29. *)
Record loc := mkLoc {
  l_block : nat;     (* data_block *)
  l_chan : nat;      (* channel_index *)
  l_n : N }.         (* number_of_samples *)

(** [ObjectData], index/mod.rs 57-62.  [DataFormat] (33-35) has the single
    variant [RawData], so a format is its [rawmeta]. *)
Record objdata := mkOD {
  o_path : str;
  o_props : smap pval;
  o_locs : list loc;
  o_fmt : option rawmeta }.

(** [ActiveObject], index/building.rs 19-22. *)
Record active := mkAct { a_path : str; a_n : N }.

(** [Index], index/mod.rs 117-122. *)
Record index := mkIx {
  ix_active : list active;
  ix_objs : smap objdata;
  ix_blocks : list dblock;
  ix_next : N }.

(** [Index::new], index/mod.rs 125-127. *)
Definition index_new : index := mkIx [] [] [] 0.

(** Assignment to the field [active_objects], building.rs 147-149, 162, 174. *)
Definition set_active (ix : index) a := mkIx a (ix_objs ix) (ix_blocks ix) (ix_next ix).
(** Assignment to the field [objects], building.rs 163-165, 185-189. *)
Definition set_objs (ix : index) o := mkIx (ix_active ix) o (ix_blocks ix) (ix_next ix).
(** Assignment to the field [data_blocks], building.rs 125. *)
Definition set_blocks (ix : index) b := mkIx (ix_active ix) (ix_objs ix) b (ix_next ix).
(** Assignment to the field [next_segment_start], building.rs 97. *)
Definition set_next (ix : index) n := mkIx (ix_active ix) (ix_objs ix) (ix_blocks ix) n.

(** [DataFormat::from_index], index/mod.rs 39-44. *)
Definition fmt_of_idx (x : rawidx) : option rawmeta :=
  match x with RIRaw m => Some m | _ => None end.

(** The property loop of [ObjectData::update], index/mod.rs 83-85. *)
Definition insert_props (ps : list (str * pval)) (m : smap pval) : smap pval :=
  fold_left (fun m p => map_insert (fst p) (snd p) m) ps m.

(** [ObjectData::update], index/mod.rs 82-100.  Returns the updated object even
    on error (the mutation of the properties persists). *)
Definition od_update (od : objdata) (o : objmeta) : objdata * res unit :=
  let props := insert_props (om_props o) (o_props od) in
  match o_fmt od, om_idx o with
  | None, RIMatch => (mkOD (o_path od) props (o_locs od) (o_fmt od), Err ENoPreviousType)
  | fmt, idx =>
    (mkOD (o_path od) props (o_locs od)
          (match fmt_of_idx idx with Some m => Some m | None => fmt end), Ok tt)
  end.

(** [ObjectData::from_metadata], index/mod.rs 66-77. *)
Definition od_from (o : objmeta) : res objdata :=
  let '(od, r) := od_update (mkOD (om_path o) [] [] None) o in
  _x <- r ;; Ok od.

(** [Index::update_meta_object], building.rs 184-197. *)
Definition update_meta_object (ix : index) (o : objmeta) : index * res unit :=
  match map_get (om_path o) (ix_objs ix) with
  | Some od =>
    let '(od', r) := od_update od o in
    (set_objs ix (map_alter (om_path o) (fun _ => od') (ix_objs ix)), r)
  | None =>
    match od_from o with
    | Ok od =>
      (* insert returns the old entry; line 190 asserts there is none *)
      match map_get (o_path od) (ix_objs ix) with
      | None => (set_objs ix (map_insert (o_path od) od (ix_objs ix)), Ok tt)
      | Some _ => (ix, Panic PAssert)
      end
    | Err e => (ix, Err e)
    | Panic p => (ix, Panic p)
    | Diverge => (ix, Diverge)
    end
  end.

(** [Index::channel_format], building.rs 202-206. *)
Definition channel_format (ix : index) (path : str) : option rawmeta :=
  match map_get path (ix_objs ix) with
  | Some od => o_fmt od
  | None => None
  end.

(** [ActiveObject::update], building.rs 36-40. *)
Definition act_update (a : active) (o : objmeta) : active :=
  match om_idx o with
  | RIRaw m => mkAct (a_path a) (rm_n m)
  | _ => a
  end.

(** Is there an active object with this path?  building.rs 155-158. *)
Definition is_active (path : str) (l : list active) : bool :=
  existsb (fun a => str_eqb (a_path a) path) l.

(** Update the first matching active object in place (the mutable reference
    found at building.rs 155-158 and updated at 162). *)
Fixpoint update_active (o : objmeta) (l : list active) : list active :=
  match l with
  | [] => []
  | a :: r => if str_eqb (a_path a) (om_path o) then act_update a o :: r
              else a :: update_active o r
  end.

(** [Index::update_or_activate_data_object], building.rs 154-179. *)
Definition update_or_activate (ix : index) (o : objmeta) : index * res unit :=
  if is_active (om_path o) (ix_active ix) then
    let ix1 := set_active ix (update_active o (ix_active ix)) in
    match map_get (om_path o) (ix_objs ix1) with
    | Some od =>
      let '(od', r) := od_update od o in
      (set_objs ix1 (map_alter (om_path o) (fun _ => od') (ix_objs ix1)), r)
    | None => (ix1, Panic PExpect)   (* get_object_data_mut, building.rs 50-54 *)
    end
  else
    match update_meta_object ix o with
    | (ix1, Ok _) =>
      match channel_format ix1 (om_path o) with
      | Some m => (set_active ix1 (ix_active ix1 ++ [mkAct (om_path o) (rm_n m)]), Ok tt)
      | None => (ix1, Panic PExpect)  (* building.rs 170-172 *)
      end
    | (ix1, r) => (ix1, r)
    end.

(** The object loop of [add_segment], building.rs 73-80. *)
Fixpoint add_objects (ix : index) (objs : list objmeta) : index * res unit :=
  match objs with
  | [] => (ix, Ok tt)
  | o :: r =>
    match (match om_idx o with
           | RINone => update_meta_object ix o
           | _ => update_or_activate ix o
           end) with
    | (ix1, Ok _) => add_objects ix1 r
    | (ix1, f) => (ix1, f)
    end
  end.

(** [Index::get_active_raw_data_meta], building.rs 104-117; both [expect]s are
    explicit. *)
Fixpoint active_metas (objs : smap objdata) (l : list active) : res (list rawmeta) :=
  match l with
  | [] => Ok []
  | a :: r =>
    match map_get (a_path a) objs with
    | None => Panic PExpect
    | Some od =>
      match o_fmt od with
      | None => Panic PExpect
      | Some m => ms <- active_metas objs r ;; Ok (m :: ms)
      end
    end
  end.

(** [ObjectData::add_data_location], index/mod.rs 103-105. *)
Definition add_loc (l : loc) (od : objdata) : objdata :=
  mkOD (o_path od) (o_props od) (o_locs od ++ [l]) (o_fmt od).

(** The loop of [insert_data_block], building.rs 127-140. *)
Fixpoint insert_locs (objs : smap objdata) (block : nat) (chunks : N) (i : nat)
         (l : list active) : smap objdata * res unit :=
  match l with
  | [] => (objs, Ok tt)
  | a :: r =>
    match checked_mul (a_n a) chunks with
    | None => (objs, Err EChunkSizeOverflow)
    | Some n =>
      match map_get (a_path a) objs with
      | None => (objs, Panic PExpect)
      | Some _ =>
        insert_locs (map_alter (a_path a) (add_loc (mkLoc block i n)) objs)
                    block chunks (S i) r
      end
    end
  end.

(** [Index::insert_data_block], building.rs 119-142. *)
Definition insert_data_block (ix : index) (b : dblock) : index * res unit :=
  match number_of_chunks b with
  | Ok chunks =>
    let '(objs, r) := insert_locs (ix_objs ix) (length (ix_blocks ix)) chunks 0
                                  (ix_active ix) in
    (mkIx (ix_active ix) objs (ix_blocks ix ++ [b]) (ix_next ix), r)
  | f => (ix, recast f)
  end.

(** The raw-data part of [add_segment], building.rs 82-93. *)
Definition add_raw (E : env) (ix : index) (s : segment) : index * res unit :=
  match active_metas (ix_objs ix) (ix_active ix) with
  | Ok [] => (ix, Err ESegmentTocDataBlockWithoutDataChannels)
  | Ok ms =>
    match from_segment E s (ix_next ix) ms with
    | Ok b => insert_data_block ix b
    | f => (ix, recast f)
    end
  | f => (ix, recast f)
  end.

(** [Index::add_segment], building.rs 64-101.  The index is returned also on
    failure: the mutations made before the failure persist. *)
Definition add_segment (E : env) (ix : index) (s : segment) : index * res N :=
  let ix0 := if toc_newlist (sg_toc s) then set_active ix [] else ix in
  match (match sg_meta s with Some objs => add_objects ix0 objs | None => (ix0, Ok tt) end) with
  | (ix1, Ok _) =>
    match (if toc_raw (sg_toc s) then add_raw E ix1 s else (ix1, Ok tt)) with
    | (ix2, Ok _) =>
      match total_size_bytes s with
      | Ok size =>
        match checked_add (ix_next ix2) size with
        | Some n => (set_next ix2 n, Ok n)
        | None => (ix2, Err ESegmentAddressOverflow)
        end
      | f => (ix2, recast f)
      end
    | (ix2, f) => (ix2, recast f)
    end
  | (ix1, f) => (ix1, recast f)
  end.

(** ** Queries, index/mod.rs 129-181 *)

(** [Index::get_object_properties], index/mod.rs 132-139. *)
Definition get_object_properties (ix : index) (path : str) : option (list (str * pval)) :=
  match map_get path (ix_objs ix) with
  | Some od => Some (o_props od)
  | None => None
  end.

(** [Index::get_object_property], index/mod.rs 145-158. *)
Definition get_object_property (ix : index) (path name : str) : res (option pval) :=
  match map_get path (ix_objs ix) with
  | Some od => Ok (map_get name (o_props od))
  | None => Err (EMissingObject path)
  end.

(** [Index::get_channel_data_positions], index/mod.rs 160-164. *)
Definition get_positions (ix : index) (path : str) : option (list loc) :=
  match map_get path (ix_objs ix) with
  | Some od => Some (o_locs od)
  | None => None
  end.

(** [Index::channel_length], index/mod.rs 169-177: the sum panics or wraps on
    overflow. *)
Definition ix_channel_length (E : env) (ix : index) (path : str) : res (option N) :=
  match map_get path (ix_objs ix) with
  | Some od => n <- usum E (map l_n (o_locs od)) ;; Ok (Some n)
  | None => Ok None
  end.

(** [Index::get_data_block], index/mod.rs 179-181. *)
Definition get_data_block (ix : index) (i : nat) : option dblock :=
  nth_error (ix_blocks ix) i.

(** [Index::all_paths], querying.rs 18-20. *)
Definition all_paths (ix : index) : list str := map_keys (ix_objs ix).

(** [Index::paths_starting_with], querying.rs 25-37. *)
Definition paths_starting_with (ix : index) (path : str) : list str :=
  take_while (is_prefix path) (map fst (map_range_from path (ix_objs ix))).

(** Equality of [Option<u64>] (field [total_size_bytes], meta_data.rs 333). *)
Definition optN_eqb (a b : option N) : bool :=
  match a, b with
  | None, None => true
  | Some x, Some y => x =? y
  | _, _ => false
  end.
(** Equality of formats (derived [PartialEq] of RawDataMeta, meta_data.rs 328). *)
Definition rawmeta_eqb (a b : rawmeta) : bool :=
  dtype_eqb (rm_type a) (rm_type b) && (rm_n a =? rm_n b)
  && optN_eqb (rm_total a) (rm_total b).

(** The zip/fold of [check_write_values], writing.rs 18-23: compares only as
    many entries as the shorter list has. *)
Fixpoint zip_match (act : list active) (objs : list (str * rawmeta)) : bool :=
  match act, objs with
  | a :: act', o :: objs' => str_eqb (a_path a) (fst o) && zip_match act' objs'
  | _, _ => true
  end.

(** [Index::check_write_values], writing.rs 13-45. *)
Definition check_write_values (ix : index) (objs : list (str * rawmeta))
  : bool * list (str * rawidx) :=
  (match ix_active ix with
   | [] => false
   | _ => zip_match (ix_active ix) objs
   end,
   map (fun o =>
          match channel_format ix (fst o) with
          | Some last => if rawmeta_eqb last (snd o) then (fst o, RIMatch)
                         else (fst o, RIRaw (snd o))
          | None => (fst o, RIRaw (snd o))
          end) objs).
