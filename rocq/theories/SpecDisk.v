(** * Programs that open files, write and close them again *)
From Verif Require Import Base DataTypes MetaData Index RawData TdmsFile SpecWrite Disk.

(** One visit to a file: created or loaded, some calls, closed. *)
Record visit := mkVisit { v_new : bool; v_path : str; v_calls : list call }.

Definition do_visit (E : env) (d : disk) (v : visit) : disk :=
  let '(d1, r) := if v_new v then create E d (v_path v) else (d, load E d (v_path v)) in
  match r with
  | Ok F => put (v_path v) (tf_bytes (fst (run_calls E F (v_calls v)))) d1
  | _ => d1
  end.
Definition do_visits (E : env) (d : disk) (vs : list visit) : disk := fold_left (do_visit E) vs d.

(** The calls made on the file [p] since it was last created. *)
Definition lifetime (p : str) (vs : list visit) : option (list call) :=
  fold_left (fun acc v => if str_eqb p (v_path v)
                          then if v_new v then Some (v_calls v) else option_map (fun cs => cs ++ v_calls v) acc
                          else acc) vs None.
