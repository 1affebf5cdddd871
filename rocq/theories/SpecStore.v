(** * Specification of the library as a plain store.
      Whatever was asked and written before, an answer depends only on what the
      file held when it was opened and on the calls that wrote something since:
      these are kept as a list, and the answers are described on that list,
      without bytes, segments or an index. *)
From Verif Require Import Base DataTypes Paths MetaData DataBlock Index RawData TdmsFile Maps_proofs
  SpecCodec SpecIndex SpecPaths SpecRead SpecWrite SpecLocal.

(** ** Programs that use the library: writes, queries, reads, and closing and
    opening the file. *)
Inductive op :=
| OpCall (c : call)
| OpClose
| OpProp (p n : str)
| OpProps (p : str)
| OpLength (p : str)
| OpGroups
| OpChannels (g : str)
| OpRead (t : sty) (p : str) (start : N) (out : list (carrier t))
| OpReads (t : sty) (chans : list str) (outs : list (list (carrier t))).

Inductive answer :=
| AnDone (r : res unit)
| AnProp (r : res (option pval))
| AnProps (o : option (list (str * pval)))
| AnLength (r : res (option N))
| AnNames (r : res (list str))
| AnRead (t : sty) (out : list (carrier t)) (r : res unit)
| AnReads (t : sty) (outs : list (list (carrier t))) (r : res unit).

(** What the library does.  [OpClose]: the file is dropped and its bytes are
    opened again. *)
Definition do_op (E : env) (F : tfile) (o : op) : tfile * answer :=
  match o with
  | OpCall c => let '(F', r) := do_call E F c in (F', AnDone r)
  | OpClose => match tdms_new E (tf_bytes F) with
               | Ok F' => (F', AnDone (Ok tt))
               | r => (F, AnDone (recast r))
               end
  | OpProp p n => (F, AnProp (read_property F p n))
  | OpProps p => (F, AnProps (read_all_properties F p))
  | OpLength p => (F, AnLength (channel_length E F p))
  | OpGroups => (F, AnNames (list_groups F))
  | OpChannels g => (F, AnNames (list_channels_in_group F (path_group g)))
  | OpRead t p start out => let '(o, r) := read_channel_from E F t p start out in (F, AnRead t o r)
  | OpReads t chans outs => let '(o, r) := read_channels E F t chans outs in (F, AnReads t o r)
  end.
Fixpoint run_ops (E : env) (F : tfile) (os : list op) : tfile * list answer :=
  match os with
  | [] => (F, [])
  | o :: r => let '(F1, x) := do_op E F o in let '(F2, xs) := run_ops E F1 r in (F2, x :: xs)
  end.

(** ** The store *)
(** Calls with impossible arguments are refused and leave nothing. *)
Definition refusal (c : call) : option terr :=
  match c with
  | CallProps _ _ _ => None
  | CallChans _ _ chans vs _ =>
    match chans with
    | [] => Some ENoChannels
    | _ => if lenN vs mod lenN chans =? 0 then None else Some (EBadDataBlockLength (lenN vs) (lenN chans))
    end
  end.
Definition remember (past : list call) (o : op) : list call :=
  match o with
  | OpCall c => match refusal c with None => past ++ [c] | Some _ => past end
  | _ => past
  end.

(** What a file held when it was opened: its objects, their properties, the
    values of its channels, and the shape of its last data. *)
Record origin := mkOrigin {
  o_named : str -> Prop;
  o_prop : str -> str -> option pval;
  o_holds : forall t : sty, str -> list (carrier t) -> Prop;
  o_shape : option shape_of }.
Definition nothing : origin := mkOrigin (fun _ => False) (fun _ _ => None) (fun _ _ vs => vs = []) None.
(** The file of bytes [f] with the segments [H]. *)
Definition origin_of (f : list byte) (H : list segment) (sh : option shape_of) : origin :=
  mkOrigin (mentioned (all_objs H)) (last_prop (all_objs H))
           (fun t p vs => stored f t H p /\ vs = samples_after f t H p) sh.
Definition o_chans (o : origin) : list str := match o_shape o with Some (_, _, chans) => chans | None => [] end.

(** [p] is in the file, from before or because a call named it. *)
Definition named (o : origin) (past : list call) (p : str) : Prop := o_named o p \/ Exists (names p) past.
(** The property last given. *)
Definition last_told (o : origin) (past : list call) (p n : str) : option pval := fold_left (prop_call p n) past (o_prop o p n).
(** All values of [p], those from before and those given since, all of them of type [t]. *)
Definition holds (o : origin) (past : list call) (t : sty) (p : str) (vs : list (carrier t)) : Prop :=
  exists vs0 vss, o_holds o t p vs0 /\ Forall2 (gives t p) past vss /\ vs = vs0 ++ concat vss.
(** Only well-formed paths were used. *)
Definition tidy (o : origin) (past : list call) : Prop := forall p, named o past p -> canonical p.

Definition expected (og : origin) (past : list call) (o : op) (a : answer) : Prop :=
  match o with
  | OpCall c => a = AnDone (match refusal c with None => Ok tt | Some x => Err x end)
  | OpClose => a = AnDone (Ok tt)
  | OpProp p n =>
    (named og past p -> a = AnProp (Ok (last_told og past p n)))
    /\ (~ named og past p -> a = AnProp (Err (EMissingObject p)))
  | OpProps p =>
    (named og past p -> exists l, a = AnProps (Some l) /\ NoDup (map fst l)
                               /\ forall n v, In (n, v) l <-> last_told og past p n = Some v)
    /\ (~ named og past p -> a = AnProps None)
  | OpLength p =>
    (forall t vs, named og past p -> fixed t -> holds og past t p vs -> lenN vs < 2 ^ 64 -> a = AnLength (Ok (Some (lenN vs))))
    /\ (~ named og past p -> a = AnLength (Ok None))
  | OpGroups =>
    tidy og past -> exists l, a = AnNames (Ok l) /\ sorted l
                           /\ forall g, In g l <-> exists p, named og past p /\ group_of p g
  | OpChannels g =>
    tidy og past -> noslash g ->
    exists l, a = AnNames (Ok l) /\ sorted l
              /\ forall x, In x l <-> named og past x /\ exists c, noslash c /\ x = path_channel g c
  | OpRead t p start out =>
    (forall vs, named og past p -> fixed t -> holds og past t p vs ->
       a = AnRead t (overlay out (firstn (length out) (skipn (N.to_nat start) vs))) (Ok tt))
    /\ (forall t' vs, named og past p -> fixed t' -> holds og past t' p vs -> start < lenN vs -> out <> [] ->
          (forall d, In d (stored_as t') -> ~ In d (stored_as t)) ->
          exists d, In d (stored_as t') /\ a = AnRead t out (Err (EDataTypeMismatch d (natural t))))
    /\ (~ named og past p -> a = AnRead t out (Err (EMissingObject p)))
  | OpReads t chans outs =>
    forall vss, fixed t -> NoDup chans -> Forall (named og past) chans -> Forall2 (holds og past t) chans vss ->
      Forall2 (fun out vs => (length vs <= length out)%nat) outs vss ->
      a = AnReads t (map (fun x => overlay (fst x) (snd x)) (combine outs vss)) (Ok tt)
  end.
Fixpoint all_expected (og : origin) (past : list call) (os : list op) (xs : list answer) : Prop :=
  match os, xs with
  | [], [] => True
  | o :: r, x :: xr => expected og past o x /\ all_expected og (remember past o) r xr
  | _, _ => False
  end.

(** ** Programs the library serves well *)
(** Those that avoid the defects recorded in DESIGN.md: data calls do not
    continue the channel list of the call before unless they repeat it, and when
    the file is closed all calls so far can be read back. *)
Fixpoint closes (E : env) (og : origin) (past : list call) (os : list op) : Prop :=
  match os with
  | [] => True
  | o :: r => (o = OpClose -> Forall (good_call E) past /\ restarts E (o_chans og) past) /\ closes E og (remember past o) r
  end.
Definition proper (E : env) (og : origin) (os : list op) : Prop :=
  sequenced (o_shape og) (fold_left remember os []) /\ closes E og [] os.
