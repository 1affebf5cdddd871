(** * Invariants of the index under arbitrary segments, successful or not *)
From Verif Require Import Base Lib DataTypes MetaData Maps DataBlock Index SpecIndex Maps_proofs Parse_proofs.
From Coq Require Import Sorting.Sorted.

(** A recorded location names an existing block, an existing slot of it, and
    counts (values per chunk) x (whole chunks). *)
Definition loc_ok (blocks : list dblock) (l : loc) : Prop :=
  exists b m c, nth_error blocks (l_block l) = Some b
    /\ nth_error (b_chans b) (l_chan l) = Some m
    /\ number_of_chunks b = Ok c /\ l_n l = rm_n m * c /\ l_n l < two64.

Record inv (ix : index) : Prop := {
  inv_sorted : sorted (map_keys (ix_objs ix));
  inv_path : forall k od, map_get k (ix_objs ix) = Some od -> o_path od = k;
  inv_nodup : NoDup (map a_path (ix_active ix));
  inv_act : forall a, In a (ix_active ix) -> exists od m,
    map_get (a_path a) (ix_objs ix) = Some od /\ o_fmt od = Some m /\ rm_n m = a_n a;
  inv_locs : forall k od, map_get k (ix_objs ix) = Some od ->
    Forall (loc_ok (ix_blocks ix)) (o_locs od) /\ StronglySorted lt (map l_block (o_locs od));
  inv_distinct : forall k1 k2 od1 od2 l1 l2,
    map_get k1 (ix_objs ix) = Some od1 -> map_get k2 (ix_objs ix) = Some od2 -> k1 <> k2 ->
    In l1 (o_locs od1) -> In l2 (o_locs od2) -> l_block l1 = l_block l2 -> l_chan l1 <> l_chan l2;
  inv_blocks : Forall (fun b => b_chans b <> [] /\ 0 < b_len b) (ix_blocks ix) }.

Lemma inv_new : inv index_new.
Proof.
  constructor; cbn; try discriminate; try contradiction; try constructor.
Qed.

(** ** Objects *)
(** One iteration of the object loop. *)
Definition add_object (ix : index) (o : objmeta) : index * res unit :=
  match om_idx o with
  | RINone => update_meta_object ix o
  | _ => update_or_activate ix o
  end.

Lemma add_objects_cons ix o r : add_objects ix (o :: r) =
  match add_object ix o with
  | (ix1, Ok _) => add_objects ix1 r
  | (ix1, f) => (ix1, f)
  end.
Proof. reflexivity. Qed.

Definition old_props (ix : index) (p : str) : smap pval :=
  match map_get p (ix_objs ix) with Some od => o_props od | None => [] end.
Definition old_locs (ix : index) (p : str) : list loc :=
  match map_get p (ix_objs ix) with Some od => o_locs od | None => [] end.
Definition new_fmt (ix : index) (o : objmeta) : option rawmeta :=
  match om_idx o with RIRaw m => Some m | _ => channel_format ix (om_path o) end.

(** The object table after [o] was applied. *)
Definition upd (ix : index) (o : objmeta) : objdata :=
  mkOD (om_path o) (insert_props (om_props o) (old_props ix (om_path o)))
       (old_locs ix (om_path o)) (new_fmt ix o).

Definition no_format (ix : index) (o : objmeta) : bool :=
  match om_idx o with
  | RIMatch => match channel_format ix (om_path o) with None => true | Some _ => false end
  | _ => false
  end.

Lemma no_format_true ix o : no_format ix o = true <->
  om_idx o = RIMatch /\ channel_format ix (om_path o) = None.
Proof.
  unfold no_format. destruct (om_idx o); [| destruct (channel_format ix (om_path o))|];
    split; intros H; try discriminate; try (destruct H; discriminate); auto.
Qed.

Lemma od_update_upd ix o od : inv ix -> map_get (om_path o) (ix_objs ix) = Some od ->
  od_update od o = (upd ix o, if no_format ix o then Err ENoPreviousType else Ok tt).
Proof.
  intros I G. assert (Hp : o_path od = om_path o) by (eapply inv_path; eauto).
  unfold upd, old_props, old_locs, new_fmt, no_format, channel_format, od_update. rewrite G, Hp.
  destruct (o_fmt od), (om_idx o); reflexivity.
Qed.

Lemma od_from_upd ix o : map_get (om_path o) (ix_objs ix) = None ->
  od_from o = if no_format ix o then Err ENoPreviousType else Ok (upd ix o).
Proof.
  intros G. unfold od_from, upd, old_props, old_locs, new_fmt, no_format, channel_format, od_update.
  rewrite G. cbn [o_path o_props o_locs o_fmt]. destruct (om_idx o); reflexivity.
Qed.

Lemma update_meta_object_spec ix o : inv ix ->
  exists ix1, update_meta_object ix o = (ix1, if no_format ix o then Err ENoPreviousType else Ok tt)
    /\ ix_active ix1 = ix_active ix /\ ix_blocks ix1 = ix_blocks ix /\ ix_next ix1 = ix_next ix
    /\ sorted (map_keys (ix_objs ix1))
    /\ (forall k, map_get k (ix_objs ix1) =
          if str_eqb k (om_path o) then
            match map_get k (ix_objs ix) with
            | Some _ => Some (upd ix o)
            | None => if no_format ix o then None else Some (upd ix o)
            end
          else map_get k (ix_objs ix)).
Proof.
  intros I. unfold update_meta_object.
  destruct (map_get (om_path o) (ix_objs ix)) as [od|] eqn:G.
  - rewrite (od_update_upd ix o od I G). eexists. split; [reflexivity|].
    cbn [set_objs ix_active ix_objs ix_blocks ix_next]. repeat split; try reflexivity.
    + rewrite map_keys_alter. apply (inv_sorted _ I).
    + intros k. rewrite map_get_alter. destruct (str_eqb k (om_path o)) eqn:K; [|reflexivity].
      apply str_eqb_eq in K. subst k. now rewrite G.
  - rewrite (od_from_upd ix o G). destruct (no_format ix o).
    + eexists. split; [reflexivity|]. repeat split; try reflexivity; [apply (inv_sorted _ I)|].
      intros k. destruct (str_eqb k (om_path o)) eqn:K; [|reflexivity].
      apply str_eqb_eq in K. subst k. now rewrite G.
    + cbn [upd o_path]. rewrite G. eexists. split; [reflexivity|].
      cbn [set_objs ix_active ix_objs ix_blocks ix_next]. repeat split; try reflexivity.
      * apply map_insert_sorted, (inv_sorted _ I).
      * intros k. rewrite map_get_insert. destruct (str_eqb k (om_path o)) eqn:K; [|reflexivity].
        apply str_eqb_eq in K. subst k. now rewrite G.
Qed.

(** The invariant survives an update of the object table by [upd]. *)
Lemma inv_upd ix o ix1 : inv ix ->
  ix_blocks ix1 = ix_blocks ix ->
  sorted (map_keys (ix_objs ix1)) ->
  (forall k, map_get k (ix_objs ix1) = map_get k (ix_objs ix)
     \/ (k = om_path o /\ map_get k (ix_objs ix1) = Some (upd ix o))) ->
  NoDup (map a_path (ix_active ix1)) ->
  (forall a, In a (ix_active ix1) -> exists od m,
     map_get (a_path a) (ix_objs ix1) = Some od /\ o_fmt od = Some m /\ rm_n m = a_n a) ->
  inv ix1.
Proof.
  intros I Hb Hs Hk Hn Ha.
  assert (L : forall k od, map_get k (ix_objs ix1) = Some od ->
            o_path od = k /\ (o_locs od = [] \/
              exists od0, map_get k (ix_objs ix) = Some od0 /\ o_locs od = o_locs od0)).
  { intros k od H. destruct (Hk k) as [E1|[-> E1]]; rewrite E1 in H.
    - split; [eapply inv_path; eauto|]. right. eauto.
    - injection H as <-. split; [reflexivity|]. unfold upd, old_locs. cbn [o_locs].
      destruct (map_get (om_path o) (ix_objs ix)) as [od0|]; [right; eauto|left; reflexivity]. }
  constructor; auto.
  - intros k od H. now apply L.
  - intros k od H. destruct (L k od H) as [_ [->|[od0 [G ->]]]]; [split; constructor|].
    rewrite Hb. eapply (inv_locs _ I); eauto.
  - intros k1 k2 od1 od2 l1 l2 H1 H2 Hne I1 I2.
    destruct (L _ _ H1) as [_ [E1|[oa [G1 E1]]]]; rewrite E1 in I1; [contradiction|].
    destruct (L _ _ H2) as [_ [E2|[ob [G2 E2]]]]; rewrite E2 in I2; [contradiction|].
    eapply (inv_distinct _ I); [exact G1|exact G2|exact Hne|exact I1|exact I2].
  - rewrite Hb. apply (inv_blocks _ I).
Qed.

Lemma is_active_iff p l : is_active p l = true <-> In p (map a_path l).
Proof.
  unfold is_active. rewrite existsb_exists, in_map_iff. split.
  - intros [a [H1 H2]]. apply str_eqb_eq in H2. eauto.
  - intros [a [H1 H2]]. exists a. split; [exact H2|]. now apply str_eqb_eq.
Qed.

Lemma update_active_paths o l : map a_path (update_active o l) = map a_path l.
Proof.
  induction l as [|a r IH]; cbn [update_active]; [reflexivity|].
  destruct (str_eqb (a_path a) (om_path o)); cbn [map]; [|now rewrite IH].
  f_equal. unfold act_update. destruct (om_idx o); reflexivity.
Qed.

Lemma update_active_in o l a : NoDup (map a_path l) -> In a (update_active o l) ->
  exists a0, In a0 l /\ a_path a0 = a_path a
    /\ (a_path a <> om_path o -> a = a0)
    /\ (a_path a = om_path o -> a = act_update a0 o).
Proof.
  induction l as [|b r IH]; cbn [update_active]; [contradiction|]. cbn [map]. intros Hn Hin.
  inversion Hn; subst. destruct (str_eqb (a_path b) (om_path o)) eqn:K.
  - apply str_eqb_eq in K. destruct Hin as [<-|Hin].
    + exists b. assert (Hp : a_path (act_update b o) = a_path b) by (unfold act_update; destruct (om_idx o); reflexivity).
      rewrite Hp. repeat split; [now left|intros H; contradiction].
    + exists a. repeat split; [now right|]. intros Hp. exfalso. apply H1. rewrite K, <- Hp. now apply in_map.
  - apply str_eqb_neq in K. destruct Hin as [<-|Hin].
    + exists b. repeat split; [now left|]. intros H. contradiction.
    + destruct (IH H2 Hin) as [a0 [Ha Hr]]. exists a0. split; [now right|exact Hr].
Qed.

Lemma existsb_str p l : existsb (str_eqb p) l = true <-> In p l.
Proof.
  rewrite existsb_exists. split.
  - intros [x [H1 H2]]. apply str_eqb_eq in H2. now subst.
  - intros H. exists p. split; [exact H|apply str_eqb_refl].
Qed.

Lemma is_active_existsb p l : is_active p l = existsb (str_eqb p) (map a_path l).
Proof.
  apply eq_true_iff_eq. rewrite is_active_iff, existsb_str. reflexivity.
Qed.

Lemma NoDup_app_one {A} (l : list A) x : NoDup l -> ~ In x l -> NoDup (l ++ [x]).
Proof.
  intros Hn Hx. apply NoDup_rev in Hn. rewrite <- (rev_involutive (l ++ [x])). apply NoDup_rev.
  rewrite rev_app_distr. cbn [rev app]. constructor; [|exact Hn]. now rewrite <- in_rev.
Qed.

(** The invariant after one object, given what the tables look like. *)
Lemma inv_after_object ix o ix1 : inv ix ->
  ix_blocks ix1 = ix_blocks ix -> sorted (map_keys (ix_objs ix1)) ->
  (forall k, map_get k (ix_objs ix1) =
          if str_eqb k (om_path o) then
            match map_get k (ix_objs ix) with
            | Some _ => Some (upd ix o)
            | None => if no_format ix o then None else Some (upd ix o)
            end
          else map_get k (ix_objs ix)) ->
  NoDup (map a_path (ix_active ix1)) ->
  (forall a, In a (ix_active ix1) ->
     (a_path a <> om_path o /\ In a (ix_active ix))
     \/ (a_path a = om_path o /\ no_format ix o = false
         /\ exists m, new_fmt ix o = Some m /\ a_n a = rm_n m)) ->
  inv ix1.
Proof.
  intros I Hb Hs Hk Hn Ha. eapply (inv_upd ix o); eauto.
  - intros k. rewrite Hk. destruct (str_eqb k (om_path o)) eqn:K; [|now left].
    apply str_eqb_eq in K. subst. destruct (map_get (om_path o) (ix_objs ix)); [now right|].
    destruct (no_format ix o); auto.
  - intros a Hin. destruct (Ha a Hin) as [[Hne Hin']|[He [Hf [m [Hm Hnn]]]]].
    + destruct (inv_act _ I a Hin') as [od [m Hod]]. exists od, m.
      rewrite Hk. apply str_eqb_neq in Hne. now rewrite Hne.
    + exists (upd ix o), m. rewrite Hk, He, str_eqb_refl, Hf.
      repeat split; auto. destruct (map_get (om_path o) (ix_objs ix)); reflexivity.
Qed.

Lemma add_object_spec ix o : inv ix -> exists ix1,
  add_object ix o = (ix1, if no_format ix o then Err ENoPreviousType else Ok tt)
  /\ inv ix1 /\ ix_blocks ix1 = ix_blocks ix /\ ix_next ix1 = ix_next ix
  /\ (forall k, map_get k (ix_objs ix1) =
          if str_eqb k (om_path o) then
            match map_get k (ix_objs ix) with
            | Some _ => Some (upd ix o)
            | None => if no_format ix o then None else Some (upd ix o)
            end
          else map_get k (ix_objs ix))
  /\ (no_format ix o = false ->
      map a_path (ix_active ix1) = act_obj (map a_path (ix_active ix)) o).
Proof.
  intros I. unfold add_object.
  destruct (update_meta_object_spec ix o I) as [ixm [Em [Ha [Hb [Hn [Hs Hk]]]]]].
  destruct (match om_idx o with RINone => true | _ => false end) eqn:X.
  - (* no raw data *)
    assert (X' : om_idx o = RINone) by (destruct (om_idx o); [reflexivity|discriminate|discriminate]).
    exists ixm. rewrite X'. split; [exact Em|]. split; [|repeat split; auto].
    + eapply inv_after_object; eauto; rewrite Ha; [apply (inv_nodup _ I)|].
      intros a Hin. destruct (str_eqb (a_path a) (om_path o)) eqn:K.
      * right. apply str_eqb_eq in K. split; [exact K|]. unfold no_format, new_fmt. rewrite X'.
        split; [reflexivity|]. destruct (inv_act _ I a Hin) as [od [m [G [F N]]]].
        exists m. unfold channel_format. rewrite <- K, G, F. auto.
      * left. apply str_eqb_neq in K. auto.
    + intros _. rewrite Ha. unfold act_obj. now rewrite X'.
  - replace (match om_idx o with RINone => update_meta_object ix o | _ => update_or_activate ix o end)
      with (update_or_activate ix o) by (destruct (om_idx o); [discriminate|reflexivity|reflexivity]).
    assert (AO : forall l, act_obj l o = if existsb (str_eqb (om_path o)) l then l else l ++ [om_path o]).
    { intros l. unfold act_obj. destruct (om_idx o); [discriminate|reflexivity|reflexivity]. }
    unfold update_or_activate. rewrite is_active_existsb, AO.
    destruct (existsb (str_eqb (om_path o)) (map a_path (ix_active ix))) eqn:A.
    + apply existsb_str in A. apply in_map_iff in A. destruct A as [a [Ea Ia]].
      destruct (inv_act _ I a Ia) as [od [m [G [F N]]]]. rewrite Ea in G.
      cbn [set_active ix_objs]. rewrite G. rewrite (od_update_upd ix o od I G).
      assert (NF : no_format ix o = false).
      { unfold no_format, channel_format. rewrite G, F. destruct (om_idx o); reflexivity. }
      rewrite NF in *. eexists. split; [reflexivity|].
      cbn [set_active set_objs ix_active ix_objs ix_blocks ix_next].
      assert (Hk' : forall k, map_get k (map_alter (om_path o) (fun _ => upd ix o) (ix_objs ix)) =
          if str_eqb k (om_path o) then
            match map_get k (ix_objs ix) with Some _ => Some (upd ix o) | None => Some (upd ix o) end
          else map_get k (ix_objs ix)).
      { intros k. rewrite map_get_alter. destruct (str_eqb k (om_path o)) eqn:K; [|reflexivity].
        apply str_eqb_eq in K. subst k. now rewrite G. }
      split; [|split; [reflexivity|split; [reflexivity|split; [exact Hk'|]]]].
      * eapply (inv_after_object ix o); auto; cbn [set_active set_objs ix_active ix_objs ix_blocks ix_next].
        -- rewrite map_keys_alter; apply (inv_sorted _ I).
        -- rewrite NF. exact Hk'.
        -- rewrite update_active_paths. apply (inv_nodup _ I).
        -- intros b Hin. apply update_active_in in Hin; [|apply (inv_nodup _ I)].
           destruct Hin as [b0 [Ib [Ep [E1 E2]]]].
           destruct (str_eqb (a_path b) (om_path o)) eqn:K.
           ++ right. apply str_eqb_eq in K. repeat split; auto.
              destruct (inv_act _ I b0 Ib) as [od0 [m0 [G0 [F0 N0]]]].
              rewrite (E2 K). unfold act_update, new_fmt, channel_format. rewrite <- K, <- Ep, G0, F0.
              destruct (om_idx o); eauto.
           ++ left. apply str_eqb_neq in K. split; [exact K|]. rewrite (E1 K). exact Ib.
      * intros _. apply update_active_paths.
    + assert (A' : ~ In (om_path o) (map a_path (ix_active ix))).
      { intros H. apply existsb_str in H. congruence. }
      rewrite Em. destruct (no_format ix o) eqn:NF.
      * exists ixm. split; [reflexivity|]. split; [|repeat split; auto; discriminate].
        eapply (inv_after_object ix o); eauto; rewrite ?NF, ?Ha; auto; [apply (inv_nodup _ I)|].
        intros a Hin. left. split; [|exact Hin]. intros K. apply A'. rewrite <- K. now apply in_map.
      * assert (CF : exists m, new_fmt ix o = Some m).
        { unfold no_format in NF. unfold new_fmt. destruct (om_idx o); [discriminate| |eauto].
          destruct (channel_format ix (om_path o)); [eauto|discriminate]. }
        destruct CF as [m Hm].
        assert (CF : channel_format ixm (om_path o) = Some m).
        { unfold channel_format. rewrite Hk, str_eqb_refl.
          destruct (map_get (om_path o) (ix_objs ix)); cbn [upd o_fmt]; exact Hm. }
        rewrite CF. eexists. split; [reflexivity|].
        cbn [set_active ix_active ix_blocks ix_next ix_objs].
        split; [|split; [exact Hb|split; [exact Hn|split; [exact Hk|]]]].
        -- eapply (inv_after_object ix o); eauto; cbn [set_active ix_active ix_blocks ix_next ix_objs].
           ++ rewrite NF. exact Hk.
           ++ rewrite map_app, Ha. cbn [map a_path]. apply NoDup_app_one; [apply (inv_nodup _ I)|exact A'].
           ++ rewrite Ha. intros a Hin. apply in_app_iff in Hin. destruct Hin as [Hin|[<-|[]]].
              ** left. split; [|exact Hin]. intros K. apply A'. rewrite <- K. now apply in_map.
              ** right. cbn [a_path a_n]. eauto.
        -- intros _. rewrite map_app, Ha. reflexivity.
Qed.

(** ** The object loop *)
Definition prop_of (ix : index) (k n : str) : option pval :=
  match map_get k (ix_objs ix) with Some od => map_get n (o_props od) | None => None end.
Definition known (ix : index) (k : str) : Prop := map_get k (ix_objs ix) <> None.

Lemma insert_props_get n ps : forall m,
  map_get n (insert_props ps m) = fold_left (prop_step n) ps (map_get n m).
Proof.
  unfold insert_props. induction ps as [|p r IH]; intros m; cbn [fold_left]; [reflexivity|].
  rewrite IH, map_get_insert. reflexivity.
Qed.

Lemma add_objects_spec os : forall ix, inv ix -> exists ix1 r,
  add_objects ix os = (ix1, r)
  /\ inv ix1 /\ ix_blocks ix1 = ix_blocks ix /\ ix_next ix1 = ix_next ix
  /\ (forall k, old_locs ix1 k = old_locs ix k)
  /\ ((r = Ok tt
       /\ map a_path (ix_active ix1) = fold_left act_obj os (map a_path (ix_active ix))
       /\ (forall k, known ix1 k <-> known ix k \/ mentioned os k)
       /\ (forall k, channel_format ix1 k = fold_left (fmt_obj k) os (channel_format ix k))
       /\ (forall k n, prop_of ix1 k n = fold_left (prop_obj k n) os (prop_of ix k n)))
      \/ r = Err ENoPreviousType).
Proof.
  induction os as [|o os IH]; intros ix I.
  - exists ix, (Ok tt). cbn [add_objects fold_left]. do 5 (split; [auto|]). left.
    repeat split; auto. intros [H|[]]; auto.
  - rewrite add_objects_cons.
    destruct (add_object_spec ix o I) as [ix0 [E0 [I0 [Hb0 [Hn0 [Hk0 Ha0]]]]]]. rewrite E0.
    assert (HL : forall k, old_locs ix0 k = old_locs ix k).
    { intros k. unfold old_locs at 1. rewrite Hk0. destruct (str_eqb k (om_path o)) eqn:K; [|reflexivity].
      apply str_eqb_eq in K. subst k. unfold old_locs at 1.
      destruct (map_get (om_path o) (ix_objs ix)) eqn:G;
        [unfold upd, old_locs; cbn [o_locs]; now rewrite G|].
      destruct (no_format ix o); [reflexivity|]. unfold upd, old_locs. cbn [o_locs]. now rewrite G. }
    destruct (no_format ix o) eqn:NF.
    + exists ix0, (Err ENoPreviousType). do 5 (split; [auto|]). auto.
    + destruct (IH ix0 I0) as [ix1 [r [E1 [I1 [Hb1 [Hn1 [HL1 Hr]]]]]]]. exists ix1, r.
      rewrite E1. split; [reflexivity|]. split; [exact I1|].
      split; [congruence|]. split; [congruence|]. split; [intros k; rewrite HL1; apply HL|].
      destruct Hr as [[-> [Ha [Hkn [Hf Hp]]]]|Hr]; [left|right; exact Hr].
      assert (Hk1 : forall k, map_get k (ix_objs ix0) =
                if str_eqb k (om_path o) then Some (upd ix o) else map_get k (ix_objs ix)).
      { intros k. rewrite Hk0. destruct (str_eqb k (om_path o)); [|reflexivity].
        destruct (map_get k (ix_objs ix)); reflexivity. }
      split; [reflexivity|]. split; [|split; [|split]].
      * rewrite Ha, Ha0 by reflexivity. reflexivity.
      * intros k. rewrite Hkn. unfold known, mentioned. rewrite Hk1. cbn [map In].
        destruct (str_eqb k (om_path o)) eqn:K.
        -- apply str_eqb_eq in K. subst k. split; [auto|]. intros _. left. discriminate.
        -- apply str_eqb_neq in K. split; [intros [H|H]; auto|]. intros [H|[H|H]]; auto; congruence.
      * intros k. rewrite Hf. cbn [fold_left]. f_equal. unfold channel_format at 1. rewrite Hk1.
        unfold fmt_obj. destruct (str_eqb k (om_path o)) eqn:K; [|reflexivity].
        apply str_eqb_eq in K. subst k. reflexivity.
      * intros k n. rewrite Hp. cbn [fold_left]. f_equal. unfold prop_of at 1. rewrite Hk1.
        unfold prop_obj. destruct (str_eqb k (om_path o)) eqn:K; [|reflexivity].
        apply str_eqb_eq in K. subst k. unfold upd. cbn [o_props]. rewrite insert_props_get. f_equal.
        unfold old_props, prop_of. destruct (map_get (om_path o) (ix_objs ix)); reflexivity.
Qed.

(** Exactly when the object loop fails. *)
Lemma add_objects_fails os : forall ix, inv ix ->
  (snd (add_objects ix os) = Err ENoPreviousType <->
   exists pre o post, os = pre ++ o :: post /\ om_idx o = RIMatch
     /\ fold_left (fmt_obj (om_path o)) pre (channel_format ix (om_path o)) = None).
Proof.
  induction os as [|o os IH]; intros ix I.
  - cbn [add_objects snd]. split; [discriminate|]. intros [pre [o [post [H _]]]].
    destruct pre; discriminate.
  - rewrite add_objects_cons.
    destruct (add_object_spec ix o I) as [ix0 [E0 [I0 [_ [_ [Hk0 _]]]]]]. rewrite E0.
    destruct (no_format ix o) eqn:NF.
    + split; [|reflexivity]. intros _. apply no_format_true in NF. destruct NF as [H1 H2].
      exists [], o, os. auto.
    + rewrite (IH ix0 I0).
      assert (Hf : forall k, channel_format ix0 k = fmt_obj k (channel_format ix k) o).
      { intros k. unfold channel_format at 1. rewrite Hk0. unfold fmt_obj.
        destruct (str_eqb k (om_path o)) eqn:K; [|reflexivity].
        apply str_eqb_eq in K. subst k. destruct (map_get (om_path o) (ix_objs ix)); reflexivity. }
      split.
      * intros [pre [o' [post [-> [H1 H2]]]]]. exists (o :: pre), o', post.
        split; [reflexivity|]. split; [exact H1|]. cbn [fold_left]. now rewrite <- Hf.
      * intros [pre [o' [post [H0 [H1 H2]]]]]. destruct pre as [|o1 pre].
        -- injection H0 as -> ->. exfalso.
           assert (no_format ix o' = true) by (apply no_format_true; auto). congruence.
        -- injection H0 as -> ->. exists pre, o', post. split; [reflexivity|]. split; [exact H1|].
           now rewrite Hf.
Qed.

(** ** Data blocks *)
Fixpoint new_locs (k : str) (blk : nat) (chunks : N) (i : nat) (l : list active) : list loc :=
  match l with
  | [] => []
  | a :: r => (if str_eqb k (a_path a) then [mkLoc blk i (a_n a * chunks)] else [])
              ++ new_locs k blk chunks (S i) r
  end.

Definition more_locs (ls : list loc) (od : objdata) : objdata :=
  mkOD (o_path od) (o_props od) (o_locs od ++ ls) (o_fmt od).

Lemma more_locs_nil od : more_locs [] od = od.
Proof. destruct od. unfold more_locs. cbn. now rewrite app_nil_r. Qed.

Lemma insert_locs_spec blk chunks l : forall objs i,
  (forall a, In a l -> map_get (a_path a) objs <> None) ->
  exists objs' r j, insert_locs objs blk chunks i l = (objs', r)
    /\ map_keys objs' = map_keys objs
    /\ (forall k, map_get k objs' =
          option_map (more_locs (new_locs k blk chunks i (firstn j l))) (map_get k objs))
    /\ Forall (fun a => a_n a * chunks < two64) (firstn j l)
    /\ ((r = Ok tt /\ j = length l)
        \/ (r = Err EChunkSizeOverflow /\ exists a, In a l /\ two64 <= a_n a * chunks)).
Proof.
  induction l as [|a l IH]; intros objs i Hp.
  - exists objs, (Ok tt), 0%nat. cbn [insert_locs firstn new_locs length]. repeat split; auto.
    intros k. destruct (map_get k objs); cbn [option_map]; [|reflexivity]. now rewrite more_locs_nil.
  - cbn [insert_locs]. unfold checked_mul. destruct (a_n a * chunks <? two64) eqn:C.
    2: { exists objs, (Err EChunkSizeOverflow), 0%nat. cbn [firstn new_locs].
         repeat split; auto.
         - intros k. destruct (map_get k objs); cbn [option_map]; [|reflexivity]. now rewrite more_locs_nil.
         - right. split; [reflexivity|]. exists a. split; [now left|]. lia. }
    destruct (map_get (a_path a) objs) as [od|] eqn:G; [|exfalso; apply (Hp a); [now left|exact G]].
    destruct (IH (map_alter (a_path a) (add_loc (mkLoc blk i (a_n a * chunks))) objs) (S i))
      as [objs' [r [j [E1 [Hk [Hg [Hf Hr]]]]]]].
    { intros b Hb. rewrite map_get_alter. specialize (Hp b (or_intror Hb)).
      destruct (str_eqb (a_path b) (a_path a)); [|exact Hp].
      destruct (map_get (a_path b) objs); [discriminate|exact Hp]. }
    exists objs', r, (S j). rewrite E1. cbn [firstn new_locs length].
    split; [reflexivity|]. split; [rewrite Hk; apply map_keys_alter|]. split; [|split].
    + intros k. rewrite Hg, map_get_alter. destruct (str_eqb k (a_path a)) eqn:K; [|reflexivity].
      destruct (map_get k objs) as [od'|]; cbn [option_map]; [|reflexivity].
      unfold more_locs, add_loc. cbn [o_path o_props o_locs o_fmt]. now rewrite <- app_assoc.
    + constructor; [lia|exact Hf].
    + destruct Hr as [[-> ->]|[-> [b [H1 H2]]]]; [left; auto|right]. split; [reflexivity|].
      exists b. split; [now right|exact H2].
Qed.

Lemma new_locs_in k blk chunks l : forall i x, In x (new_locs k blk chunks i l) ->
  l_block x = blk /\ (i <= l_chan x)%nat /\
  exists a, nth_error l (l_chan x - i) = Some a /\ a_path a = k /\ l_n x = a_n a * chunks.
Proof.
  induction l as [|a l IH]; intros i x Hx; [contradiction|]. cbn [new_locs] in Hx.
  apply in_app_iff in Hx. destruct Hx as [Hx|Hx].
  - destruct (str_eqb k (a_path a)) eqn:K; [|contradiction]. destruct Hx as [<-|[]].
    apply str_eqb_eq in K. cbn [l_block l_chan l_n]. split; [reflexivity|]. split; [lia|].
    exists a. rewrite Nat.sub_diag. auto.
  - destruct (IH (S i) x Hx) as [H1 [H2 [b [H3 H4]]]]. split; [exact H1|]. split; [lia|].
    exists b. replace (l_chan x - i)%nat with (S (l_chan x - S i)) by lia. auto.
Qed.

Lemma new_locs_absent k blk chunks l : forall i, ~ In k (map a_path l) -> new_locs k blk chunks i l = [].
Proof.
  induction l as [|a l IH]; intros i H; [reflexivity|]. cbn [new_locs map In] in *.
  destruct (str_eqb k (a_path a)) eqn:K.
  - apply str_eqb_eq in K. subst. exfalso. auto.
  - rewrite IH by auto. reflexivity.
Qed.

Lemma new_locs_short k blk chunks l : forall i, NoDup (map a_path l) ->
  (length (new_locs k blk chunks i l) <= 1)%nat.
Proof.
  induction l as [|a l IH]; intros i H; cbn [new_locs map] in *; [cbn; lia|]. inversion H; subst.
  destruct (str_eqb k (a_path a)) eqn:K.
  - apply str_eqb_eq in K. subst k. rewrite new_locs_absent by assumption. cbn. lia.
  - cbn [app]. auto.
Qed.

Lemma active_metas_spec objs l :
  (forall a, In a l -> exists od m, map_get (a_path a) objs = Some od /\ o_fmt od = Some m
      /\ rm_n m = a_n a) ->
  exists ms, active_metas objs l = Ok ms /\ length ms = length l
    /\ (forall i a, nth_error l i = Some a ->
         exists od m, nth_error ms i = Some m /\ map_get (a_path a) objs = Some od
           /\ o_fmt od = Some m /\ rm_n m = a_n a).
Proof.
  induction l as [|a l IH]; intros H.
  - exists []. repeat split. intros i a Hn. destruct i; discriminate.
  - destruct IH as [ms [E1 [Hl Hn]]]; [intros; apply H; now right|].
    destruct (H a (or_introl eq_refl)) as [od [m [G [F N]]]].
    exists (m :: ms). cbn [active_metas]. rewrite G, F, E1. cbn [bind length].
    split; [reflexivity|]. split; [now rewrite Hl|].
    intros i b Hi. destruct i as [|i]; cbn [nth_error] in *.
    + injection Hi as <-. eauto 6.
    + now apply Hn.
Qed.

Lemma loc_ok_app blocks b l : loc_ok blocks l -> loc_ok (blocks ++ b) l.
Proof.
  intros [x [m [c [H1 H2]]]]. exists x, m, c. split; [|exact H2].
  rewrite nth_error_app1; [exact H1|]. apply nth_error_Some. congruence.
Qed.

Lemma loc_ok_block blocks l : loc_ok blocks l -> (l_block l < length blocks)%nat.
Proof. intros [x [m [c [H1 H2]]]]. apply nth_error_Some. congruence. Qed.

Lemma sorted_snoc l x : StronglySorted lt l -> Forall (fun y => (y < x)%nat) l ->
  StronglySorted lt (l ++ [x]).
Proof.
  induction 1 as [|a l H IH Hf]; intros Hx; cbn [app]; [repeat constructor|].
  inversion Hx; subst. constructor; [auto|]. apply Forall_app. split; [exact Hf|]. auto.
Qed.

Lemma firstn_in {A} j (l : list A) x : In x (firstn j l) -> In x l.
Proof. intros H. rewrite <- (firstn_skipn j l). apply in_app_iff. auto. Qed.

Lemma NoDup_firstn {A} j (l : list A) : NoDup l -> NoDup (firstn j l).
Proof.
  revert j. induction l as [|a l IH]; intros [|j] H; cbn [firstn]; try constructor.
  - inversion H; subst. intros Hin. apply firstn_in in Hin. contradiction.
  - inversion H; subst. auto.
Qed.

Lemma nth_error_firstn {A} j : forall (l : list A) i a, nth_error (firstn j l) i = Some a -> nth_error l i = Some a.
Proof.
  induction j as [|j IH]; intros l i a H; [destruct i; discriminate|].
  destruct l as [|b l]; [destruct i; discriminate|]. destruct i; cbn in *; [exact H|]. auto.
Qed.

Lemma chunk_size_cases ms : forall acc,
  (exists c, chunk_size_from acc ms = Ok c) \/ chunk_size_from acc ms = Err EChunkSizeOverflow.
Proof.
  induction ms as [|m r IH]; intros acc; cbn [chunk_size_from]; [eauto|].
  unfold chunk_combine, checked_add, checked_mul.
  destruct (rm_total m) as [t|].
  - destruct acc as [ex|ex]; destruct (ex + t <? two64); cbn [bind]; auto.
  - destruct (rm_n m * dtype_size (rm_type m) <? two64); cbn [bind]; [|auto].
    destruct acc as [ex|ex];
      destruct (ex + rm_n m * dtype_size (rm_type m) <? two64); cbn [bind]; auto.
Qed.

Lemma number_of_chunks_cases b :
  (exists c, number_of_chunks b = Ok c) \/ number_of_chunks b = Err EChunkSizeOverflow.
Proof.
  unfold number_of_chunks, chunk_size.
  destruct (chunk_size_cases (b_chans b) (CFixed 0)) as [[c H]|H]; rewrite H; cbn [bind]; eauto.
Qed.

Lemma insert_data_block_spec ix b ms : inv ix ->
  active_metas (ix_objs ix) (ix_active ix) = Ok ms -> b_chans b = ms -> ms <> [] -> 0 < b_len b ->
  exists ix1 r, insert_data_block ix b = (ix1, r) /\ inv ix1
    /\ ix_active ix1 = ix_active ix /\ ix_next ix1 = ix_next ix
    /\ (r = Err EChunkSizeOverflow \/
        exists c, r = Ok tt /\ number_of_chunks b = Ok c
          /\ ix_blocks ix1 = ix_blocks ix ++ [b]
          /\ map_keys (ix_objs ix1) = map_keys (ix_objs ix)
          /\ Forall (fun a => a_n a * c < two64) (ix_active ix)
          /\ forall k, map_get k (ix_objs ix1) =
               option_map (more_locs (new_locs k (length (ix_blocks ix)) c 0 (ix_active ix)))
                          (map_get k (ix_objs ix))).
Proof.
  intros I Hm Hc Hne Hlen. unfold insert_data_block.
  destruct (number_of_chunks_cases b) as [[c C]|C]; rewrite C.
  2: { exists ix, (Err EChunkSizeOverflow). cbn [recast]. do 4 (split; [auto|]). left. reflexivity. }
  destruct (insert_locs_spec (length (ix_blocks ix)) c (ix_active ix) (ix_objs ix) 0)
    as [objs' [r [j [E1 [Hk [Hg [Hf Hr]]]]]]].
  { intros a Ha. destruct (inv_act _ I a Ha) as [od [m [G _]]]. congruence. }
  rewrite E1. eexists. exists r. split; [reflexivity|].
  set (blk := length (ix_blocks ix)) in *.
  assert (AM : forall i a, nth_error (ix_active ix) i = Some a ->
    exists m, nth_error ms i = Some m /\ rm_n m = a_n a).
  { destruct (active_metas_spec (ix_objs ix) (ix_active ix)) as [ms' [E2 [_ Hn]]]; [apply I|].
    rewrite E2 in Hm. injection Hm as <-. intros i a Hi.
    destruct (Hn i a Hi) as [od [m [H1 [_ [_ H2]]]]]. eauto. }
  assert (NL : forall k x, In x (new_locs k blk c 0 (firstn j (ix_active ix))) ->
    l_block x = blk /\ loc_ok (ix_blocks ix ++ [b]) x
    /\ exists a, nth_error (ix_active ix) (l_chan x) = Some a /\ a_path a = k).
  { intros k x Hx. apply new_locs_in in Hx. destruct Hx as [H1 [_ [a [H2 [H3 H4]]]]].
    rewrite Nat.sub_0_r in H2.
    assert (Hin : In a (firstn j (ix_active ix))) by (eapply nth_error_In; eauto).
    apply nth_error_firstn in H2. split; [exact H1|]. split; [|eauto].
    destruct (AM _ _ H2) as [m [H5 H6]]. exists b, m, c. rewrite H1. unfold blk.
    rewrite nth_error_app2 by lia. rewrite Nat.sub_diag. cbn [nth_error].
    rewrite Hc. rewrite H6. rewrite Forall_forall in Hf. specialize (Hf a Hin). cbv beta in Hf.
    rewrite H4. auto. }
  split; [constructor; cbn [ix_active ix_objs ix_blocks ix_next]|].
  - rewrite Hk. apply I.
  - intros k od H. rewrite Hg in H. destruct (map_get k (ix_objs ix)) as [od0|] eqn:G; [|discriminate].
    injection H as <-. cbn [more_locs o_path]. eapply inv_path; eauto.
  - apply I.
  - intros a Ha. destruct (inv_act _ I a Ha) as [od [m [G [F N]]]]. rewrite Hg, G. cbn [option_map].
    eexists; exists m; split; [reflexivity|]. cbn [more_locs o_fmt]. auto.
  - intros k od H. rewrite Hg in H. destruct (map_get k (ix_objs ix)) as [od0|] eqn:G; [|discriminate].
    injection H as <-. cbn [more_locs o_locs]. destruct (inv_locs _ I k od0 G) as [H1 H2].
    pose proof (new_locs_short k blk c (firstn j (ix_active ix)) 0) as Hs.
    assert (Hnd : NoDup (map a_path (firstn j (ix_active ix)))).
    { rewrite <- firstn_map. apply NoDup_firstn, I. }
    specialize (Hs Hnd). split.
    + apply Forall_app. split.
      * eapply Forall_impl; [|exact H1]. intros x Hx. now apply loc_ok_app.
      * apply Forall_forall. intros x Hx. now apply NL in Hx.
    + rewrite map_app. destruct (new_locs k blk c 0 (firstn j (ix_active ix))) as [|x [|y r']] eqn:Q;
        [now rewrite app_nil_r| |cbn in Hs; lia].
      cbn [map]. apply sorted_snoc; [exact H2|].
      destruct (NL k x) as [-> _]; [rewrite Q; now left|].
      apply Forall_forall. intros y Hy. apply in_map_iff in Hy. destruct Hy as [z [<- Hz]].
      rewrite Forall_forall in H1. apply loc_ok_block. auto.
  - intros k1 k2 od1 od2 l1 l2 G1 G2 Hk12 I1 I2 Hb.
    rewrite Hg in G1, G2.
    destruct (map_get k1 (ix_objs ix)) as [oa|] eqn:Ga; [|discriminate].
    destruct (map_get k2 (ix_objs ix)) as [ob|] eqn:Gb; [|discriminate].
    injection G1 as <-. injection G2 as <-. cbn [more_locs o_locs] in I1, I2.
    apply in_app_iff in I1. apply in_app_iff in I2.
    destruct (inv_locs _ I _ _ Ga) as [La _]. destruct (inv_locs _ I _ _ Gb) as [Lb _].
    rewrite Forall_forall in La, Lb.
    destruct I1 as [I1|I1], I2 as [I2|I2].
    + eapply (inv_distinct _ I); [exact Ga|exact Gb|exact Hk12|exact I1|exact I2|exact Hb].
    + exfalso. apply La in I1. apply loc_ok_block in I1. apply NL in I2. unfold blk in I2. lia.
    + exfalso. apply Lb in I2. apply loc_ok_block in I2. apply NL in I1. unfold blk in I1. lia.
    + apply NL in I1. apply NL in I2. destruct I1 as [_ [_ [a [Na Pa]]]]. destruct I2 as [_ [_ [a' [Nb Pb]]]].
      intros Heq. rewrite Heq in Na. rewrite Na in Nb. injection Nb as <-. congruence.
  - apply Forall_app. split; [apply I|]. constructor; [|constructor]. rewrite Hc. auto.
  - split; [reflexivity|]. split; [reflexivity|]. destruct Hr as [[-> ->]|[-> _]]; [right|left; reflexivity].
    exists c. rewrite firstn_all in *. cbn [ix_blocks ix_objs]. repeat split; auto.
Qed.

(** ** Segments *)
Definition fmt_or_void (ix : index) (p : str) : rawmeta :=
  match channel_format ix p with Some m => m | None => mkRaw Void 0 None end.

Lemma active_metas_map ix ms : inv ix -> active_metas (ix_objs ix) (ix_active ix) = Ok ms ->
  ms = map (fmt_or_void ix) (map a_path (ix_active ix)).
Proof.
  intros I. revert ms. assert (H := inv_act _ I). revert H. generalize (ix_active ix) as l.
  induction l as [|a l IH]; intros H ms; cbn [active_metas map].
  - intros Hm. now injection Hm as <-.
  - destruct (H a (or_introl eq_refl)) as [od [m [G [F _]]]]. rewrite G, F. intros Hm. bind_inv.
    f_equal; [unfold fmt_or_void, channel_format; now rewrite G, F|].
    apply IH; [intros; apply H; now right|assumption].
Qed.

Definition seg_block (ix' : index) (start : N) (s : segment) : dblock :=
  mkBlock (start + 28 + sg_raw s) (sg_next s - sg_raw s)
    (if toc_inter (sg_toc s) then Interleaved else Contigious)
    (map (fmt_or_void ix') (map a_path (ix_active ix'))) (toc_endian (sg_toc s)).

Lemma inv_deactivate ix : inv ix -> inv (set_active ix []).
Proof. intros I. constructor; cbn; try apply I; [constructor|contradiction]. Qed.

Lemma inv_next ix n : inv ix -> inv (set_next ix n).
Proof. intros I. constructor; cbn; apply I. Qed.

(** The raw data part. *)
Lemma add_raw_spec E ix s : inv ix -> exists ix1 r, add_raw E ix s = (ix1, r) /\ inv ix1
  /\ ix_active ix1 = ix_active ix /\ ix_next ix1 = ix_next ix
  /\ match r with
     | Ok _ =>
       sg_raw s < sg_next s /\ ix_active ix <> []
       /\ (forall k, known ix1 k <-> known ix k)
       /\ (forall k, channel_format ix1 k = channel_format ix k)
       /\ (forall k n, prop_of ix1 k n = prop_of ix k n)
       /\ exists b c, ix_blocks ix1 = ix_blocks ix ++ [b] /\ number_of_chunks b = Ok c
          /\ (sg_raw s + 28 + ix_next ix < two64 -> b = seg_block ix1 (ix_next ix) s)
          /\ Forall (fun a => a_n a * c < two64) (ix_active ix)
          /\ forall k, old_locs ix1 k =
                old_locs ix k ++ new_locs k (length (ix_blocks ix)) c 0 (ix_active ix)
     | Err _ => True
     | Panic p => p = POverflow /\ overflow_checks E = true /\ two64 <= sg_raw s + 28 + ix_next ix
     | Diverge => False
     end.
Proof.
  intros I. unfold add_raw.
  destruct (active_metas_spec (ix_objs ix) (ix_active ix)) as [ms [Em [Hl Hn]]]; [apply I|].
  rewrite Em. destruct ms as [|m0 mr] eqn:Ems.
  { exists ix, (Err ESegmentTocDataBlockWithoutDataChannels). auto. }
  rewrite <- Ems in *. assert (Hne : ms <> []) by congruence.
  unfold from_segment. destruct (sg_next s <? sg_raw s) eqn:C1.
  { exists ix, (Err EInvalidRawOffset). cbn [recast]. auto. }
  destruct (sg_next s - sg_raw s =? 0) eqn:C2.
  { exists ix, (Err EZeroLengthDataBlock). cbn [recast]. auto. }
  set (fin := fun st => mkBlock st (sg_next s - sg_raw s)
      (if toc_inter (sg_toc s) then Interleaved else Contigious) ms (toc_endian (sg_toc s))).
  assert (G : forall (T : Type) (x y : T), match ms with [] => x | _ :: _ => y end = y).
  { intros. destruct ms; [contradiction|reflexivity]. }
  rewrite G.
  match goal with |- context [bind (uadd E (sg_raw s) LEAD_IN) ?k] =>
    change (bind (uadd E (sg_raw s) LEAD_IN) k)
      with (a <- uadd E (sg_raw s) LEAD_IN ;; st <- uadd E a (ix_next ix) ;; Ok (fin st)) end.
  assert (Hst : (exists st, (a <- uadd E (sg_raw s) LEAD_IN ;; st <- uadd E a (ix_next ix) ;; Ok (fin st)) = Ok (fin st)
       /\ (sg_raw s + 28 + ix_next ix < two64 -> st = ix_next ix + 28 + sg_raw s))
     \/ ((a <- uadd E (sg_raw s) LEAD_IN ;; st <- uadd E a (ix_next ix) ;; Ok (fin st)) = Panic POverflow
         /\ overflow_checks E = true /\ two64 <= sg_raw s + 28 + ix_next ix)).
  { unfold uadd, LEAD_IN. destruct (sg_raw s + 28 <? two64) eqn:K1; cbn [bind].
    - destruct (sg_raw s + 28 + ix_next ix <? two64) eqn:K2; cbn [bind].
      + left. eexists. split; [reflexivity|]. lia.
      + destruct (overflow_checks E); cbn [bind].
        * right. repeat split; auto. lia.
        * left. eexists. split; [reflexivity|]. lia.
    - destruct (overflow_checks E); cbn [bind].
      + right. repeat split; auto. lia.
      + left. destruct ((sg_raw s + 28) mod two64 + ix_next ix <? two64); cbn [bind];
          (eexists; split; [reflexivity|]; lia). }
  destruct Hst as [[st [-> Hst]]|[-> [Ho Hov]]].
  2: { exists ix, (Panic POverflow). cbn [recast]. do 4 (split; [auto|]). auto. }
  destruct (insert_data_block_spec ix (fin st) ms I Em) as [ix1 [r [E1 [I1 [Ha [Hx Hr]]]]]];
    [reflexivity|exact Hne|cbn [fin b_len]; lia|].
  exists ix1, r. split; [exact E1|]. split; [exact I1|]. split; [exact Ha|]. split; [exact Hx|].
  destruct Hr as [->|[c [-> [Hc [Hb [Hk [Hfl Hg]]]]]]]; [exact Logic.I|].
  split; [lia|]. split; [intros Hnil; rewrite Hnil in Hl; apply Hne; destruct ms; [reflexivity|discriminate]|].
  assert (CF : forall k, channel_format ix1 k = channel_format ix k).
  { intros k. unfold channel_format. rewrite Hg. destruct (map_get k (ix_objs ix)); reflexivity. }
  split; [|split; [exact CF|split]].
  - intros k. unfold known. rewrite Hg. destruct (map_get k (ix_objs ix)); cbn [option_map]; split; congruence.
  - intros k n. unfold prop_of. rewrite Hg. destruct (map_get k (ix_objs ix)); reflexivity.
  - exists (fin st), c. split; [exact Hb|]. split; [exact Hc|]. split; [|split; [exact Hfl|]].
    + intros Hlt. unfold fin, seg_block. rewrite (Hst Hlt). f_equal.
      rewrite (active_metas_map ix ms I Em), Ha. apply map_ext. intros p. unfold fmt_or_void. now rewrite CF.
    + intros k. unfold old_locs. rewrite Hg. destruct (map_get k (ix_objs ix)) as [od|] eqn:Gk; [reflexivity|].
      cbn [option_map]. symmetry. apply new_locs_absent. intros Hin. apply in_map_iff in Hin.
      destruct Hin as [a [<- Hin]]. destruct (inv_act _ I a Hin) as [od [m [Q _]]]. congruence.
Qed.

Lemma add_segment_spec E ix s : inv ix -> exists ix' r, add_segment E ix s = (ix', r) /\ inv ix'
  /\ match r with
     | Ok n =>
       n = ix_next ix + 28 + sg_next s /\ n < two64 /\ ix_next ix' = n
       /\ map a_path (ix_active ix') = act_seg (map a_path (ix_active ix)) s
       /\ (forall k, known ix' k <-> known ix k \/ mentioned (seg_objs s) k)
       /\ (forall k, channel_format ix' k = fold_left (fmt_obj k) (seg_objs s) (channel_format ix k))
       /\ (forall k n, prop_of ix' k n = fold_left (prop_obj k n) (seg_objs s) (prop_of ix k n))
       /\ (if toc_raw (sg_toc s) then
             sg_raw s < sg_next s /\ ix_active ix' <> [] /\
             exists c, ix_blocks ix' = ix_blocks ix ++ [seg_block ix' (ix_next ix) s]
               /\ number_of_chunks (seg_block ix' (ix_next ix) s) = Ok c
               /\ Forall (fun a => a_n a * c < two64) (ix_active ix')
               /\ forall k, old_locs ix' k =
                    old_locs ix k ++ new_locs k (length (ix_blocks ix)) c 0 (ix_active ix')
           else ix_blocks ix' = ix_blocks ix /\ forall k, old_locs ix' k = old_locs ix k)
     | Err _ => ix_next ix' = ix_next ix
     | Panic p => ix_next ix' = ix_next ix /\ toc_raw (sg_toc s) = true
                  /\ p = POverflow /\ overflow_checks E = true /\ two64 <= sg_raw s + 28 + ix_next ix
     | Diverge => False
     end.
Proof.
  intros I. unfold add_segment.
  set (ix0 := if toc_newlist (sg_toc s) then set_active ix [] else ix).
  assert (I0 : inv ix0) by (unfold ix0; destruct (toc_newlist (sg_toc s)); [now apply inv_deactivate|exact I]).
  assert (O0 : ix_objs ix0 = ix_objs ix) by (unfold ix0; destruct (toc_newlist (sg_toc s)); reflexivity).
  assert (B0 : ix_blocks ix0 = ix_blocks ix) by (unfold ix0; destruct (toc_newlist (sg_toc s)); reflexivity).
  assert (N0 : ix_next ix0 = ix_next ix) by (unfold ix0; destruct (toc_newlist (sg_toc s)); reflexivity).
  assert (A0 : map a_path (ix_active ix0) = if toc_newlist (sg_toc s) then [] else map a_path (ix_active ix))
    by (unfold ix0; destruct (toc_newlist (sg_toc s)); reflexivity).
  replace (match sg_meta s with Some objs => add_objects ix0 objs | None => (ix0, Ok tt) end)
    with (add_objects ix0 (seg_objs s)) by (unfold seg_objs; destruct (sg_meta s); reflexivity).
  destruct (add_objects_spec (seg_objs s) ix0 I0) as [ix1 [r1 [E1 [I1 [B1 [N1 [L1 R1]]]]]]].
  rewrite E1. destruct R1 as [[-> [A1 [K1 [F1 P1]]]]| ->].
  2: { exists ix1, (Err ENoPreviousType). cbn [recast]. split; [reflexivity|]. split; [exact I1|]. congruence. }
  assert (V1 : forall k, known ix1 k <-> known ix k \/ mentioned (seg_objs s) k).
  { intros k. rewrite K1. unfold known. now rewrite O0. }
  assert (V2 : forall k, channel_format ix1 k = fold_left (fmt_obj k) (seg_objs s) (channel_format ix k)).
  { intros k. rewrite F1. unfold channel_format. now rewrite O0. }
  assert (V3 : forall k n, prop_of ix1 k n = fold_left (prop_obj k n) (seg_objs s) (prop_of ix k n)).
  { intros k n. rewrite P1. unfold prop_of. now rewrite O0. }
  assert (V4 : forall k, old_locs ix1 k = old_locs ix k).
  { intros k. rewrite L1. unfold old_locs. now rewrite O0. }
  assert (V5 : map a_path (ix_active ix1) = act_seg (map a_path (ix_active ix)) s).
  { rewrite A1, A0. reflexivity. }
  assert (NX : ix_next ix1 = ix_next ix) by congruence.
  assert (BX : ix_blocks ix1 = ix_blocks ix) by congruence.
  clear E1 A1 K1 F1 P1 L1 B1 N1.
  assert (Z : exists ix2 r2, (if toc_raw (sg_toc s) then add_raw E ix1 s else (ix1, Ok tt)) = (ix2, r2)
     /\ inv ix2 /\ ix_active ix2 = ix_active ix1 /\ ix_next ix2 = ix_next ix
     /\ match r2 with
        | Ok _ => (forall k, known ix2 k <-> known ix1 k)
            /\ (forall k, channel_format ix2 k = channel_format ix1 k)
            /\ (forall k n, prop_of ix2 k n = prop_of ix1 k n)
            /\ (if toc_raw (sg_toc s) then
                sg_raw s < sg_next s /\ ix_active ix2 <> [] /\
                exists b c, ix_blocks ix2 = ix_blocks ix ++ [b] /\ number_of_chunks b = Ok c
                  /\ (sg_raw s + 28 + ix_next ix < two64 -> b = seg_block ix2 (ix_next ix) s)
                  /\ Forall (fun a => a_n a * c < two64) (ix_active ix2)
                  /\ forall k, old_locs ix2 k =
                       old_locs ix k ++ new_locs k (length (ix_blocks ix)) c 0 (ix_active ix2)
               else ix_blocks ix2 = ix_blocks ix /\ forall k, old_locs ix2 k = old_locs ix k)
        | Err _ => True
        | Panic p => toc_raw (sg_toc s) = true /\ p = POverflow /\ overflow_checks E = true /\ two64 <= sg_raw s + 28 + ix_next ix
        | Diverge => False
        end).
  { destruct (toc_raw (sg_toc s)).
    - destruct (add_raw_spec E ix1 s I1) as [ix2 [r2 [E2 [I2 [A2 [N2 R2]]]]]]. exists ix2, r2.
      split; [exact E2|]. split; [exact I2|]. split; [exact A2|]. split; [congruence|].
      destruct r2 as [u| | |]; auto; [|rewrite NX in R2; tauto].
      destruct R2 as [Q1 [Q2 [Q3 [Q4 [Q5 [b [c [Q6 [Q7 [Q8 [Q9 Q10]]]]]]]]]]].
      rewrite NX, ?BX, <- ?A2 in *. repeat split; auto; try apply Q3.
      exists b, c. repeat split; auto. intros k. rewrite Q10, V4. reflexivity.
    - exists ix1, (Ok tt). do 4 (split; [auto|]). repeat split; auto. }
  destruct Z as [ix2 [r2 [E2 [I2 [A2 [N2 R2]]]]]]. rewrite E2.
  destruct r2 as [u|e|p|]; [|exists ix2, (Err e)|exists ix2, (Panic p)|contradiction]; cbn [recast];
    [|auto|split; [reflexivity|split; [exact I2|tauto]]].
  destruct R2 as [Q1 [Q2 [Q3 Q4]]].
  unfold total_size_bytes, checked_add, LEAD_IN.
  destruct (sg_next s + 28 <? two64) eqn:C1; [|exists ix2, (Err ESegmentAddressOverflow); cbn [recast]; auto].
  destruct (ix_next ix2 + (sg_next s + 28) <? two64) eqn:C2; [|exists ix2, (Err ESegmentAddressOverflow); auto].
  exists (set_next ix2 (ix_next ix2 + (sg_next s + 28))), (Ok (ix_next ix2 + (sg_next s + 28))).
  split; [reflexivity|]. split; [now apply inv_next|]. cbn [set_next ix_next ix_active ix_blocks].
  change (forall k, known (set_next ix2 (ix_next ix2 + (sg_next s + 28))) k <-> known ix k \/ mentioned (seg_objs s) k)
    with (forall k, known ix2 k <-> known ix k \/ mentioned (seg_objs s) k).
  change (forall k, channel_format (set_next ix2 (ix_next ix2 + (sg_next s + 28))) k = fold_left (fmt_obj k) (seg_objs s) (channel_format ix k))
    with (forall k, channel_format ix2 k = fold_left (fmt_obj k) (seg_objs s) (channel_format ix k)).
  split; [lia|]. split; [lia|]. split; [reflexivity|]. split; [now rewrite A2|].
  split; [intros k; rewrite Q1; apply V1|]. split; [intros k; rewrite Q2; apply V2|].
  split; [intros k n; rewrite <- V3; apply Q3|].
  destruct (toc_raw (sg_toc s)); [|exact Q4].
  destruct Q4 as [H1 [H2 [b [c [H3 [H4 [H5 [H6 H7]]]]]]]]. split; [exact H1|]. split; [exact H2|].
  exists c. rewrite <- N2. rewrite N2. assert (Hb : b = seg_block ix2 (ix_next ix) s) by (apply H5; lia).
  change (seg_block (set_next ix2 (ix_next ix + (sg_next s + 28))) (ix_next ix) s) with (seg_block ix2 (ix_next ix) s).
  rewrite <- Hb. repeat split; auto.
Qed.

Lemma add_segment_inv E ix s : inv ix -> inv (fst (add_segment E ix s)).
Proof. intros I. destruct (add_segment_spec E ix s I) as [ix' [r [-> [I' _]]]]. exact I'. Qed.
