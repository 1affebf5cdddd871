(** * Index and files under API calls, successful or not *)
From Verif Require Import Base Lib DataTypes MetaData Maps DataBlock Index RawData TdmsFile
  SpecIndex SpecSession Maps_proofs Parse_proofs Index_proofs History_proofs Open_proofs.

(** ** Raw data does not touch formats and properties *)
Definition face (od : objdata) : smap pval * option rawmeta := (o_props od, o_fmt od).

Lemma insert_locs_face blk c l : forall objs i k,
  option_map face (map_get k (fst (insert_locs objs blk c i l))) = option_map face (map_get k objs).
Proof.
  induction l as [|a l IH]; intros objs i k; cbn [insert_locs]; [reflexivity|].
  destruct (checked_mul (a_n a) c) as [n|]; [|reflexivity].
  destruct (map_get (a_path a) objs) eqn:G; [|reflexivity].
  rewrite IH, map_get_alter. destruct (str_eqb k (a_path a)) eqn:K; [|reflexivity].
  destruct (map_get k objs); reflexivity.
Qed.

Lemma add_raw_face E ix s k :
  option_map face (map_get k (ix_objs (fst (add_raw E ix s)))) = option_map face (map_get k (ix_objs ix)).
Proof.
  unfold add_raw. destruct (active_metas (ix_objs ix) (ix_active ix)) as [[|m ms]| | |]; try reflexivity.
  destruct (from_segment E s (ix_next ix) (m :: ms)); try reflexivity.
  unfold insert_data_block. destruct (number_of_chunks a); try reflexivity.
  pose proof (insert_locs_face (length (ix_blocks ix)) a0 (ix_active ix) (ix_objs ix) 0 k) as H.
  destruct (insert_locs _ _ _ _ _) as [objs r]. exact H.
Qed.

Lemma face_known ix ix' : (forall k, option_map face (map_get k (ix_objs ix')) = option_map face (map_get k (ix_objs ix))) ->
  (forall k, known ix' k <-> known ix k)
  /\ (forall k, channel_format ix' k = channel_format ix k)
  /\ (forall k n, prop_of ix' k n = prop_of ix k n).
Proof.
  intros H. split; [|split]; intros k; specialize (H k); unfold known, channel_format, prop_of;
    destruct (map_get k (ix_objs ix')), (map_get k (ix_objs ix)); cbn [option_map] in H;
    unfold face in H; try discriminate; try (injection H as H1 H2); try (split; congruence);
    try congruence; intros n; try rewrite H1; reflexivity.
Qed.

(** The objects of a segment are processed first, whatever happens next. *)
Lemma add_segment_objs E ix s :
  let ix0 := if toc_newlist (sg_toc s) then set_active ix [] else ix in
  snd (add_objects ix0 (seg_objs s)) = Ok tt -> forall k,
  option_map face (map_get k (ix_objs (fst (add_segment E ix s)))) =
  option_map face (map_get k (ix_objs (fst (add_objects ix0 (seg_objs s))))).
Proof.
  intros ix0 H k. unfold add_segment. fold ix0.
  assert (Em : match sg_meta s with Some objs => add_objects ix0 objs | None => (ix0, Ok tt) end
               = add_objects ix0 (seg_objs s)) by (unfold seg_objs; destruct (sg_meta s); reflexivity).
  rewrite Em. destruct (add_objects ix0 (seg_objs s)) as [ix1 r1]. cbn [snd fst] in *. subst r1.
  pose proof (add_raw_face E ix1 s k) as R.
  destruct (toc_raw (sg_toc s)).
  - destruct (add_raw E ix1 s) as [ix2 [u| | |]]; cbn [fst] in R; try exact R.
    destruct (total_size_bytes s); try exact R. destruct (checked_add (ix_next ix2) a); exact R.
  - destruct (total_size_bytes s); try reflexivity. destruct (checked_add (ix_next ix1) a); reflexivity.
Qed.

(** What holds of the index of any session. *)
Definition told (H : list segment) (ix : index) : Prop :=
  inv ix
  /\ (forall k, known ix k <-> mentioned (all_objs H) k)
  /\ (forall k, channel_format ix k = last_format (all_objs H) k)
  /\ (forall k n, prop_of ix k n = last_prop (all_objs H) k n).

Lemma fmt_some k os : forall m, fold_left (fmt_obj k) os (Some m) <> None.
Proof.
  induction os as [|o os IH]; intros m; cbn [fold_left]; [discriminate|].
  unfold fmt_obj at 2. destruct (str_eqb k (om_path o)); [|apply IH].
  destruct (om_idx o); apply IH.
Qed.

(** A segment whose 'same as previous' objects all have a format. *)
Definition resolvable (H : list segment) (s : segment) : Prop :=
  forall o, In o (seg_objs s) -> om_idx o = RIMatch -> last_format (all_objs H) (om_path o) <> None.

Lemma told_step E H ix s : told H ix -> resolvable H s -> told (H ++ [s]) (fst (add_segment E ix s)).
Proof.
  intros [I [Hk [Hf Hp]]] Hr.
  set (ix0 := if toc_newlist (sg_toc s) then set_active ix [] else ix).
  assert (I0 : inv ix0) by (unfold ix0; destruct (toc_newlist (sg_toc s)); [now apply inv_deactivate|exact I]).
  assert (O0 : ix_objs ix0 = ix_objs ix) by (unfold ix0; destruct (toc_newlist (sg_toc s)); reflexivity).
  assert (OK : snd (add_objects ix0 (seg_objs s)) = Ok tt).
  { destruct (add_objects_spec (seg_objs s) ix0 I0) as [ix1 [r1 [E1 [_ [_ [_ [_ R]]]]]]].
    destruct R as [[-> _]| ->]; [rewrite E1; reflexivity|]. exfalso.
    assert (X : snd (add_objects ix0 (seg_objs s)) = Err ENoPreviousType) by (rewrite E1; reflexivity).
    apply add_objects_fails in X; [|exact I0]. destruct X as [pre [o [post [Eq [Ho Hn]]]]].
    assert (C : channel_format ix0 (om_path o) = last_format (all_objs H) (om_path o)).
    { rewrite <- Hf. unfold channel_format. now rewrite O0. }
    rewrite C in Hn. destruct (last_format (all_objs H) (om_path o)) eqn:L.
    - now apply fmt_some in Hn.
    - apply (Hr o); auto. rewrite Eq. apply in_or_app. right. left. reflexivity. }
  pose proof (add_segment_objs E ix s OK) as Fc. fold ix0 in Fc.
  apply face_known in Fc. destruct Fc as [F1 [F2 F3]].
  destruct (add_objects_spec (seg_objs s) ix0 I0) as [ix1 [r1 [E1 [_ [_ [_ [_ R]]]]]]].
  rewrite E1 in OK, F1, F2, F3. cbn [snd fst] in *. subst r1.
  destruct R as [[_ [_ [K1 [K2 K3]]]]|R]; [|discriminate].
  split; [|split; [|split]].
  - destruct (add_segment_spec E ix s I) as [ix' [r [E2 [I2 _]]]]. now rewrite E2.
  - intros k. rewrite F1, K1. unfold known. rewrite O0. fold (known ix k). rewrite Hk.
    unfold mentioned, all_objs. rewrite flat_map_app. cbn [flat_map]. rewrite app_nil_r, map_app, in_app_iff. reflexivity.
  - intros k. rewrite F2, K2. unfold channel_format at 1. rewrite O0. fold (channel_format ix k). rewrite Hf.
    unfold last_format, all_objs. rewrite flat_map_app, fold_left_app. cbn [flat_map]. now rewrite app_nil_r.
  - intros k n. rewrite F3, K3. unfold prop_of at 1. rewrite O0. fold (prop_of ix k n). rewrite Hp.
    unfold last_prop, all_objs. rewrite flat_map_app, fold_left_app. cbn [flat_map]. now rewrite app_nil_r.
Qed.

(** ** API calls *)
Lemma wrote_add E F s F' r : wrote E F s F' r ->
  exists bs n, tf_bytes F' = tf_bytes F ++ bs
    /\ add_segment E (tf_ix F) s = (tf_ix F', n) /\ r = (_n <- n ;; Ok tt).
Proof.
  intros [e path props bs s0 F0 r0 W X|e t chans vs lay bs s0 F0 r0 W X].
  - unfold write_properties_e in X. rewrite W in X.
    destruct (add_segment E (tf_ix F) s0) as [ix' q]. injection X as <- <-. exists bs, q. repeat split.
  - unfold write_channels_e in X. rewrite W in X.
    destruct (add_segment E (tf_ix F) s0) as [ix' q]. injection X as <- <-. exists bs, q. repeat split.
Qed.

(** The objects of the segment of [write_channels]. *)
Lemma stream_objs e t ix chans vs lay bs s : stream_segment e t ix chans vs lay = Ok (bs, s) ->
  forall o, In o (seg_objs s) -> In (om_path o) chans /\ om_props o = []
    /\ ((om_idx o = RIMatch /\ channel_format ix (om_path o) <> None)
        \/ om_idx o = RIRaw (mkRaw (natural t) (lenN vs / lenN chans) None)).
Proof.
  unfold stream_segment. destruct chans as [|c cs] eqn:Ec; [discriminate|]. rewrite <- Ec.
  destruct (negb (lenN vs mod lenN chans =? 0)); [discriminate|].
  unfold check_write_values. set (objs := combine chans (slice_structure t vs (length chans))).
  set (mt := match ix_active ix with [] => false | _ => _ end). intros X. injection X as _ <-.
  unfold seg_objs. cbn [sg_meta]. destruct mt; [intros o []|]. intros o Hin.
  rewrite map_map in Hin. apply in_map_iff in Hin. destruct Hin as [[p m] [<- Hin]]. cbn [fst snd].
  assert (Hp : In p chans) by (eapply in_combine_l; exact Hin).
  apply in_combine_r in Hin. unfold slice_structure in Hin. apply repeat_spec in Hin.
  change (N.of_nat (length chans)) with (lenN chans) in Hin.
  destruct (channel_format ix p) as [last|] eqn:C.
  - destruct (rawmeta_eqb last m); cbn [om_path om_props om_idx fst snd]; repeat split; auto.
    + left. split; [reflexivity|congruence].
    + right. congruence.
  - cbn [om_path om_props om_idx fst snd]. repeat split; auto. right. congruence.
Qed.

Lemma wrote_objs E F s F' r : wrote E F s F' r -> forall o, In o (seg_objs s) ->
  om_idx o = RINone \/ (om_idx o = RIMatch /\ channel_format (tf_ix F) (om_path o) <> None)
  \/ exists m, om_idx o = RIRaw m /\ rm_total m = None.
Proof.
  intros [e path props bs s0 F0 r0 W X|e t chans vs lay bs s0 F0 r0 W X] o Hin.
  - unfold write_segment in W. injection W as _ <-. destruct Hin as [<-|[]]. auto.
  - destruct (stream_objs _ _ _ _ _ _ _ _ W o Hin) as [_ [_ [H|H]]]; [auto|].
    right. right. eexists. split; [exact H|reflexivity].
Qed.

Lemma wrote_plain E F s F' r : wrote E F s F' r -> plain s.
Proof.
  intros W. apply Forall_forall. intros o Hin. unfold plain_obj.
  destruct (wrote_objs _ _ _ _ _ W o Hin) as [->|[[-> _]|[m [-> H]]]]; auto.
Qed.

Lemma wrote_resolvable E H F s F' r : told H (tf_ix F) -> wrote E F s F' r -> resolvable H s.
Proof.
  intros [_ [_ [Hf _]]] W o Hin Hm. rewrite <- Hf.
  destruct (wrote_objs _ _ _ _ _ W o Hin) as [X|[[_ X]|[m [X _]]]]; congruence.
Qed.

Lemma tdms_new_ok E f F : tdms_new E f = Ok F -> build_index E f = Ok (tf_ix F) /\ tf_bytes F = f.
Proof. unfold tdms_new. intros H. bind_inv. auto. Qed.

Lemma accepted_told E H ix : accepted E H ix -> told H ix.
Proof.
  intros A. destruct (accepted_described _ _ _ A) as [I [_ [_ [_ [Hk [Hf [Hp _]]]]]]].
  split; [exact I|auto].
Qed.

Lemma any_session_told E H F : any_session E H F -> told H (tf_ix F).
Proof.
  induction 1 as [f F H FS O|H F s F' r S IH W|H F f S IH]; [| |exact IH].
  - apply tdms_new_ok in O. destruct O as [O _]. destruct (open_segments E f _ H O FS) as [A _].
    eapply accepted_told; eauto.
  - pose proof (wrote_resolvable _ _ _ _ _ _ IH W) as R.
    apply wrote_add in W. destruct W as [bs [n [_ [A _]]]].
    pose proof (told_step E H (tf_ix F) s IH R) as T. rewrite A in T. exact T.
Qed.

Lemma session_any E H F : session E H F -> any_session E H F.
Proof. induction 1; [eapply as_open; eauto|eapply as_write; eauto|now apply as_bytes]. Qed.

Lemma session_accepted E H F : session E H F -> accepted E H (tf_ix F) /\ Forall plain H.
Proof.
  induction 1 as [f F H FS O|H F s F' S IH W|H F f S IH]; [| |exact IH].
  - apply tdms_new_ok in O. destruct O as [O _]. now apply (open_segments E f).
  - destruct IH as [A P]. pose proof (wrote_plain _ _ _ _ _ W) as Pl.
    apply wrote_add in W. destruct W as [bs [n [_ [Ha Hr]]]].
    destruct n as [n| | |]; try discriminate. split.
    + econstructor; eauto.
    + apply Forall_app. split; [exact P|]. constructor; [exact Pl|constructor].
Qed.

(** ** Properties are listed once *)
Definition psorted (objs : smap objdata) : Prop :=
  forall k od, map_get k objs = Some od -> sorted (map_keys (o_props od)).

Lemma insert_props_sorted ps : forall m, sorted (map_keys m) -> sorted (map_keys (insert_props ps m)).
Proof.
  unfold insert_props. induction ps as [|p ps IH]; intros m H; cbn [fold_left]; [exact H|].
  apply IH. now apply map_insert_sorted.
Qed.

Lemma od_update_sorted od o : sorted (map_keys (o_props od)) ->
  sorted (map_keys (o_props (fst (od_update od o)))).
Proof.
  intros H. unfold od_update. destruct (o_fmt od), (om_idx o); cbn [fst o_props]; now apply insert_props_sorted.
Qed.

Lemma alter_psorted k g objs : psorted objs ->
  (forall od, map_get k objs = Some od -> sorted (map_keys (o_props (g od)))) -> psorted (map_alter k g objs).
Proof.
  intros H Hg k' od G. rewrite map_get_alter in G. destruct (str_eqb k' k) eqn:K.
  - apply str_eqb_eq in K. subst k'. destruct (map_get k objs) eqn:Q; [|discriminate].
    injection G as <-. now apply Hg.
  - eapply H; eauto.
Qed.

Lemma update_meta_psorted ix o : psorted (ix_objs ix) -> psorted (ix_objs (fst (update_meta_object ix o))).
Proof.
  intros H. unfold update_meta_object. destruct (map_get (om_path o) (ix_objs ix)) as [od|] eqn:G.
  - pose proof (od_update_sorted od o (H _ _ G)) as S. destruct (od_update od o) as [od' r]. cbn [fst] in *.
    cbn [set_objs ix_objs]. apply alter_psorted; auto.
  - unfold od_from. pose proof (od_update_sorted (mkOD (om_path o) [] [] None) o) as S.
    destruct (od_update _ o) as [od' r]. cbn [fst o_props] in S.
    destruct r as [u|e|p|]; cbn [bind]; try exact H.
    destruct (map_get (o_path od') (ix_objs ix)); [exact H|]. cbn [fst set_objs ix_objs].
    intros k od Q. rewrite map_get_insert in Q. destruct (str_eqb k (o_path od')); [|eapply H; eauto].
    injection Q as <-. apply S. constructor.
Qed.

Lemma add_object_psorted ix o : psorted (ix_objs ix) -> psorted (ix_objs (fst (add_object ix o))).
Proof.
  intros H. unfold add_object. destruct (om_idx o) eqn:X; [now apply update_meta_psorted| |];
  (unfold update_or_activate; destruct (is_active (om_path o) (ix_active ix)); [|
     pose proof (update_meta_psorted ix o H) as U; destruct (update_meta_object ix o) as [ix1 [u|e|p|]]; try exact U;
     destruct (channel_format ix1 (om_path o)); exact U]; cbn [set_active ix_objs];
   destruct (map_get (om_path o) (ix_objs ix)) as [od|] eqn:G; [|exact H];
   pose proof (od_update_sorted od o (H _ _ G)) as S; destruct (od_update od o) as [od' r]; cbn [fst] in *;
   cbn [set_objs ix_objs]; apply alter_psorted; auto).
Qed.

Lemma add_objects_psorted os : forall ix, psorted (ix_objs ix) -> psorted (ix_objs (fst (add_objects ix os))).
Proof.
  induction os as [|o os IH]; intros ix H; [exact H|]. rewrite add_objects_cons.
  pose proof (add_object_psorted ix o H) as S. destruct (add_object ix o) as [ix1 [u|e|p|]]; try exact S.
  now apply IH.
Qed.

Lemma face_psorted objs objs' : psorted objs ->
  (forall k, option_map face (map_get k objs') = option_map face (map_get k objs)) -> psorted objs'.
Proof.
  intros H F k od G. specialize (F k). rewrite G in F. destruct (map_get k objs) as [od0|] eqn:Q; [|discriminate].
  cbn in F. injection F as Fp _. rewrite Fp. eapply H; eauto.
Qed.

Lemma add_segment_psorted E ix s : psorted (ix_objs ix) -> psorted (ix_objs (fst (add_segment E ix s))).
Proof.
  intros H. unfold add_segment.
  set (ix0 := if toc_newlist (sg_toc s) then set_active ix [] else ix).
  assert (H0 : psorted (ix_objs ix0)) by (unfold ix0; destruct (toc_newlist (sg_toc s)); exact H).
  assert (Em : match sg_meta s with Some objs => add_objects ix0 objs | None => (ix0, Ok tt) end
               = add_objects ix0 (seg_objs s)) by (unfold seg_objs; destruct (sg_meta s); reflexivity).
  rewrite Em. pose proof (add_objects_psorted (seg_objs s) ix0 H0) as H1.
  destruct (add_objects ix0 (seg_objs s)) as [ix1 [u|e|p|]]; try exact H1. cbn [fst] in H1.
  assert (H2 : psorted (ix_objs (fst (if toc_raw (sg_toc s) then add_raw E ix1 s else (ix1, Ok tt))))).
  { destruct (toc_raw (sg_toc s)); [|exact H1]. eapply face_psorted; [exact H1|]. intros k. apply add_raw_face. }
  destruct (if toc_raw (sg_toc s) then add_raw E ix1 s else (ix1, Ok tt)) as [ix2 [v|e|p|]]; try exact H2.
  destruct (total_size_bytes s); try exact H2. destruct (checked_add (ix_next ix2) a); exact H2.
Qed.

Lemma accepted_psorted E H ix : accepted E H ix -> psorted (ix_objs ix).
Proof.
  induction 1 as [|H ix s ix' n A IH Hs]; [intros k od; discriminate|].
  pose proof (add_segment_psorted E ix s IH) as P. rewrite Hs in P. exact P.
Qed.

Lemma any_session_psorted E H F : any_session E H F -> psorted (ix_objs (tf_ix F)).
Proof.
  induction 1 as [f F H FS O|H F s F' r S IH W|H F f S IH]; [| |exact IH].
  - apply tdms_new_ok in O. destruct O as [O _]. destruct (open_segments E f _ H O FS) as [A _].
    eapply accepted_psorted; eauto.
  - apply wrote_add in W. destruct W as [bs [n [_ [A _]]]].
    pose proof (add_segment_psorted E (tf_ix F) s IH) as P. rewrite A in P. exact P.
Qed.

(** ** The last property, as a statement about the list of objects *)
Lemma prop_step_spec n v ps : forall acc,
  fold_left (prop_step n) ps acc = Some v <->
  (exists a b, ps = a ++ (n, v) :: b /\ ~ In n (map fst b))
  \/ (acc = Some v /\ ~ In n (map fst ps)).
Proof.
  induction ps as [|[n' v'] ps IH]; intros acc; cbn [fold_left].
  - split; [intros ->; right; split; [reflexivity|intros []]|].
    intros [[a [b [H _]]]|[H _]]; [destruct a; discriminate|exact H].
  - rewrite IH. unfold prop_step. cbn [fst snd map In]. split.
    + intros [[a [b [-> H]]]|[H Hn]].
      * left. exists ((n', v') :: a), b. auto.
      * destruct (str_eqb n n') eqn:K.
        -- apply str_eqb_eq in K. subst n'. injection H as ->. left. exists [], ps. auto.
        -- apply str_eqb_neq in K. right. split; [exact H|]. intros [X|X]; [congruence|auto].
    + intros [[a [b [H Hn]]]|[H Hn]].
      * destruct a as [|x a].
        -- injection H as -> -> ->. rewrite str_eqb_refl. right. auto.
        -- injection H as _ ->. left. exists a, b. auto.
      * right. assert (K : str_eqb n n' = false) by (apply str_eqb_neq; intros ->; apply Hn; now left).
        rewrite K. split; [exact H|]. intros X. apply Hn. now right.
Qed.

Lemma last_prop_spec p n v os : forall acc,
  fold_left (prop_obj p n) os acc = Some v <->
  (exists os1 o os2 a b, os = os1 ++ o :: os2 /\ om_path o = p /\ om_props o = a ++ (n, v) :: b
     /\ ~ In n (map fst b)
     /\ (forall o', In o' os2 -> om_path o' = p -> ~ In n (map fst (om_props o'))))
  \/ (acc = Some v /\ forall o', In o' os -> om_path o' = p -> ~ In n (map fst (om_props o'))).
Proof.
  induction os as [|o os IH]; intros acc; cbn [fold_left].
  - split; [intros ->; right; split; [reflexivity|intros o []]|].
    intros [[os1 [o [os2 [a [b [H _]]]]]]|[H _]]; [destruct os1; discriminate|exact H].
  - rewrite IH. split.
    + intros [[os1 [o1 [os2 [a [b [-> H]]]]]]|[H Hn]].
      * left. exists (o :: os1), o1, os2, a, b. auto.
      * unfold prop_obj in H. destruct (str_eqb p (om_path o)) eqn:K.
        -- apply str_eqb_eq in K. apply prop_step_spec in H. destruct H as [[a [b [H1 H2]]]|[H1 H2]].
           ++ left. exists [], o, os, a, b. auto.
           ++ right. split; [exact H1|]. intros o' [<-|Hin] Hp; auto.
        -- apply str_eqb_neq in K. right. split; [exact H|]. intros o' [<-|Hin] Hp; [congruence|auto].
    + intros [[os1 [o1 [os2 [a [b [H [Hp [Hps [Hb Hn]]]]]]]]]|[H Hn]].
      * destruct os1 as [|x os1].
        -- injection H as -> ->. right. split; [|exact Hn]. unfold prop_obj. rewrite <- Hp, str_eqb_refl.
           apply prop_step_spec. left. exists a, b. auto.
        -- injection H as -> ->. left. exists os1, o1, os2, a, b. auto.
      * right. split; [|intros o' Hin; apply Hn; now right]. unfold prop_obj.
        destruct (str_eqb p (om_path o)) eqn:K; [|exact H]. apply str_eqb_eq in K.
        apply prop_step_spec. right. split; [exact H|]. apply Hn; [now left|auto].
Qed.

Lemma last_prop_none p n os : last_prop os p n = None <->
  forall o, In o os -> om_path o = p -> ~ In n (map fst (om_props o)).
Proof.
  unfold last_prop. split.
  - intros H. assert (X : fold_left (prop_obj p n) os (Some PVoid) = Some PVoid \/
       exists v, fold_left (prop_obj p n) os None = Some v).
    { clear H. generalize (@None pval) as acc. induction os as [|o os IH]; intros acc; cbn [fold_left]; [auto|].
      unfold prop_obj at 2 4. destruct (str_eqb p (om_path o)); [|apply IH].
      assert (Y : forall ps acc acc', fold_left (prop_step n) ps acc = acc /\ fold_left (prop_step n) ps acc' = acc'
          \/ exists v, fold_left (prop_step n) ps acc = Some v /\ fold_left (prop_step n) ps acc' = Some v).
      { clear. induction ps as [|x ps IH]; intros acc acc'; cbn [fold_left]; [auto|].
        unfold prop_step at 2 4 6 8. destruct (str_eqb n (fst x)); [|apply IH].
        destruct (IH (Some (snd x)) (Some (snd x))) as [[H _]|[v [H _]]]; right; eauto. }
      destruct (Y (om_props o) (Some PVoid) acc) as [[-> ->]|[v [-> ->]]]; [apply IH|].
      right. clear. assert (Z : forall v, exists w, fold_left (prop_obj p n) os (Some v) = Some w).
      { clear v. induction os as [|o1 os IH]; intros v; cbn [fold_left]; [eauto|]. unfold prop_obj at 2.
        destruct (str_eqb p (om_path o1)); [|apply IH].
        assert (W : forall ps v, exists w, fold_left (prop_step n) ps (Some v) = Some w).
        { clear. induction ps as [|x ps IH]; intros v; cbn [fold_left]; [eauto|]. unfold prop_step at 2.
          destruct (str_eqb n (fst x)); apply IH. }
        destruct (W (om_props o1) v) as [w ->]. apply IH. }
      apply Z. }
    destruct X as [X|[v X]]; [|congruence]. apply last_prop_spec in X. destruct X as [X|[_ X]]; [|exact X].
    destruct X as [os1 [o [os2 [a [b X]]]]]. exfalso.
    assert (Y : fold_left (prop_obj p n) os None = Some PVoid) by (apply last_prop_spec; left; exists os1, o, os2, a, b; exact X).
    congruence.
  - intros H. destruct (fold_left (prop_obj p n) os None) as [v|] eqn:Q; [|reflexivity].
    apply last_prop_spec in Q. destruct Q as [[os1 [o [os2 [a [b [-> [Hp [Hps _]]]]]]]]|[Q _]]; [|discriminate].
    exfalso. apply (H o); [apply in_or_app; right; now left|exact Hp|]. rewrite Hps, map_app.
    apply in_or_app. right. now left.
Qed.

Lemma get_property_spec ix p n :
  get_object_property ix p n =
  match map_get p (ix_objs ix) with Some _ => Ok (prop_of ix p n) | None => Err (EMissingObject p) end.
Proof. unfold get_object_property, prop_of. destruct (map_get p (ix_objs ix)); reflexivity. Qed.
