(** * C91 How many paths are compared on opening *)
From Coq Require Import Strings.String.
From Verif Require Import Base Lib DataTypes MetaData Maps DataBlock Index RawData ChannelReader TdmsFile Vectors
  SpecCodec SpecIndex SpecSession SpecRead SpecWrite SpecLookups Index_proofs History_proofs Session_proofs Open_proofs Thm_Index Thm_Write
  Reopen_proofs Thm_Reopen Thm_Bulk.
Close Scope string_scope.

(** Counting changes nothing else. *)
Lemma counted_same os : forall ix, fst (add_objects_counted ix os) = add_objects ix os.
Proof.
  induction os as [|o os IH]; intros ix; [reflexivity|]. cbn [add_objects_counted add_objects].
  destruct (match om_idx o with RINone => update_meta_object ix o | _ => update_or_activate ix o end) as [ix1 [u| | |]]; try reflexivity.
  specialize (IH ix1). destruct (add_objects_counted ix1 os) as [q n]. exact IH.
Qed.
Lemma counted_exact os : forall ix ix1, inv ix -> add_objects ix os = (ix1, Ok tt) ->
  snd (add_objects_counted ix os) = objs_compared (map a_path (ix_active ix)) os.
Proof.
  induction os as [|o os IH]; intros ix ix1 Iv Ea; [reflexivity|]. cbn [objs_compared add_objects_counted] in *. rewrite add_objects_cons in Ea.
  destruct (add_object_spec ix o Iv) as [ix0 [E0 [I0 [_ [_ [_ Ha]]]]]]. unfold add_object in *. rewrite E0 in *.
  destruct (no_format ix o); [discriminate|]. specialize (Ha eq_refl).
  specialize (IH ix0 ix1 I0 Ea). destruct (add_objects_counted ix0 os) as [q n]. cbn [snd] in *. rewrite IH, Ha. reflexivity.
Qed.

(** The comparisons made while a segment is added to the index of those before it
    are those given by the segments alone. *)
Theorem C91_counted : forall E H ix s ix' n, accepted E H ix -> add_segment E ix s = (ix', Ok n) ->
  let ix0 := if toc_newlist (sg_toc s) then set_active ix [] else ix in
  (exists ix1, add_objects_counted ix0 (seg_objs s)
     = (ix1, Ok tt, objs_compared (if toc_newlist (sg_toc s) then [] else active_after H) (seg_objs s)))
  /\ compared (H ++ [s]) = compared H + snd (add_objects_counted ix0 (seg_objs s)).
Proof.
  intros E H ix s ix' n A Ad ix0. destruct (accepted_described _ _ _ A) as [Iv [_ [_ [Ha _]]]].
  assert (I0 : inv ix0) by (unfold ix0; destruct (toc_newlist (sg_toc s)); [now apply inv_deactivate|exact Iv]).
  assert (A0 : map a_path (ix_active ix0) = if toc_newlist (sg_toc s) then [] else active_after H)
    by (unfold ix0; destruct (toc_newlist (sg_toc s)); [reflexivity|exact Ha]).
  assert (Eo : exists ix1, add_objects ix0 (seg_objs s) = (ix1, Ok tt)).
  { unfold add_segment in Ad. fold ix0 in Ad.
    assert (Em : match sg_meta s with Some objs => add_objects ix0 objs | None => (ix0, Ok tt) end = add_objects ix0 (seg_objs s))
      by (unfold seg_objs; destruct (sg_meta s); reflexivity).
    rewrite Em in Ad. destruct (add_objects ix0 (seg_objs s)) as [ix1 [[]| | |]]; try discriminate. eauto. }
  destruct Eo as [ix1 Eo]. pose proof (counted_exact _ _ _ I0 Eo) as C. rewrite A0 in C.
  split.
  - exists ix1. pose proof (counted_same (seg_objs s) ix0) as Sm. rewrite Eo in Sm.
    destruct (add_objects_counted ix0 (seg_objs s)) as [q c]. cbn [fst snd] in *. congruence.
  - rewrite C. unfold compared, active_after. clear. revert H.
    assert (G : forall H l, compared_from l (H ++ [s]) = compared_from l H
      + objs_compared (if toc_newlist (sg_toc s) then [] else fold_left act_seg H l) (seg_objs s)).
    { induction H as [|a H IH]; intros l; cbn [app compared_from fold_left]; [lia|]. rewrite IH. lia. }
    intros H. apply G.
Qed.

(** ** Never more than the square of the number of objects *)
Lemma looked_le p l : looked p l <= lenN l.
Proof. induction l as [|q l IH]; cbn [looked]; [apply N.le_0_l|]. rewrite lenN_cons. destruct (str_eqb q p); lia. Qed.
Lemma objs_bound os : forall l, objs_compared l os <= lenN os * (lenN l + lenN os).
Proof.
  induction os as [|o os IH]; intros l; cbn [objs_compared]; [apply N.le_0_l|].
  specialize (IH (act_obj l o)). pose proof (act_obj_len l o). pose proof (looked_le (om_path o) l). rewrite lenN_cons.
  assert (K : (match om_idx o with RINone => 0 | _ => looked (om_path o) l end) <= lenN l) by (destruct (om_idx o); lia).
  clear -IH H K. nia.
Qed.
Lemma compared_bound H : forall l, compared_from l H <= lenN (all_objs H) * (lenN l + lenN (all_objs H)).
Proof.
  induction H as [|s H IH]; intros l; cbn [compared_from]; [apply N.le_0_l|].
  specialize (IH (act_seg l s)). pose proof (objs_bound (seg_objs s) (if toc_newlist (sg_toc s) then [] else l)) as B.
  pose proof (act_objs_len (seg_objs s) (if toc_newlist (sg_toc s) then [] else l)) as B2. fold (act_seg l s) in B2.
  assert (K : lenN (if toc_newlist (sg_toc s) then [] else l) <= lenN l) by (destruct (toc_newlist (sg_toc s)); [apply N.le_0_l|lia]).
  change (all_objs (s :: H)) with (seg_objs s ++ all_objs H). rewrite lenN_app.
  set (a := lenN (if toc_newlist (sg_toc s) then [] else l)) in *. set (b := lenN (seg_objs s)) in *. set (c := lenN (all_objs H)) in *.
  set (d := lenN l) in *. set (x := lenN (act_seg l s)) in *. clearbody a b c d x. clear -IH B B2 K. nia.
Qed.
Theorem C91_bound : forall H, compared H <= lenN (all_objs H) * lenN (all_objs H).
Proof. intros H. pose proof (compared_bound H []) as K. change (lenN (@nil str)) with 0 in K. unfold compared. lia. Qed.

(** ** Different channels: each is compared with all those before it *)
Lemma looked_absent p l : ~ In p l -> looked p l = lenN l.
Proof.
  induction l as [|q l IH]; intros Hn; cbn [looked]; [reflexivity|]. rewrite lenN_cons.
  destruct (str_eqb q p) eqn:K; [exfalso; apply Hn; left; now apply str_eqb_eq|]. rewrite IH; [lia|]. intros X. apply Hn. now right.
Qed.
Lemma existsb_absent p l : ~ In p l -> existsb (str_eqb p) l = false.
Proof.
  intros Hn. destruct (existsb (str_eqb p) l) eqn:K; [|reflexivity]. apply existsb_exists in K. destruct K as [q [Hq X]].
  apply str_eqb_eq in X. subst q. contradiction.
Qed.
Lemma different os : forall l, NoDup (l ++ map om_path os) -> Forall (fun o => om_idx o <> RINone) os ->
  2 * objs_compared l os + lenN os = lenN os * (2 * lenN l + lenN os).
Proof.
  induction os as [|o os IH]; intros l Nd Fd; cbn [objs_compared map] in *; [reflexivity|].
  inversion Fd as [|? ? F1 F2]; subst. pose proof (NoDup_remove_2 _ _ _ Nd) as Nin.
  assert (Nl : ~ In (om_path o) l) by (intros X; apply Nin; apply in_or_app; now left).
  assert (Ea : act_obj l o = l ++ [om_path o]) by (unfold act_obj; rewrite (existsb_absent _ _ Nl); destruct (om_idx o); congruence).
  rewrite Ea. specialize (IH (l ++ [om_path o])). rewrite <- app_assoc in IH. specialize (IH Nd F2).
  rewrite lenN_app in IH. change (lenN [om_path o]) with 1 in IH. rewrite lenN_cons.
  replace (match om_idx o with RINone => 0 | _ => looked (om_path o) l end) with (lenN l)
    by (rewrite (looked_absent _ _ Nl); destruct (om_idx o); congruence).
  set (a := lenN l) in *. set (b := lenN os) in *. set (c := objs_compared (l ++ [om_path o]) os) in *. clearbody a b c. clear -IH. nia.
Qed.
Theorem C91_different : forall s,
  toc_newlist (sg_toc s) = true -> NoDup (map om_path (seg_objs s)) -> Forall (fun o => om_idx o <> RINone) (seg_objs s) ->
  let k := lenN (seg_objs s) in forall H, 2 * compared (H ++ [s]) = 2 * compared H + k * (k - 1).
Proof.
  intros s Nl Nd Fd k H. unfold compared.
  assert (G : forall H l, compared_from l (H ++ [s]) = compared_from l H + objs_compared [] (seg_objs s)).
  { clear -Nl. induction H as [|a H IH]; intros l; cbn [app compared_from]; [rewrite Nl; lia|]. rewrite IH. lia. }
  rewrite G. pose proof (different (seg_objs s) [] Nd Fd) as D. change (lenN (@nil str)) with 0 in D. fold k in D.
  destruct (k =? 0) eqn:K; [apply N.eqb_eq in K; rewrite K in *; lia|]. apply N.eqb_neq in K. nia.
Qed.

(** So opening takes time that grows with the square of the size of the file. *)
Theorem C91_family : forall E L, (0 < L)%nat ->
  let k := 2 ^ N.of_nat L in let size := 32 + k * (N.of_nat L + 29) in
  size < 2 ^ 32 -> 2 ^ 32 <= seek_max E -> (forall a n, n < 2 ^ 31 -> alloc_ok E a n = true) ->
  exists f F H, tdms_new E f = Ok F /\ file_segments E f H /\ lenN f = size /\ 2 * compared H = k * (k - 1).
Proof.
  intros E L Lp k size Sz Sk Al. destruct (do_call E empty_file (wide L)) as [F r] eqn:Ew.
  destruct (wide_file E L F r Lp Ew Sz Sk Al) as [H [Se [Op [Ex [Act [_ [Lb [_ [s [-> [Fs [Mp Nn]]]]]]]]]]]].
  exists (tf_bytes F), F, [s]. split; [exact Op|]. split; [exact Fs|]. split; [exact Lb|].
  assert (Lk : lenN (seg_objs s) = k) by (rewrite <- (lenN_map om_path), Mp; apply names_count).
  unfold compared. cbn [compared_from]. pose proof (names_nodup L) as Nd. rewrite <- Mp in Nd.
  assert (Z : (if toc_newlist (sg_toc s) then @nil str else []) = []) by (destruct (toc_newlist (sg_toc s)); reflexivity). rewrite Z.
  pose proof (different (seg_objs s) [] Nd Nn) as D. change (lenN (@nil str)) with 0 in D. rewrite Lk in D.
  assert (K : 0 < k) by (unfold k; pose proof (N.pow_nonzero 2 (N.of_nat L)); lia). nia.
Qed.
Theorem C91_proportional_refuted :
  (exists f F H, tdms_new dbg f = Ok F /\ file_segments dbg f H /\ lenN f <= 710000 /\ 190 * lenN f < compared H)
  /\ (exists f F H, tdms_new dbg f = Ok F /\ file_segments dbg f H /\ lenN f <= 2000000000 /\ 2 ^ 48 <= compared H).
Proof.
  assert (Al : forall a n, n < 2 ^ 31 -> alloc_ok dbg a n = true) by (intros a n Hn; apply N.ltb_lt; exact Hn).
  split.
  - destruct (C91_family dbg 14) as [f [F [H [O [Fs [Lf Hf]]]]]]; [lia|reflexivity|discriminate|exact Al|].
    exists f, F, H. split; [exact O|]. split; [exact Fs|]. split; [rewrite Lf; discriminate|].
    assert (X : 2 * (190 * lenN f) < 2 * compared H) by (rewrite Lf, Hf; reflexivity). lia.
  - destruct (C91_family dbg 25) as [f [F [H [O [Fs [Lf Hf]]]]]]; [lia|reflexivity|discriminate|exact Al|].
    exists f, F, H. split; [exact O|]. split; [exact Fs|]. split; [rewrite Lf; discriminate|].
    assert (X : 2 * 2 ^ 48 <= 2 * compared H) by (rewrite Hf; discriminate). lia.
Qed.

(** Four channels in a new list: 0 + 1 + 2 + 3; naming the last of them again
    without a new list takes four more. *)
Definition C91_objs : list objmeta := map (fun p => mkObj p [] (RIRaw (mkRaw U8 1 None))) (names 2).
Definition C91_one : segment := mkSeg (mkToc true true false false false true) 1000 900 (Some C91_objs).
Definition C91_two : segment :=
  mkSeg (mkToc true true false false false false) 1000 900 (Some [mkObj (last (names 2) []) [] RIMatch]).
Example C91_case : compared [C91_one] = 6 /\ compared [C91_one; C91_two] = 10.
Proof. split; reflexivity. Qed.
Example C91_case_counted : exists ix ix' n, accepted dbg [C91_one] ix /\ add_segment dbg ix C91_two = (ix', Ok n).
Proof.
  destruct (add_segment dbg index_new C91_one) as [ix [n| | |]] eqn:X; [|exfalso; vm_compute in X; discriminate..].
  destruct (add_segment dbg ix C91_two) as [ix' [n'| | |]] eqn:Y; [|exfalso; vm_compute in X; injection X as <- <-; vm_compute in Y; discriminate..].
  exists ix, ix', n'. split; [|exact Y]. exact (acc_snoc dbg [] index_new C91_one ix n (acc_nil _) X).
Qed.
Example C91_case_different : toc_newlist (sg_toc C91_one) = true /\ NoDup (map om_path (seg_objs C91_one))
  /\ Forall (fun o => om_idx o <> RINone) (seg_objs C91_one).
Proof.
  split; [reflexivity|]. split; [exact (names_nodup 2)|]. repeat constructor; discriminate.
Qed.
Print Assumptions C91_counted.
Print Assumptions C91_bound.
Print Assumptions C91_different.
Print Assumptions C91_family.
Print Assumptions C91_proportional_refuted.
