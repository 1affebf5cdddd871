(** * When [add_segment] succeeds *)
From Verif Require Import Base Lib DataTypes MetaData Maps DataBlock Index RawData TdmsFile
  SpecIndex SpecSession Maps_proofs Index_proofs History_proofs Session_proofs.

Lemma chunk_size_ok ms : Forall (fun m => rm_total m = None) ms -> forall acc,
  acc + chunk_bytes ms < two64 -> chunk_size_from (CFixed acc) ms = Ok (CFixed (acc + chunk_bytes ms)).
Proof.
  induction ms as [|m r IH]; intros Hp acc; cbn [chunk_size_from chunk_bytes fold_right]; intros H.
  - do 2 f_equal. lia.
  - inversion Hp; subst. fold (chunk_bytes r) in *. rewrite H2. unfold checked_mul, chunk_combine, checked_add.
    replace (rm_n m * dtype_size (rm_type m) <? two64) with true by lia.
    replace (acc + rm_n m * dtype_size (rm_type m) <? two64) with true by lia. cbn [bind].
    rewrite IH by (assumption || lia). do 2 f_equal. lia.
Qed.

Lemma number_of_chunks_ok b : Forall (fun m => rm_total m = None) (b_chans b) ->
  chunk_bytes (b_chans b) < two64 -> number_of_chunks b = Ok (whole_chunks b).
Proof.
  intros P H. unfold number_of_chunks, chunk_size. rewrite chunk_size_ok by (assumption || lia). reflexivity.
Qed.

Lemma add_objects_ok H ix0 os : inv ix0 -> (forall k, channel_format ix0 k = last_format (all_objs H) k) ->
  (forall o, In o os -> om_idx o = RIMatch -> last_format (all_objs H) (om_path o) <> None) ->
  exists ix1, add_objects ix0 os = (ix1, Ok tt).
Proof.
  intros I0 C Rs. destruct (add_objects_spec os ix0 I0) as [ix1 [r [E1 [_ [_ [_ [_ R]]]]]]].
  destruct R as [[-> _]| ->]; [eauto|]. exfalso.
  assert (X : snd (add_objects ix0 os) = Err ENoPreviousType) by (rewrite E1; reflexivity).
  apply add_objects_fails in X; [|exact I0]. destruct X as [pre [o [post [Eq [Ho Hnone]]]]].
  rewrite C in Hnone. destruct (last_format (all_objs H) (om_path o)) eqn:L.
  - now apply fmt_some in Hnone.
  - apply (Rs o); auto. rewrite Eq. apply in_or_app. right. now left.
Qed.

Definition fits_raw (H : list segment) (s : segment) : Prop :=
  sg_raw s < sg_next s /\ active_after (H ++ [s]) <> []
  /\ chunk_bytes (active_formats (H ++ [s])) < two64
  /\ Forall (fun m => rm_n m * whole_chunks (block_of H s) < two64) (active_formats (H ++ [s])).

Lemma add_segment_ok E H ix s : accepted E H ix -> Forall plain H -> plain s -> resolvable H s ->
  offset H + 28 + sg_next s < two64 -> (toc_raw (sg_toc s) = true -> fits_raw H s) ->
  exists ix', add_segment E ix s = (ix', Ok (offset H + 28 + sg_next s)).
Proof.
  intros A P Ps Rs Hof Hraw. destruct (accepted_described _ _ _ A) as [I [Hn [_ [Hact _]]]].
  pose proof (accepted_told _ _ _ A) as Td.
  unfold add_segment. set (ix0 := if toc_newlist (sg_toc s) then set_active ix [] else ix).
  assert (I0 : inv ix0) by (unfold ix0; destruct (toc_newlist (sg_toc s)); [now apply inv_deactivate|exact I]).
  assert (N0 : ix_next ix0 = ix_next ix) by (unfold ix0; destruct (toc_newlist (sg_toc s)); reflexivity).
  assert (O0 : ix_objs ix0 = ix_objs ix) by (unfold ix0; destruct (toc_newlist (sg_toc s)); reflexivity).
  assert (A0 : map a_path (ix_active ix0) = if toc_newlist (sg_toc s) then [] else map a_path (ix_active ix))
    by (unfold ix0; destruct (toc_newlist (sg_toc s)); reflexivity).
  assert (Em : match sg_meta s with Some objs => add_objects ix0 objs | None => (ix0, Ok tt) end
               = add_objects ix0 (seg_objs s)) by (unfold seg_objs; destruct (sg_meta s); reflexivity).
  destruct Td as [_ [_ [Hf _]]].
  assert (C : forall k, channel_format ix0 k = last_format (all_objs H) k).
  { intros k. rewrite <- Hf. unfold channel_format. now rewrite O0. }
  rewrite Em. destruct (add_objects_ok H ix0 (seg_objs s) I0 C Rs) as [ix1 E1].
  destruct (add_objects_spec (seg_objs s) ix0 I0) as [ix1' [r [E1' [I1 [_ [Nx [_ R]]]]]]].
  rewrite E1 in E1'. injection E1' as <- <-. destruct R as [[_ [Ra [_ [Rf _]]]]|]; [|discriminate].
  rewrite E1.
  assert (Ra' : map a_path (ix_active ix1) = active_after (H ++ [s])).
  { rewrite Ra, A0, Hact. unfold active_after. rewrite fold_left_app. reflexivity. }
  assert (Rf' : forall k, channel_format ix1 k = last_format (all_objs (H ++ [s])) k).
  { intros k. rewrite Rf, C. unfold last_format, all_objs. rewrite flat_map_app, fold_left_app.
    cbn [flat_map]. now rewrite app_nil_r. }
  assert (K : exists ix2, (if toc_raw (sg_toc s) then add_raw E ix1 s else (ix1, Ok tt)) = (ix2, Ok tt)
                          /\ ix_next ix2 = offset H).
  { destruct (toc_raw (sg_toc s)); [|exists ix1; split; [reflexivity|congruence]].
    destruct (Hraw eq_refl) as [F1 [F2 [F3 F4]]].
    unfold add_raw. destruct (active_metas_spec (ix_objs ix1) (ix_active ix1)) as [ms [Ems [Hl Hnth]]]; [apply I1|].
    rewrite Ems. pose proof (active_metas_map ix1 ms I1 Ems) as Hms.
    rewrite (active_formats_eq (H ++ [s]) ix1 Ra' Rf') in Hms.
    destruct ms as [|m ms].
    { exfalso. unfold active_formats in Hms. destruct (active_after (H ++ [s])); [congruence|discriminate]. }
    unfold from_segment.
    replace (sg_next s <? sg_raw s) with false by lia.
    replace (sg_next s - sg_raw s =? 0) with false by lia.
    unfold uadd, LEAD_IN. replace (sg_raw s + 28 <? two64) with true by lia. cbn [bind].
    replace (sg_raw s + 28 + ix_next ix1 <? two64) with true by lia. cbn [bind].
    unfold insert_data_block.
    match goal with |- context [number_of_chunks ?b] => set (b0 := b) end.
    assert (Wc : whole_chunks b0 = whole_chunks (block_of H s)).
    { unfold whole_chunks, b0, block_of. cbn [b_chans b_len]. now rewrite Hms. }
    rewrite number_of_chunks_ok.
    2: { unfold b0. cbn [b_chans]. rewrite Hms. apply active_formats_plain. apply Forall_app. auto. }
    2: { unfold b0. cbn [b_chans]. now rewrite Hms. }
    destruct (insert_locs_spec (length (ix_blocks ix1)) (whole_chunks b0) (ix_active ix1) (ix_objs ix1) 0)
      as [objs' [r [j [E2 [_ [_ [_ R]]]]]]].
    { intros a Ha. destruct (inv_act _ I1 a Ha) as [od [mm [G _]]]. congruence. }
    rewrite E2. destruct R as [[-> _]|[_ [a [Ha Hov]]]].
    - eexists. split; [reflexivity|]. cbn [ix_next]. congruence.
    - exfalso. apply In_nth_error in Ha. destruct Ha as [i Hi]. destruct (Hnth i a Hi) as [od [mm [M1 [_ [_ M2]]]]].
      rewrite <- Hms in F4. rewrite Forall_forall in F4. specialize (F4 mm). rewrite Wc, <- M2 in Hov.
      apply nth_error_In in M1. specialize (F4 M1). lia. }
  destruct K as [ix2 [-> Nx2]]. unfold total_size_bytes, LEAD_IN, checked_add.
  eexists. replace (sg_next s + 28 <? two64) with true by lia. cbn [bind recast].
  rewrite Nx2. replace (offset H + (sg_next s + 28)) with (offset H + 28 + sg_next s) by lia.
  replace (offset H + 28 + sg_next s <? two64) with true by lia. reflexivity.
Qed.
