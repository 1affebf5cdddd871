(** * Opening and writing where usize is narrower *)
From Verif Require Import Base Lib DataTypes MetaData Maps DataBlock Index SpecIndex Maps_proofs Parse_proofs Index_proofs
  RawData ChannelReader TdmsFile Width.

Lemma Ok_inj {A} (x y : A) : Ok x = Ok y -> x = y.
Proof. congruence. Qed.
Lemma Some_inj {A} (x y : A) : Some x = Some y -> x = y.
Proof. congruence. Qed.

Section Sim.
Context (W : N) (W1 : 1 < W).

(** The chunks of block number [j]. *)
Definition chunks_in (bs : list dblock) (j : nat) : N :=
  match nth_error bs j with
  | Some b => match number_of_chunks b with Ok c => c | _ => 0 end
  | None => 0
  end.
Definition nloc (bs : list dblock) (l : loc) : loc :=
  mkLoc (l_block l) (l_chan l) (l_n l / chunks_in bs (l_block l) * (chunks_in bs (l_block l) mod W)).
Definition nobj (bs : list dblock) (od : objdata) : objdata :=
  mkOD (o_path od) (o_props od) (map (nloc bs) (o_locs od)) (o_fmt od).
Definition nobjs (bs : list dblock) (m : smap objdata) : smap objdata :=
  map (fun e => (fst e, nobj bs (snd e))) m.
Definition nix (ix : index) : index :=
  mkIx (ix_active ix) (nobjs (ix_blocks ix) (ix_objs ix)) (ix_blocks ix) (ix_next ix).

Lemma get_nobjs bs k m : map_get k (nobjs bs m) = option_map (nobj bs) (map_get k m).
Proof.
  induction m as [|[k' v] m IH]; [reflexivity|]. cbn [nobjs map map_get fst snd].
  destruct (str_eqb k k'); [reflexivity|exact IH].
Qed.
Lemma insert_nobjs bs k v m : map_insert k (nobj bs v) (nobjs bs m) = nobjs bs (map_insert k v m).
Proof.
  induction m as [|[k' v'] m IH]; [reflexivity|]. cbn [nobjs map map_insert fst snd].
  destruct (str_cmp k k'); cbn [map fst snd]; [reflexivity|reflexivity|]. f_equal. exact IH.
Qed.
Lemma alter_nobjs bs k g h m : (forall v, map_get k m = Some v -> h (nobj bs v) = nobj bs (g v)) ->
  map_alter k h (nobjs bs m) = nobjs bs (map_alter k g m).
Proof.
  induction m as [|[k' v'] m IH]; intros C; [reflexivity|]. cbn [nobjs map map_alter fst snd].
  cbn [map_get] in C. destruct (str_eqb k k'); cbn [map fst snd].
  - now rewrite (C v' eq_refl).
  - f_equal. apply IH, C.
Qed.

Lemma od_update_n bs od o : od_update (nobj bs od) o = (nobj bs (fst (od_update od o)), snd (od_update od o)).
Proof. unfold od_update. cbn [nobj o_fmt o_props o_path o_locs]. destruct (o_fmt od), (om_idx o); reflexivity. Qed.

Lemma od_from_n bs o : (od <- od_from o ;; Ok (nobj bs od)) = od_from o.
Proof.
  unfold od_from, od_update. cbn [o_fmt o_props o_path o_locs]. destruct (om_idx o); reflexivity.
Qed.

Lemma meta_n ix o : update_meta_object (nix ix) o = (nix (fst (update_meta_object ix o)), snd (update_meta_object ix o)).
Proof.
  unfold update_meta_object. cbn [nix ix_objs]. rewrite get_nobjs.
  destruct (map_get (om_path o) (ix_objs ix)) as [od|] eqn:G; cbn [option_map].
  - rewrite od_update_n. destruct (od_update od o) as [od' r] eqn:U. cbn [fst snd]. f_equal.
    unfold nix, set_objs. cbn [ix_active ix_objs ix_blocks ix_next]. f_equal. now apply alter_nobjs.
  - pose proof (od_from_n (ix_blocks ix) o) as K.
    destruct (od_from o) as [od|x|p|] eqn:U; cbn [fst snd]; try reflexivity.
    cbn [bind] in K. injection K as K. rewrite get_nobjs. destruct (map_get (o_path od) (ix_objs ix)); cbn [option_map fst snd]; [reflexivity|].
    f_equal. unfold nix, set_objs. cbn [ix_active ix_objs ix_blocks ix_next]. f_equal. rewrite <- K at 2. apply insert_nobjs.
Qed.

Lemma format_n ix p : channel_format (nix ix) p = channel_format ix p.
Proof. unfold channel_format. cbn [nix ix_objs]. rewrite get_nobjs. now destruct (map_get p (ix_objs ix)). Qed.

Lemma activate_n ix o : update_or_activate (nix ix) o = (nix (fst (update_or_activate ix o)), snd (update_or_activate ix o)).
Proof.
  unfold update_or_activate. cbn [nix ix_active]. destruct (is_active (om_path o) (ix_active ix)).
  - cbn [set_active ix_objs nix ix_blocks ix_active ix_next]. rewrite get_nobjs.
    destruct (map_get (om_path o) (ix_objs ix)) as [od|] eqn:G; cbn [option_map]; [|reflexivity].
    rewrite od_update_n. destruct (od_update od o) as [od' r] eqn:U. cbn [fst snd]. f_equal.
    unfold nix, set_objs. cbn [ix_active ix_objs ix_blocks ix_next set_active]. f_equal. now apply alter_nobjs.
  - rewrite meta_n. destruct (update_meta_object ix o) as [ix1 [[]|x|p|]]; cbn [fst snd]; try reflexivity.
    rewrite format_n. destruct (channel_format ix1 (om_path o)); reflexivity.
Qed.

Lemma objects_n os : forall ix, add_objects (nix ix) os = (nix (fst (add_objects ix os)), snd (add_objects ix os)).
Proof.
  induction os as [|o os IH]; intros ix; [reflexivity|]. cbn [add_objects].
  assert (K : match om_idx o with RINone => update_meta_object (nix ix) o | _ => update_or_activate (nix ix) o end
              = (nix (fst (match om_idx o with RINone => update_meta_object ix o | _ => update_or_activate ix o end)),
                 snd (match om_idx o with RINone => update_meta_object ix o | _ => update_or_activate ix o end)))
    by (destruct (om_idx o); [apply meta_n|apply activate_n|apply activate_n]).
  rewrite K. clear K. destruct (match om_idx o with RINone => update_meta_object ix o | _ => update_or_activate ix o end) as [ix1 [[]|x|p|]];
    cbn [fst snd]; try reflexivity. apply IH.
Qed.

Lemma metas_n bs objs l : active_metas (nobjs bs objs) l = active_metas objs l.
Proof.
  induction l as [|a l IH]; [reflexivity|]. cbn [active_metas]. rewrite get_nobjs, IH.
  now destruct (map_get (a_path a) objs).
Qed.

Lemma chunks_w b : w_number_of_chunks W b = (c <- number_of_chunks b ;; Ok (c mod W)).
Proof.
  unfold w_number_of_chunks, number_of_chunks, to_usize. destruct (chunk_size b) as [[n|n]|x|p|]; cbn [bind]; try reflexivity.
  - destruct (n =? 0); [now rewrite N.mod_0_l by lia|reflexivity].
  - now rewrite N.mod_1_l.
Qed.

Lemma checked_mul_mod a c n : checked_mul a c = Some n -> checked_mul a (c mod W) = Some (a * (c mod W)) /\ n = a * c.
Proof.
  unfold checked_mul. destruct (a * c <? two64) eqn:L; [|discriminate]. injection 1 as <-.
  pose proof (N.mod_le c W ltac:(lia)) as K. assert (a * (c mod W) <= a * c) by now apply N.mul_le_mono_l.
  replace (a * (c mod W) <? two64) with true by lia. now split.
Qed.

(** Appending a block leaves the earlier locations as they are. *)
Lemma nobj_app bs b od : Forall (fun l => (l_block l < length bs)%nat) (o_locs od) -> nobj (bs ++ b) od = nobj bs od.
Proof.
  intros F. unfold nobj. f_equal. apply map_ext_in. intros l Hl. rewrite Forall_forall in F. specialize (F l Hl).
  unfold nloc, chunks_in. now rewrite nth_error_app1.
Qed.
Lemma nobjs_app bs b m : (forall k od, In (k, od) m -> Forall (fun l => (l_block l < length bs)%nat) (o_locs od)) ->
  nobjs (bs ++ b) m = nobjs bs m.
Proof.
  intros H. apply map_ext_in. intros [k od] Hin. cbn [fst snd]. f_equal. apply nobj_app. eapply H. exact Hin.
Qed.

Lemma insert_locs_n bs blk c l : chunks_in bs blk = c -> forall objs i objs',
  insert_locs objs blk c i l = (objs', Ok tt) ->
  insert_locs (nobjs bs objs) blk (c mod W) i l = (nobjs bs objs', Ok tt).
Proof.
  intros Hc. induction l as [|a l IH]; intros objs i objs'; cbn [insert_locs]; [now injection 1 as <-|].
  destruct (checked_mul (a_n a) c) as [n|] eqn:M; [|discriminate].
  destruct (checked_mul_mod _ _ _ M) as [M' ->]. rewrite M', get_nobjs.
  destruct (map_get (a_path a) objs) as [od|] eqn:G; cbn [option_map]; [|discriminate].
  intros K. rewrite (alter_nobjs bs (a_path a) (add_loc (mkLoc blk i (a_n a * c)))); [now apply IH|].
  intros v _. unfold add_loc, nobj. cbn [o_path o_props o_locs o_fmt]. f_equal. rewrite map_app. cbn [map]. do 2 f_equal.
  unfold nloc. cbn [l_block l_chan l_n]. rewrite Hc. f_equal.
  destruct (N.eq_dec c 0) as [->|Nz]; [rewrite N.mod_0_l by lia; now rewrite !N.mul_0_r|]. now rewrite N.div_mul.
Qed.

Lemma insert_locs_fails blk c l objs i objs' r : insert_locs objs blk c i l = (objs', r) -> r <> Ok tt ->
  (forall a, In a l -> map_get (a_path a) objs <> None) -> r = Err EChunkSizeOverflow.
Proof.
  revert objs i. induction l as [|a l IH]; intros objs i; cbn [insert_locs]; [intros [= <- <-]; congruence|].
  destruct (checked_mul (a_n a) c) as [n|]; [|intros [= <- <-]; reflexivity].
  intros K Nr H. destruct (map_get (a_path a) objs) as [od|] eqn:G; [|exfalso; now apply (H a (or_introl eq_refl))].
  apply (IH _ _ K Nr). intros x Hx. rewrite map_get_alter. destruct (str_eqb (a_path x) (a_path a)).
  - specialize (H x (or_intror Hx)). now destruct (map_get (a_path x) objs).
  - apply H. now right.
Qed.

(** What the narrow machine does beside what the other one does. *)
Definition beside {A} (p q : index * res A) : Prop :=
  match snd p with
  | Ok _ => q = (nix (fst p), snd p)
  | r => r = Err EChunkSizeOverflow \/ snd q = r
  end.

Lemma insert_block_n ix b : inv ix -> beside (insert_data_block ix b) (w_insert_data_block W (nix ix) b).
Proof.
  intros I. unfold beside, insert_data_block, w_insert_data_block. rewrite chunks_w.
  destruct (number_of_chunks b) as [c|x|p|] eqn:C; cbn [bind fst snd recast]; [|now right..].
  destruct (insert_locs (ix_objs ix) (length (ix_blocks ix)) c 0 (ix_active ix)) as [objs' r] eqn:L. cbn [fst snd].
  assert (K : r = Ok tt \/ r = Err EChunkSizeOverflow).
  { destruct (insert_locs_spec (length (ix_blocks ix)) c (ix_active ix) (ix_objs ix) 0) as [o2 [r2 [j [E2 [_ [_ [_ D]]]]]]].
    - intros a Ha. destruct (inv_act _ I a Ha) as [od [m [G _]]]. congruence.
    - rewrite L in E2. injection E2 as <- <-. tauto. }
  destruct K as [-> | ->]; [|now left].
  cbn [nix ix_active ix_blocks ix_next ix_objs].
  assert (Hc : chunks_in (ix_blocks ix ++ [b]) (length (ix_blocks ix)) = c).
  { unfold chunks_in. rewrite nth_error_app2, Nat.sub_diag by lia. cbn [nth_error]. now rewrite C. }
  apply (insert_locs_n _ _ _ _ Hc) in L. rewrite nobjs_app in L.
  - rewrite L. reflexivity.
  - intros k od Hin. apply In_map_get in Hin; [|apply (inv_sorted _ I)]. destruct (inv_locs _ I k od Hin) as [F _].
    eapply Forall_impl; [|exact F]. intros l Hl. now apply loc_ok_block.
Qed.

Lemma add_raw_n E ix s : inv ix -> beside (add_raw E ix s) (w_add_raw W E (nix ix) s).
Proof.
  intros I. unfold add_raw, w_add_raw. cbn [nix ix_objs ix_active ix_next]. rewrite metas_n.
  destruct (active_metas (ix_objs ix) (ix_active ix)) as [[|m ms]|x|p|]; try (now right).
  destruct (from_segment E s (ix_next ix) (m :: ms)) as [b|x|p|]; try (now right). now apply insert_block_n.
Qed.

Lemma add_segment_n E ix s : inv ix -> beside (add_segment E ix s) (w_add_segment W E (nix ix) s).
Proof.
  intros I. unfold add_segment, w_add_segment.
  set (ix0 := if toc_newlist (sg_toc s) then set_active ix [] else ix).
  assert (I0 : inv ix0) by (unfold ix0; destruct (toc_newlist (sg_toc s)); [now apply inv_deactivate|exact I]).
  replace (if toc_newlist (sg_toc s) then set_active (nix ix) [] else nix ix) with (nix ix0)
    by (unfold ix0; now destruct (toc_newlist (sg_toc s))).
  assert (K : match sg_meta s with Some objs => add_objects (nix ix0) objs | None => (nix ix0, Ok tt) end
    = (nix (fst (match sg_meta s with Some objs => add_objects ix0 objs | None => (ix0, Ok tt) end)),
       snd (match sg_meta s with Some objs => add_objects ix0 objs | None => (ix0, Ok tt) end)))
    by (destruct (sg_meta s); [apply objects_n|reflexivity]).
  rewrite K. clear K.
  assert (I1 : inv (fst (match sg_meta s with Some objs => add_objects ix0 objs | None => (ix0, Ok tt) end))).
  { destruct (sg_meta s) as [os|]; [|exact I0]. destruct (add_objects_spec os ix0 I0) as [ix1 [r [-> [H _]]]]. exact H. }
  destruct (match sg_meta s with Some objs => add_objects ix0 objs | None => (ix0, Ok tt) end) as [ix1 [[]|x|p|]];
    cbn [fst snd] in *; try (now right).
  assert (K : beside (if toc_raw (sg_toc s) then add_raw E ix1 s else (ix1, Ok tt))
                     (if toc_raw (sg_toc s) then w_add_raw W E (nix ix1) s else (nix ix1, Ok tt)))
    by (destruct (toc_raw (sg_toc s)); [now apply add_raw_n|reflexivity]).
  destruct (if toc_raw (sg_toc s) then add_raw E ix1 s else (ix1, Ok tt)) as [ix2 r2].
  destruct (if toc_raw (sg_toc s) then w_add_raw W E (nix ix1) s else (nix ix1, Ok tt)) as [ix3 r3].
  unfold beside in K. cbn [fst snd] in K. destruct r2 as [[]|x|p|].
  - injection K as -> ->. destruct (total_size_bytes s) as [n|x|p|]; try (now right).
    cbn [nix ix_next]. destruct (checked_add (ix_next ix2) n); [reflexivity|now right].
  - destruct K as [K | ->]; [left; now injection K as ->|now right].
  - destruct K as [K | ->]; [discriminate|now right].
  - destruct K as [K | ->]; [discriminate|now right].
Qed.

Lemma build_n E f n : forall ix pos, inv ix ->
  match build_loop E f n ix pos with
  | Ok ix' => w_build_loop W E f n (nix ix) pos = Ok (nix ix')
  | r => r = Err EChunkSizeOverflow \/ w_build_loop W E f n (nix ix) pos = r
  end.
Proof.
  induction n as [|n IH]; intros ix pos I; cbn [build_loop w_build_loop]; [now right|].
  destruct (segment_read E f pos) as [s|x|p|]; [| destruct x; (reflexivity || now right)|now right|now right].
  pose proof (add_segment_n E ix s I) as B. pose proof (add_segment_inv E ix s I) as I'. unfold beside in B.
  destruct (add_segment E ix s) as [ix1 r1]. destruct (w_add_segment W E (nix ix) s) as [ix2 r2]. cbn [fst snd] in *.
  destruct r1 as [m|x|p|]; cbn [bind].
  - injection B as -> ->. cbn [bind]. destruct (seek_to E m); [now apply IH|reflexivity..].
  - destruct B as [B | ->]; [left; now injection B as ->|now right].
  - destruct B as [B | ->]; [discriminate|now right].
  - destruct B as [B | ->]; [discriminate|now right].
Qed.

Lemma open_n E f : match tdms_new E f with
  | Ok F => w_tdms_new W E f = Ok (mkTF (nix (tf_ix F)) (tf_bytes F))
  | r => r = Err EChunkSizeOverflow \/ w_tdms_new W E f = r
  end.
Proof.
  unfold tdms_new, w_tdms_new, build_index. pose proof (build_n E f (S (length f)) index_new 0 inv_new) as B.
  change (nix index_new) with index_new in B.
  destruct (build_loop E f (S (length f)) index_new 0) as [ix|x|p|]; cbn [bind].
  - now rewrite B.
  - destruct B as [B | ->]; [left; now injection B as ->|now right].
  - destruct B as [B | ->]; [discriminate|now right].
  - destruct B as [B | ->]; [discriminate|now right].
Qed.

(** ** Data shorter than [W] bytes *)
Lemma chunks_at_most b c : number_of_chunks b = Ok c -> b_len b < W -> c < W.
Proof.
  unfold number_of_chunks. destruct (chunk_size b) as [[n|n]|x|p|]; cbn [bind]; try discriminate; intros K L; apply Ok_inj in K; subst c; [|exact W1].
  destruct (n =? 0) eqn:Z; [lia|]. eapply N.le_lt_trans; [|exact L]. apply N.div_le_upper_bound; [lia|]. nia.
Qed.
Lemma insert_block_short ix b : b_len b < W -> w_insert_data_block W ix b = insert_data_block ix b.
Proof.
  intros L. unfold w_insert_data_block, insert_data_block. rewrite chunks_w.
  destruct (number_of_chunks b) as [c|x|p|] eqn:C; try reflexivity. cbn [bind]. now rewrite N.mod_small by (eapply chunks_at_most; eassumption).
Qed.
Lemma add_segment_short E ix s : sg_next s - sg_raw s < W -> w_add_segment W E ix s = add_segment E ix s.
Proof.
  intros L. unfold w_add_segment, add_segment.
  destruct (match sg_meta s with Some objs => _ | None => _ end) as [ix1 [[]|x|p|]]; try reflexivity.
  replace (w_add_raw W E ix1 s) with (add_raw E ix1 s); [reflexivity|].
  unfold w_add_raw, add_raw. destruct (active_metas (ix_objs ix1) (ix_active ix1)) as [[|m ms]|x|p|]; try reflexivity.
  destruct (from_segment E s (ix_next ix1) (m :: ms)) as [b|x|p|] eqn:B; try reflexivity.
  symmetry. apply insert_block_short. revert B. unfold from_segment.
  destruct (sg_next s <? sg_raw s); [discriminate|]. destruct (sg_next s - sg_raw s =? 0); [discriminate|].
  destruct (uadd E (sg_raw s) LEAD_IN) as [a|x|p|]; try discriminate. cbn [bind]. destruct (uadd E a (ix_next ix1)); try discriminate.
  cbn [bind]. intros K. apply Ok_inj in K. subst b. exact L.
Qed.
Lemma write_properties_short E e F path kvs : w_write_properties W E e F path kvs = write_properties_e E e F path kvs.
Proof.
  unfold w_write_properties, write_properties_e. unfold write_segment. cbv zeta.
  rewrite add_segment_short; [reflexivity|]. cbn [sg_next sg_raw]. lia.
Qed.
Lemma write_channels_short E e t F chans vs lay : lenN vs * size_bytes t < W ->
  w_write_channels W E e t F chans vs lay = write_channels_e E e t F chans vs lay.
Proof.
  intros L. unfold w_write_channels, write_channels_e.
  destruct (stream_segment e t (tf_ix F) chans vs lay) as [[bs s]|x|p|] eqn:S; try reflexivity.
  rewrite add_segment_short; [reflexivity|]. revert S. unfold stream_segment. destruct chans as [|c chans]; [discriminate|].
  cbv zeta. destruct (negb _); [discriminate|]. destruct (check_write_values _ _) as [m i]. unfold write_segment. cbv zeta.
  intros K. apply Ok_inj in K. apply (f_equal snd) in K. cbn [snd] in K. subst s. cbn [sg_next sg_raw slice_block wb_size]. lia.
Qed.

(** Where no block has [W] chunks or more nothing changes. *)
Lemma nix_same ix : inv ix -> Forall (fun b => forall c, number_of_chunks b = Ok c -> c < W) (ix_blocks ix) -> nix ix = ix.
Proof.
  intros I S. destruct ix as [act objs bs nx]. unfold nix. cbn [ix_active ix_objs ix_blocks ix_next] in *. f_equal.
  unfold nobjs. rewrite <- (map_id objs) at 2. apply map_ext_in. intros [k od] Hin. cbn [fst snd]. f_equal.
  apply In_map_get in Hin; [|apply (inv_sorted _ I)]. destruct (inv_locs _ I k od Hin) as [F _].
  destruct od as [p ps ls fm]. unfold nobj. cbn [o_path o_props o_locs o_fmt] in *. f_equal.
  rewrite <- (map_id ls) at 2. apply map_ext_in. intros l Hl. rewrite Forall_forall in F, S.
  destruct (F l Hl) as [b [m [c [B1 [B2 [B3 [B4 B5]]]]]]]. destruct l as [j i n]. unfold nloc, chunks_in.
  cbn [l_block l_chan l_n ix_blocks] in *. rewrite B1, B3. f_equal. rewrite N.mod_small by (eapply S; [eapply nth_error_In; exact B1|exact B3]).
  destruct (N.eq_dec c 0) as [->|Nz]; [lia|]. rewrite B4, N.div_mul; lia.
Qed.
End Sim.
