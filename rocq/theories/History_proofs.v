(** * The index after a history of accepted segments equals its specification *)
From Verif Require Import Base Lib DataTypes MetaData Maps DataBlock Index SpecIndex
  Maps_proofs Parse_proofs Index_proofs.

Lemma all_objs_snoc H s : all_objs (H ++ [s]) = all_objs H ++ seg_objs s.
Proof. unfold all_objs. rewrite flat_map_app. cbn [flat_map]. now rewrite app_nil_r. Qed.

Lemma offset_snoc H s : offset (H ++ [s]) = offset H + 28 + sg_next s.
Proof. unfold offset. now rewrite fold_left_app. Qed.

Lemma active_after_snoc H s : active_after (H ++ [s]) = act_seg (active_after H) s.
Proof. unfold active_after. now rewrite fold_left_app. Qed.

Lemma blocks_from_snoc H s : forall pre, blocks_from pre (H ++ [s]) =
  blocks_from pre H ++ (if toc_raw (sg_toc s) then [block_of (pre ++ H) s] else []).
Proof.
  induction H as [|a H IH]; intros pre; cbn [blocks_from app].
  - rewrite !app_nil_r. reflexivity.
  - rewrite IH, <- !app_assoc. reflexivity.
Qed.

Lemma blocks_after_snoc H s : blocks_after (H ++ [s]) =
  blocks_after H ++ (if toc_raw (sg_toc s) then [block_of H s] else []).
Proof. unfold blocks_after. apply blocks_from_snoc. Qed.

Lemma length_from_snoc path H s : forall pre, length_from path pre (H ++ [s]) =
  length_from path pre H + (if toc_raw (sg_toc s)
    then samples_in path (active_after ((pre ++ H) ++ [s])) (block_of (pre ++ H) s) else 0).
Proof.
  induction H as [|a H IH]; intros pre; cbn [length_from app].
  - rewrite app_nil_r. lia.
  - rewrite IH, <- !app_assoc. cbn [app]. lia.
Qed.

Lemma length_after_snoc H s path : length_after (H ++ [s]) path =
  length_after H path + (if toc_raw (sg_toc s)
    then samples_in path (active_after (H ++ [s])) (block_of H s) else 0).
Proof. unfold length_after. apply length_from_snoc. Qed.

(** ** Chunks *)
Lemma chunk_size_plain ms : Forall (fun m => rm_total m = None) ms -> forall acc c,
  chunk_size_from (CFixed acc) ms = Ok c -> c = CFixed (acc + chunk_bytes ms) .
Proof.
  induction ms as [|m r IH]; intros Hp acc c; cbn [chunk_size_from chunk_bytes fold_right].
  - intros H. injection H as <-. f_equal. lia.
  - inversion Hp; subst. rewrite H1. unfold checked_mul, chunk_combine, checked_add.
    destruct (rm_n m * dtype_size (rm_type m) <? two64) eqn:C; cbn [bind]; [|discriminate].
    destruct (acc + rm_n m * dtype_size (rm_type m) <? two64) eqn:C2; cbn [bind]; [|discriminate].
    intros H. apply IH in H; [|assumption]. rewrite H. f_equal. fold (chunk_bytes r). lia.
Qed.

Lemma chunk_size_bound ms : forall acc c, acc < two64 ->
  chunk_size_from (CFixed acc) ms = Ok (CFixed c) -> Forall (fun m => rm_total m = None) ms -> c < two64.
Proof.
  induction ms as [|m r IH]; intros acc c Ha H Hp; cbn [chunk_size_from] in H.
  - now injection H as <-.
  - inversion Hp; subst. rewrite H2 in H. unfold checked_mul, chunk_combine, checked_add in H.
    destruct (rm_n m * dtype_size (rm_type m) <? two64) eqn:C; cbn [bind] in H; [|discriminate].
    destruct (acc + rm_n m * dtype_size (rm_type m) <? two64) eqn:C2; cbn [bind] in H; [|discriminate].
    eapply IH; [|exact H|assumption]. lia.
Qed.

Lemma number_of_chunks_plain b c : Forall (fun m => rm_total m = None) (b_chans b) ->
  number_of_chunks b = Ok c -> c = whole_chunks b /\ chunk_bytes (b_chans b) < two64.
Proof.
  intros Hp. unfold number_of_chunks, chunk_size, whole_chunks. intros H. bind_inv.
  pose proof (chunk_size_plain _ Hp _ _ Hb) as Hx. subst x. cbn [N.add] in *.
  apply chunk_size_bound in Hb; [|reflexivity|assumption]. rewrite N.add_0_l in *.
  split; [|exact Hb]. reflexivity.
Qed.

(** ** The description *)
Definition described (H : list segment) (ix : index) : Prop :=
  inv ix /\ ix_next ix = offset H /\ offset H < two64
  /\ map a_path (ix_active ix) = active_after H
  /\ (forall k, known ix k <-> mentioned (all_objs H) k)
  /\ (forall k, channel_format ix k = last_format (all_objs H) k)
  /\ (forall k n, prop_of ix k n = last_prop (all_objs H) k n)
  /\ ix_blocks ix = blocks_after H.

Lemma active_formats_eq H ix : map a_path (ix_active ix) = active_after H ->
  (forall k, channel_format ix k = last_format (all_objs H) k) ->
  map (fmt_or_void ix) (map a_path (ix_active ix)) = active_formats H.
Proof.
  intros Ha Hf. unfold active_formats. rewrite Ha. apply map_ext. intros p.
  unfold fmt_or_void. now rewrite Hf.
Qed.

Lemma described_step E H ix s ix' n : described H ix -> add_segment E ix s = (ix', Ok n) ->
  described (H ++ [s]) ix'.
Proof.
  intros [I [Hn [Hlt [Ha [Hk [Hf [Hp Hb]]]]]]] Hs.
  destruct (add_segment_spec E ix s I) as [ix1 [r [E1 [I1 R]]]].
  rewrite Hs in E1. injection E1 as <- <-.
  destruct R as [R1 [R2 [R3 [R4 [R5 [R6 [R7 R8]]]]]]].
  assert (A' : map a_path (ix_active ix') = active_after (H ++ [s])).
  { rewrite R4, active_after_snoc, Ha. reflexivity. }
  assert (F' : forall k, channel_format ix' k = last_format (all_objs (H ++ [s])) k).
  { intros k. rewrite R6, Hf, all_objs_snoc. unfold last_format. now rewrite fold_left_app. }
  split; [exact I1|]. rewrite offset_snoc. split; [lia|]. split; [lia|]. split; [exact A'|].
  split; [|split; [exact F'|split]].
  - intros k. rewrite R5, Hk, all_objs_snoc. unfold mentioned. rewrite map_app, in_app_iff. reflexivity.
  - intros k m. rewrite R7, Hp, all_objs_snoc. unfold last_prop. now rewrite fold_left_app.
  - rewrite blocks_after_snoc. destruct (toc_raw (sg_toc s)).
    + destruct R8 as [_ [_ [c [R8 _]]]]. rewrite R8, Hb. do 2 f_equal.
      unfold seg_block, block_of. rewrite (active_formats_eq (H ++ [s]) ix' A' F'), Hn. reflexivity.
    + destruct R8 as [R8 _]. rewrite R8, Hb. now rewrite app_nil_r.
Qed.

Lemma accepted_described E H ix : accepted E H ix -> described H ix.
Proof.
  induction 1 as [|H ix s ix' n A IH Hs].
  - split; [apply inv_new|]. cbn. repeat split; try reflexivity; try (intros Hx; congruence); try (now intros Hx; destruct Hx).
  - eapply described_step; eauto.
Qed.

(** ** Lengths *)
Lemma fold_fmt_plain k os : forall acc,
  Forall plain_obj os -> (forall m, acc = Some m -> rm_total m = None) ->
  forall m, fold_left (fmt_obj k) os acc = Some m -> rm_total m = None.
Proof.
  induction os as [|o os IH]; intros acc Hp Ha m; cbn [fold_left]; [apply Ha|].
  inversion Hp; subst. apply IH; [assumption|].
  intros m'. unfold fmt_obj. destruct (str_eqb k (om_path o)); [|apply Ha].
  unfold plain_obj in H1. destruct (om_idx o); [apply Ha|apply Ha|]. intros Hm. injection Hm as <-. assumption.
Qed.

Lemma all_objs_plain H : Forall plain H -> Forall plain_obj (all_objs H).
Proof.
  intros Hp. unfold all_objs. induction Hp as [|s H Hs Hp IH]; cbn [flat_map]; [constructor|].
  apply Forall_app. auto.
Qed.

Lemma active_formats_plain H : Forall plain H -> Forall (fun m => rm_total m = None) (active_formats H).
Proof.
  intros Hp. unfold active_formats. apply Forall_forall. intros m Hin. apply in_map_iff in Hin.
  destruct Hin as [p [<- _]]. destruct (last_format (all_objs H) p) as [m|] eqn:F; [|reflexivity].
  eapply fold_fmt_plain; [apply all_objs_plain, Hp| |exact F]. discriminate.
Qed.

Lemma sum_new_locs k blk c l : forall i (ms : list rawmeta),
  map rm_n ms = map a_n l ->
  fold_right N.add 0 (map l_n (new_locs k blk c i l)) =
  fold_right N.add 0 (map (fun pm => if str_eqb k (fst pm) then rm_n (snd pm) * c else 0)
                          (combine (map a_path l) ms)).
Proof.
  induction l as [|a l IH]; intros i ms Hm; cbn [new_locs map combine]; [reflexivity|].
  destruct ms as [|m ms]; [discriminate|]. cbn [map] in Hm. injection Hm as Hm1 Hm2.
  cbn [combine map fst snd fold_right].
  rewrite <- (IH (S i) ms Hm2). destruct (str_eqb k (a_path a)); cbn [app map l_n fold_right]; [|lia].
  now rewrite Hm1.
Qed.

Definition total (ls : list loc) : N := fold_right N.add 0 (map l_n ls).

Lemma total_app a b : total (a ++ b) = total a + total b.
Proof.
  unfold total. induction a as [|x a IH]; cbn [app map fold_right]; [reflexivity|]. lia.
Qed.

Lemma accepted_length E H ix : accepted E H ix -> Forall plain H ->
  forall k, total (old_locs ix k) = length_after H k.
Proof.
  induction 1 as [|H ix s ix' n A IH Hs]; intros Hp k; [reflexivity|].
  apply Forall_app in Hp. destruct Hp as [Hp Hps].
  pose proof (accepted_described E H ix A) as D.
  pose proof (described_step E H ix s ix' n D Hs) as D'.
  destruct D as [I [Hn _]]. destruct D' as [I' [_ [_ [A' [_ [F' [_ B']]]]]]].
  destruct (add_segment_spec E ix s I) as [ix1 [r [E1 [_ R]]]].
  rewrite Hs in E1. injection E1 as <- <-.
  destruct R as [_ [_ [_ [_ [_ [_ [_ R8]]]]]]].
  rewrite length_after_snoc. destruct (toc_raw (sg_toc s)) eqn:T.
  - destruct R8 as [_ [_ [c [R8 [Rc [_ R9]]]]]]. rewrite R9, total_app, IH by assumption. f_equal.
    assert (Eb : seg_block ix' (ix_next ix) s = block_of H s).
    { unfold seg_block, block_of. rewrite (active_formats_eq (H ++ [s]) ix' A' F'), Hn. reflexivity. }
    rewrite Eb in Rc. apply number_of_chunks_plain in Rc.
    2: { cbn [block_of b_chans]. apply active_formats_plain. apply Forall_app. auto. }
    destruct Rc as [-> _]. unfold samples_in, total. rewrite <- A'.
    apply sum_new_locs. cbn [block_of b_chans].
    rewrite <- (active_formats_eq (H ++ [s]) ix' A' F'). rewrite !map_map. apply map_ext_in.
    intros a Ha. destruct (inv_act _ I' a Ha) as [od [m [G [Fm Nm]]]].
    unfold fmt_or_void, channel_format. now rewrite G, Fm.
  - destruct R8 as [_ R8]. rewrite R8, IH by assumption. lia.
Qed.

(** Exact locations. *)
Lemma new_locs_in_spec k blk c l : forall i (ms : list rawmeta),
  map rm_n ms = map a_n l ->
  new_locs k blk c i l = locs_in k blk i c (map a_path l) ms.
Proof.
  induction l as [|a l IH]; intros i ms Hm; cbn [new_locs map locs_in]; [reflexivity|].
  destruct ms as [|m ms]; [discriminate|]. cbn [map] in Hm. injection Hm as Hm1 Hm2.
  rewrite (IH (S i) ms Hm2). now rewrite Hm1.
Qed.

Lemma locs_from_snoc k s H : forall pre,
  locs_from k pre (H ++ [s]) = locs_from k pre H
   ++ (if toc_raw (sg_toc s) then
         locs_in k (length (blocks_after (pre ++ H))) 0 (whole_chunks (block_of (pre ++ H) s))
            (active_after ((pre ++ H) ++ [s])) (b_chans (block_of (pre ++ H) s)) else []).
Proof.
  induction H as [|x H IH]; intros pre; cbn [app locs_from].
  - now rewrite !app_nil_r.
  - rewrite IH, <- !app_assoc. reflexivity.
Qed.

Lemma accepted_locs E H ix : accepted E H ix -> Forall plain H ->
  forall k, old_locs ix k = locs_after H k.
Proof.
  induction 1 as [|H ix s ix' n A IH Hs]; intros Hp k; [reflexivity|].
  apply Forall_app in Hp. destruct Hp as [Hp Hps].
  pose proof (accepted_described E H ix A) as D.
  pose proof (described_step E H ix s ix' n D Hs) as D'.
  destruct D as [I [Hn [_ [_ [_ [_ [_ B0]]]]]]]. destruct D' as [I' [_ [_ [A' [_ [F' [_ B']]]]]]].
  destruct (add_segment_spec E ix s I) as [ix1 [r [E1 [_ R]]]].
  rewrite Hs in E1. injection E1 as <- <-.
  destruct R as [_ [_ [_ [_ [_ [_ [_ R8]]]]]]].
  unfold locs_after. rewrite locs_from_snoc. cbn [app]. destruct (toc_raw (sg_toc s)) eqn:T.
  - destruct R8 as [_ [_ [c [R8 [Rc [_ R9]]]]]]. rewrite R9, IH by assumption. f_equal.
    assert (Eb : seg_block ix' (ix_next ix) s = block_of H s).
    { unfold seg_block, block_of. rewrite (active_formats_eq (H ++ [s]) ix' A' F'), Hn. reflexivity. }
    rewrite Eb in Rc. apply number_of_chunks_plain in Rc.
    2: { cbn [block_of b_chans]. apply active_formats_plain. apply Forall_app. auto. }
    destruct Rc as [-> _]. rewrite <- A', <- B0.
    apply new_locs_in_spec. cbn [block_of b_chans].
    rewrite <- (active_formats_eq (H ++ [s]) ix' A' F'). rewrite !map_map. apply map_ext_in.
    intros a Ha. destruct (inv_act _ I' a Ha) as [od [m [G [Fm Nm]]]].
    unfold fmt_or_void, channel_format. now rewrite G, Fm.
  - destruct R8 as [_ R8]. rewrite R8, IH by assumption. now rewrite app_nil_r.
Qed.

(** A channel whose formats all have a size cannot have more samples than the
    file has bytes. *)
Definition sized (m : rawmeta) : Prop := 0 < dtype_size (rm_type m).

Lemma chunk_bytes_in m ms : In m ms -> rm_n m * dtype_size (rm_type m) <= chunk_bytes ms.
Proof.
  induction ms as [|x ms IH]; cbn [In chunk_bytes fold_right]; [contradiction|].
  fold (chunk_bytes ms). intros [->|H]; [lia|]. specialize (IH H). lia.
Qed.

Lemma samples_bound path b act : NoDup act ->
  (forall p m, In (p, m) (combine act (b_chans b)) -> p = path -> sized m) ->
  samples_in path act b <= b_len b.
Proof.
  intros Hn Hs. unfold samples_in.
  assert (Hc : forall m, In m (b_chans b) -> sized m -> rm_n m * whole_chunks b <= b_len b).
  { intros m Hin Hz. apply chunk_bytes_in in Hin. unfold whole_chunks. set (c := chunk_bytes (b_chans b)) in *.
    destruct (c =? 0) eqn:C; [lia|]. unfold sized in Hz.
    assert (Hle : rm_n m <= c) by nia.
    assert (Hd : c * (b_len b / c) <= b_len b) by (apply N.mul_div_le; lia).
    etransitivity; [|exact Hd]. now apply N.mul_le_mono_r. }
  assert (Hm : forall p m, In (p, m) (combine act (b_chans b)) -> p = path -> rm_n m * whole_chunks b <= b_len b).
  { intros p m Hin Hp. apply Hc; [|eapply Hs; eauto]. eapply in_combine_r; eauto. }
  clear Hc Hs. revert Hm. generalize (whole_chunks b) as w. generalize (b_len b) as L. generalize (b_chans b) as ms.
  revert Hn. induction act as [|a act IH]; intros Hn ms L w Hm; cbn [combine map fold_right]; [lia|].
  destruct ms as [|m ms]; cbn [combine map fold_right fst snd]; [lia|]. inversion Hn; subst.
  destruct (str_eqb path a) eqn:K.
  - apply str_eqb_eq in K. subst a.
    assert (Z : fold_right N.add 0 (map (fun pm => if str_eqb path (fst pm) then rm_n (snd pm) * w else 0)
                 (combine act ms)) = 0).
    { clear - H1. revert ms. induction act as [|x act IH]; intros ms; cbn [combine map fold_right]; [reflexivity|].
      destruct ms as [|m ms]; cbn [combine map fold_right fst snd]; [reflexivity|].
      rewrite IH by (intros H; apply H1; now right).
      destruct (str_eqb path x) eqn:K; [|reflexivity]. apply str_eqb_eq in K. subst. exfalso. apply H1. now left. }
    rewrite Z. specialize (Hm path m (or_introl eq_refl) eq_refl). lia.
  - rewrite N.add_0_l. apply IH; [assumption|]. intros p m' Hin. apply Hm. now right.
Qed.

Lemma length_bound E H ix path : accepted E H ix ->
  (forall m, In (RIRaw m) (map om_idx (filter (fun o => str_eqb path (om_path o)) (all_objs H))) -> sized m) ->
  length_after H path <= offset H.
Proof.
  induction 1 as [|H ix s ix' n A IH Hs]; intros Hz; [cbn; lia|].
  pose proof (accepted_described E H ix A) as D.
  pose proof (described_step E H ix s ix' n D Hs) as D'.
  destruct D as [I [Hn _]]. destruct D' as [I' [_ [_ [A' [_ [F' [_ B']]]]]]].
  destruct (add_segment_spec E ix s I) as [ix1 [r [E1 [_ R]]]].
  rewrite Hs in E1. injection E1 as <- <-. destruct R as [_ [_ [_ [_ [_ [_ [_ R8]]]]]]].
  rewrite length_after_snoc, offset_snoc.
  assert (IH' : length_after H path <= offset H).
  { apply IH. intros m Hm. apply Hz. rewrite all_objs_snoc, filter_app, map_app. apply in_app_iff. auto. }
  destruct (toc_raw (sg_toc s)); [|lia].
  assert (Hb : samples_in path (active_after (H ++ [s])) (block_of H s) <= b_len (block_of H s)).
  { apply samples_bound.
    - rewrite <- A'. apply (inv_nodup _ I').
    - intros p m Hin ->. cbn [block_of b_chans] in Hin.
      rewrite <- (active_formats_eq (H ++ [s]) ix' A' F') in Hin. rewrite <- A' in Hin.
      assert (Hm : channel_format ix' path = Some m).
      { clear - Hin I'. pose proof (inv_act _ I') as Ha. revert Ha Hin. generalize (ix_active ix') as l.
        induction l as [|a l IHl]; intros Ha Hin; cbn [map combine In] in Hin; [contradiction|].
        destruct Hin as [Heq|Hin]; [|apply IHl; [intros; apply Ha; now right|exact Hin]].
        injection Heq as <- <-. destruct (Ha a (or_introl eq_refl)) as [od [m [G [Fm _]]]].
        unfold fmt_or_void, channel_format. now rewrite G, Fm. }
      rewrite F' in Hm. apply Hz. clear - Hm. revert Hm. unfold last_format.
      assert (G : forall os acc m, fold_left (fmt_obj path) os acc = Some m ->
         acc = Some m \/ In (RIRaw m) (map om_idx (filter (fun o => str_eqb path (om_path o)) os))).
      { induction os as [|o os IHo]; intros acc m0; cbn [fold_left filter]; [auto|].
        intros Hf. apply IHo in Hf. unfold fmt_obj in Hf. destruct (str_eqb path (om_path o)) eqn:K.
        - cbn [map In]. destruct Hf as [Hf|Hf]; [|auto].
          destruct (om_idx o); auto. injection Hf as ->. auto.
        - exact Hf. }
      intros Hm. apply G in Hm. destruct Hm as [Hm|Hm]; [discriminate|exact Hm]. }
  cbn [block_of b_len] in Hb. lia.
Qed.

(** Sums of u64: exact when they fit. *)
Lemma usum_exact E l : forall acc, acc + fold_right N.add 0 l < two64 ->
  usum_from E acc l = Ok (acc + fold_right N.add 0 l).
Proof.
  induction l as [|x l IH]; intros acc H; cbn [usum_from fold_right] in *; [f_equal; lia|].
  unfold uadd. replace (acc + x <? two64) with true by lia. cbn [bind]. rewrite IH by lia. f_equal. lia.
Qed.

Lemma channel_length_spec E ix k : total (old_locs ix k) < two64 ->
  ix_channel_length E ix k =
  Ok (match map_get k (ix_objs ix) with Some _ => Some (total (old_locs ix k)) | None => None end).
Proof.
  unfold ix_channel_length, old_locs, usum. destruct (map_get k (ix_objs ix)) as [od|]; [|reflexivity].
  intros H. rewrite usum_exact; [reflexivity|]. exact H.
Qed.
