(** * Appending to a file does not change what was read from it *)
From Verif Require Import Base Lib DataTypes MetaData Maps DataBlock Index RawData ChannelReader TdmsFile
  SpecIndex SpecSession SpecWrite Maps_proofs Parse_proofs Index_proofs Plan_proofs Program_proofs Cut_proofs.

(** ** Successful reads of values and blocks do not see appended bytes *)
Section Bytes.
Context (E : env) (f g : list byte) (t : sty) (e : endian).
Local Notation V := (carrier t).

Lemma dropN_past pos : lenN f < pos -> dropN pos f = [].
Proof. intros L. unfold dropN. now replace (lenN f <=? pos) with true by lia. Qed.
Lemma dropN_before pos : pos <= lenN f -> dropN pos (f ++ g) = dropN pos f ++ g.
Proof.
  intros L. rewrite !dropN_skipn, skipn_app. unfold lenN in L.
  replace (N.to_nat pos - length f)%nat with 0%nat by lia. reflexivity.
Qed.
Lemma min_size_pos : 0 < min_size t.
Proof. destruct t; reflexivity. Qed.

Lemma at_grow pos x : read_at E f t e pos = Ok x -> read_at E (f ++ g) t e pos = Ok x.
Proof.
  unfold read_at. intros H. apply bind_ok in H. destruct H as [[v r] [D H]]. injection H as <-.
  destruct (good_dec E e t (dropN pos f)) as [_ Gd]. destruct (Gd _ _ D) as [c [Hc [Lc [Hx _]]]].
  assert (Lp : pos <= lenN f).
  { destruct (N.le_gt_cases pos (lenN f)) as [L|L]; [exact L|]. rewrite (dropN_past _ L) in Hc.
    destruct c; [|discriminate]. rewrite lenN_nil in Lc. pose proof min_size_pos. lia. }
  rewrite (dropN_before _ Lp), Hc, <- app_assoc, Hx. cbn [bind]. f_equal. f_equal. rewrite !lenN_app. lia.
Qed.
Lemma vals_grow : forall n pos vs q, read_vals E f t e n pos = (vs, Ok q) -> read_vals E (f ++ g) t e n pos = (vs, Ok q).
Proof.
  induction n as [|n IH]; intros pos vs q H; cbn [read_vals] in *; [exact H|].
  destruct (read_at E f t e pos) as [[v p]|x|x|] eqn:R; cbn [recast] in H; try discriminate.
  rewrite (at_grow _ _ R). destruct (read_vals E f t e n p) as [vs' r'] eqn:Rv. injection H as <- ->.
  now rewrite (IH _ _ _ Rv).
Qed.
Lemma seq_grow room samples pos vs x : read_seq E f t e room samples pos = (vs, Ok x) ->
  read_seq E (f ++ g) t e room samples pos = (vs, Ok x).
Proof.
  unfold read_seq. cbv zeta. destruct (read_vals E f t e _ pos) as [vs' r'] eqn:R. intros H. injection H as <- H.
  destruct r' as [q|y|y|]; cbn [bind] in H; try discriminate. rewrite (vals_grow _ _ _ _ R). cbn [bind]. now rewrite H.
Qed.
Lemma entry_grow x pos x' y : read_entry E f t e x pos = (x', Ok y) -> read_entry E (f ++ g) t e x pos = (x', Ok y).
Proof.
  unfold read_entry. destruct (en_plan x) as [b|o got room skip]; cbv zeta; [exact (fun H => H)|].
  destruct (if 0 <? _ then _ else _) as [p|z|z|]; cbn [recast]; try discriminate.
  destruct (read_seq E f t e room _ p) as [vs r] eqn:R. intros H. injection H as <- H.
  destruct r as [k|z|z|]; cbn [bind] in H; try discriminate. rewrite (seq_grow _ _ _ _ _ R). cbn [bind]. now rewrite H.
Qed.
Lemma sub_grow : forall es len pos es' y, read_sub_block E f t e es len pos = (es', Ok y) ->
  read_sub_block E (f ++ g) t e es len pos = (es', Ok y).
Proof.
  induction es as [|x es IH]; intros len pos es' y H; cbn [read_sub_block] in *; [exact H|].
  destruct (read_entry E f t e x pos) as [x' r] eqn:R. destruct r as [[l p]|z|z|]; cbn [recast] in H; try discriminate.
  rewrite (entry_grow _ _ _ _ R). destruct (read_sub_block E f t e es _ p) as [r' q] eqn:Rs. injection H as <- ->.
  now rewrite (IH _ _ _ _ Rs).
Qed.
Lemma contig_grow step : forall n idx es len pos es' l, contig_loop E f t e step n idx es len pos = (es', Ok l) ->
  contig_loop E (f ++ g) t e step n idx es len pos = (es', Ok l).
Proof.
  induction n as [|n IH]; intros idx es len pos es' l H; cbn [contig_loop] in *; [exact H|].
  destruct (step idx es) as [es1|].
  - destruct (read_sub_block E f t e es1 0 pos) as [es2 r] eqn:R. destruct r as [[k p]|z|z|]; cbn [recast] in H; try discriminate.
    rewrite (sub_grow _ _ _ _ _ R). now apply IH.
  - destruct (bind _ _) as [p|z|z|]; cbn [recast] in *; try discriminate. now apply IH.
Qed.
Lemma row_grow row : forall es any pos es' y, inter_row E f t e row es any pos = (es', Ok y) ->
  inter_row E (f ++ g) t e row es any pos = (es', Ok y).
Proof.
  induction es as [|x es IH]; intros any pos es' y H; cbn [inter_row] in *; [exact H|].
  destruct (en_plan x) as [b|o got room skip].
  - destruct (seek_rel E pos b) as [p|z|z|]; cbn [recast] in H; try discriminate.
    destruct (inter_row E f t e row es any p) as [r' q] eqn:R. injection H as <- ->. now rewrite (IH _ _ _ _ R).
  - destruct (read_at E f t e pos) as [[v p]|z|z|] eqn:Ra; cbn [recast] in H; try discriminate.
    rewrite (at_grow _ _ Ra). destruct (skip <=? row); [destruct room as [|room]|];
      (destruct (inter_row E f t e row es _ p) as [r' q] eqn:R; injection H as <- ->; now rewrite (IH _ _ _ _ R)).
Qed.
Lemma rows_grow : forall n row es read pos es' l, inter_rows E f t e n row es read pos = (es', Ok l) ->
  inter_rows E (f ++ g) t e n row es read pos = (es', Ok l).
Proof.
  induction n as [|n IH]; intros row es read pos es' l H; cbn [inter_rows] in *; [exact H|].
  destruct (inter_row E f t e row es false pos) as [es1 r] eqn:R. destruct r as [[b p]|z|z|]; cbn [recast] in H; try discriminate.
  rewrite (row_grow _ _ _ _ _ _ R). destruct b; [now apply IH|exact H].
Qed.
Lemma inter_grow start blen es es' l : inter_read E f t e start blen es = (es', Ok l) ->
  inter_read E (f ++ g) t e start blen es = (es', Ok l).
Proof.
  unfold inter_read. cbv zeta. destruct (bind _ _) as [[p total]|z|z|]; cbn [recast]; try discriminate. apply rows_grow.
Qed.
Lemma from_grow start blen es s es' l : contig_read_from E f t e start blen es s = (es', Ok l) ->
  contig_read_from E (f ++ g) t e start blen es s = (es', Ok l).
Proof.
  unfold contig_read_from. destruct (bind _ _) as [[[[p total] q] rm]|z|z|]; cbn [recast]; try discriminate. apply contig_grow.
Qed.
Lemma skips_grow start blen es s es' l : contig_read_skips E f t e start blen es s = (es', Ok l) ->
  contig_read_skips E (f ++ g) t e start blen es s = (es', Ok l).
Proof.
  unfold contig_read_skips. destruct (bind _ _) as [[[p total] q]|z|z|]; cbn [recast]; try discriminate. apply contig_grow.
Qed.
End Bytes.

Lemma block_grow E f g t b reqs (skips : bool) got n :
  (if skips then block_read_skips E f t b reqs else block_read E f t b reqs) = (got, Ok n) ->
  (if skips then block_read_skips E (f ++ g) t b reqs else block_read E (f ++ g) t b reqs) = (got, Ok n).
Proof.
  unfold block_read_skips, block_read. destruct (build_record_plan t (b_chans b) reqs) as [es|z|z|]; cbn [recast].
  2-4: destruct skips; discriminate.
  destruct skips, (b_layout b).
  - destruct (inter_read E f t _ _ _ _) as [es' r] eqn:R. intros H. injection H as <- ->. now rewrite (inter_grow _ _ _ _ _ _ _ _ _ _ R).
  - destruct (contig_read_skips E f t _ _ _ _ _) as [es' r] eqn:R. intros H. injection H as <- ->. now rewrite (skips_grow _ _ _ _ _ _ _ _ _ _ _ R).
  - destruct (inter_read E f t _ _ _ _) as [es' r] eqn:R. intros H. injection H as <- ->. now rewrite (inter_grow _ _ _ _ _ _ _ _ _ _ R).
  - destruct (contig_read_from E f t _ _ _ _ _) as [es' r] eqn:R. intros H. injection H as <- ->. now rewrite (from_grow _ _ _ _ _ _ _ _ _ _ _ R).
Qed.

(** ** The plan of longer lists of locations *)
Definition later (B : nat) (ls : list loc) : Prop := Forall (fun l => (B <= l_block l)%nat) ls.
Definition earlier (B : nat) (ls : list loc) : Prop := Forall (fun l => (l_block l < B)%nat) ls.
(** The states of the plan with the new locations after the old ones. *)
Definition with_more (st : list chst) (ns : list (list loc)) : list chst :=
  map (fun p => (fst (fst p) ++ snd p, snd (fst p))) (combine st ns).

Lemma min_more_none : forall st ns, min_block st = None -> length ns = length st -> Forall (fun n => n = []) ns ->
  min_block (with_more st ns) = None.
Proof.
  induction st as [|[l s] st IH]; intros [|n ns] M L A; cbn [length] in L; try discriminate; [reflexivity|].
  apply Forall_cons_iff in A. destruct A as [-> A]. unfold with_more. cbn [combine map fst snd min_block]. rewrite app_nil_r.
  cbn [min_block] in M. destruct l as [|x l]; [|destruct (min_block st); discriminate]. apply IH; try assumption. lia.
Qed.
Lemma min_more_ge B : forall st ns, Forall (fun c => fst c = []) st -> Forall (later B) ns ->
  forall b, min_block (with_more st ns) = Some b -> (B <= b)%nat.
Proof.
  induction st as [|[l s] st IH]; intros [|n ns] A N b M; unfold with_more in M; cbn [combine map min_block] in M; try discriminate.
  apply Forall_cons_iff in A. destruct A as [A0 A]. cbn [fst] in A0. subst l. apply Forall_cons_iff in N. destruct N as [N0 N].
  cbn [fst snd app] in M. fold (with_more st ns) in M. destruct n as [|x n]; [exact (IH _ A N _ M)|].
  apply Forall_cons_iff in N0. destruct N0 as [N0 _]. destruct (min_block (with_more st ns)) as [m|] eqn:Q.
  - injection M as <-. specialize (IH _ A N _ Q). lia.
  - injection M as <-. exact N0.
Qed.
Lemma min_more B : forall st ns b, Forall (fun c => earlier B (fst c)) st -> Forall (later B) ns -> length ns = length st ->
  min_block st = Some b -> min_block (with_more st ns) = Some b.
Proof.
  induction st as [|[l s] st IH]; intros [|n ns] b A N L M; cbn [length] in L; try discriminate.
  apply Forall_cons_iff in A. destruct A as [A0 A]. cbn [fst] in A0. apply Forall_cons_iff in N. destruct N as [N0 N].
  unfold with_more. cbn [combine map fst snd]. fold (with_more st ns). cbn [min_block] in M.
  assert (Lt : forall c, min_block st = Some c -> (c < B)%nat).
  { clear -A. induction st as [|[l s] st IH]; intros c M; cbn [min_block] in M; [discriminate|].
    apply Forall_cons_iff in A. destruct A as [A0 A]. cbn [fst] in A0. destruct l as [|x l]; [exact (IH A c M)|].
    apply Forall_cons_iff in A0. destruct A0 as [A0 _]. destruct (min_block st); injection M as <-; lia. }
  destruct l as [|x l].
  - specialize (IH _ _ A N ltac:(lia) M). cbn [app]. destruct n as [|y n]; [exact IH|]. cbn [min_block]. rewrite IH.
    apply Forall_cons_iff in N0. destruct N0 as [N0 _]. specialize (Lt _ M). f_equal. lia.
  - cbn [app min_block]. destruct (min_block st) as [m|] eqn:Q.
    + rewrite (IH _ m A N ltac:(lia) eq_refl). exact M.
    + injection M as <-. destruct (min_block (with_more st ns)) as [m|] eqn:Q2; [|reflexivity].
      assert (B <= m)%nat.
      { apply (min_more_ge B st ns) with (b := m); [|exact N|exact Q2].
        apply Forall_forall. intros c Hc. apply In_nth_error in Hc. destruct Hc as [i Hi]. exact (min_block_none _ Q _ _ Hi). }
      apply Forall_cons_iff in A0. destruct A0 as [A0 _]. f_equal. lia.
Qed.
Lemma chan_more B b (c : chst) n : later B n -> (b < B)%nat ->
  plan_chan b (fst c ++ n, snd c) = (fst (plan_chan b c), (fst (snd (plan_chan b c)) ++ n, snd (snd (plan_chan b c)))).
Proof.
  intros N L. destruct c as [[|x l] s]; cbn [fst snd app plan_chan].
  - destruct n as [|y n]; [reflexivity|]. apply Forall_cons_iff in N. destruct N as [N0 _].
    cbn [plan_chan]. destruct (Nat.eqb_spec (l_block y) b); [lia|reflexivity].
  - destruct (Nat.eqb (l_block x) b); reflexivity.
Qed.
Lemma step_more B b : forall st ns, Forall (later B) ns -> (b < B)%nat -> length ns = length st ->
  map fst (map (plan_chan b) (with_more st ns)) = map fst (map (plan_chan b) st)
  /\ map snd (map (plan_chan b) (with_more st ns)) = with_more (map snd (map (plan_chan b) st)) ns.
Proof.
  induction st as [|c st IH]; intros [|n ns] N L Ln; cbn [length] in Ln; try discriminate; [split; reflexivity|].
  apply Forall_cons_iff in N. destruct N as [N0 N]. destruct (IH ns N L ltac:(lia)) as [I1 I2].
  unfold with_more in *. cbn [combine map fst snd]. rewrite (chan_more B b c n N0 L). cbn [fst snd]. split; f_equal; assumption.
Qed.
Lemma chan_earlier B b c : earlier B (fst c) -> earlier B (fst (snd (plan_chan b c))).
Proof.
  destruct c as [[|x l] s]; cbn [plan_chan fst snd]; [exact (fun H => H)|]. intros H.
  destruct (Nat.eqb (l_block x) b); cbn [fst snd]; [|exact H]. now apply Forall_cons_iff in H.
Qed.
Lemma plan_more B : forall fuel st ns plan, Forall (fun c => earlier B (fst c)) st -> Forall (later B) ns -> length ns = length st ->
  read_plan_loop fuel st = Ok plan -> forall fuel2 plan2, read_plan_loop fuel2 (with_more st ns) = Ok plan2 ->
  exists extra, plan2 = plan ++ extra /\ (Forall (fun n => n = []) ns -> extra = []).
Proof.
  induction fuel as [|fuel IH]; intros st ns plan A N L H fuel2 plan2 H2; [discriminate|]. cbn [read_plan_loop] in H.
  destruct fuel2 as [|fuel2]; [discriminate|]. destruct (min_block st) as [b|] eqn:M.
  2: { injection H as <-. exists plan2. split; [reflexivity|]. intros Z. cbn [read_plan_loop] in H2.
       rewrite (min_more_none _ _ M L Z) in H2. now injection H2 as <-. }
  cbn [read_plan_loop] in H2. rewrite (min_more B _ _ _ A N L M) in H2. cbv zeta in H, H2.
  assert (Lb : (b < B)%nat).
  { destruct (min_block_some _ _ M) as [(i & l & ls & s & Hi & Hb) _]. rewrite Forall_forall in A.
    specialize (A _ (nth_error_In _ _ Hi)). cbn [fst] in A. apply Forall_cons_iff in A. destruct A as [A _]. lia. }
  destruct (step_more B b st ns N Lb L) as [S1 S2]. rewrite S1, S2 in H2.
  apply bind_ok in H. destruct H as [rest [Hr H]]. apply bind_ok in H2. destruct H2 as [rest2 [Hr2 H2]].
  injection H as <-. injection H2 as <-.
  destruct (IH (map snd (map (plan_chan b) st)) ns rest) with (fuel2 := fuel2) (plan2 := rest2) as [extra [-> Z]]; try assumption.
  - apply Forall_forall. intros c Hc. rewrite map_map in Hc. apply in_map_iff in Hc. destruct Hc as [c0 [<- Hc]].
    apply chan_earlier. rewrite Forall_forall in A. exact (A _ Hc).
  - now rewrite !map_length.
  - exists extra. split; [|exact Z]. destruct (existsb _ _); reflexivity.
Qed.

(** ** The index only grows *)
Definition grown (ix ix' : index) : Prop :=
  (exists bs, ix_blocks ix' = ix_blocks ix ++ bs)
  /\ forall p ls, get_positions ix p = Some ls ->
       exists more, get_positions ix' p = Some (ls ++ more) /\ later (length (ix_blocks ix)) more.

Lemma grown_refl ix : grown ix ix.
Proof. split; [exists []; now rewrite app_nil_r|]. intros p ls G. exists []. rewrite app_nil_r. split; [exact G|constructor]. Qed.
Lemma grown_trans a b c : grown a b -> grown b c -> grown a c.
Proof.
  intros [[b1 B1] G1] [[b2 B2] G2]. split; [exists (b1 ++ b2); now rewrite B2, B1, app_assoc|].
  intros p ls G. destruct (G1 _ _ G) as [m1 [Q1 L1]]. destruct (G2 _ _ Q1) as [m2 [Q2 L2]].
  exists (m1 ++ m2). rewrite app_assoc. split; [exact Q2|]. apply Forall_app. split; [exact L1|].
  eapply Forall_impl; [|exact L2]. cbn. intros l Hl. rewrite B1, app_length in Hl. lia.
Qed.
(** Same blocks, same locations of the objects there were. *)
Lemma grown_same ix ix' : ix_blocks ix' = ix_blocks ix ->
  (forall p od, map_get p (ix_objs ix) = Some od -> exists od', map_get p (ix_objs ix') = Some od' /\ o_locs od' = o_locs od) ->
  grown ix ix'.
Proof.
  intros B K. split; [exists []; now rewrite B, app_nil_r|]. intros p ls G. unfold get_positions in *.
  destruct (map_get p (ix_objs ix)) as [od|] eqn:Q; [|discriminate]. injection G as <-.
  destruct (K _ _ Q) as [od' [-> ->]]. exists []. rewrite app_nil_r. split; [reflexivity|constructor].
Qed.
Lemma od_update_locs od o : o_locs (fst (od_update od o)) = o_locs od.
Proof. unfold od_update. cbv zeta. destruct (o_fmt od), (om_idx o); reflexivity. Qed.
Lemma alter_same ix k od od' : map_get k (ix_objs ix) = Some od -> o_locs od' = o_locs od ->
  grown ix (set_objs ix (map_alter k (fun _ => od') (ix_objs ix))).
Proof.
  intros G L. apply grown_same; [reflexivity|]. intros p od0 Q. cbn [set_objs ix_objs]. rewrite map_get_alter, Q. cbn [option_map].
  destruct (str_eqb p k) eqn:K; [|eauto]. apply str_eqb_eq in K. subst p. rewrite Q in G. injection G as <-. eauto.
Qed.
Lemma meta_grown ix o : grown ix (fst (update_meta_object ix o)).
Proof.
  unfold update_meta_object. destruct (map_get (om_path o) (ix_objs ix)) as [od|] eqn:G.
  - destruct (od_update od o) as [od' r] eqn:U. cbn [fst]. apply (alter_same _ _ _ _ G). rewrite <- (od_update_locs od o). now rewrite U.
  - destruct (od_from o) as [od|x|x|]; try apply grown_refl. destruct (map_get (o_path od) (ix_objs ix)) eqn:Q; [apply grown_refl|].
    cbn [fst]. apply grown_same; [reflexivity|]. intros p od0 H. cbn [set_objs ix_objs]. rewrite map_get_insert.
    destruct (str_eqb p (o_path od)) eqn:K; [|eauto]. apply str_eqb_eq in K. congruence.
Qed.
Lemma active_grown ix l : grown ix (set_active ix l).
Proof. apply grown_same; [reflexivity|]. intros p od H. cbn [set_active ix_objs]. eauto. Qed.
Lemma object_grown ix o : grown ix (fst (update_or_activate ix o)).
Proof.
  unfold update_or_activate. destruct (is_active _ _).
  - cbv zeta. cbn [set_active ix_objs]. destruct (map_get (om_path o) (ix_objs ix)) as [od|] eqn:G; [|apply active_grown].
    destruct (od_update od o) as [od' r] eqn:U. cbn [fst].
    apply (grown_trans _ (set_active ix (update_active o (ix_active ix)))); [apply active_grown|].
    apply (alter_same (set_active ix _) _ od); [exact G|]. rewrite <- (od_update_locs od o). now rewrite U.
  - pose proof (meta_grown ix o) as M. destruct (update_meta_object ix o) as [ix1 r]. cbn [fst] in M.
    destruct r as [u|x|x|]; try exact M. destruct (channel_format ix1 (om_path o)); [|exact M].
    cbn [fst]. exact (grown_trans _ _ _ M (active_grown _ _)).
Qed.
Lemma objects_grown : forall os ix, grown ix (fst (add_objects ix os)).
Proof.
  induction os as [|o os IH]; intros ix; cbn [add_objects]; [apply grown_refl|].
  assert (M : grown ix (fst (match om_idx o with RINone => update_meta_object ix o | _ => update_or_activate ix o end))).
  { destruct (om_idx o); try apply object_grown. apply meta_grown. }
  destruct (match om_idx o with RINone => _ | _ => _ end) as [ix1 r]. cbn [fst] in M. destruct r as [u|x|x|]; try exact M.
  exact (grown_trans _ _ _ M (IH ix1)).
Qed.
Lemma locs_grown blk c : forall l i objs p od, map_get p objs = Some od ->
  exists od' more, map_get p (fst (insert_locs objs blk c i l)) = Some od' /\ o_locs od' = o_locs od ++ more /\ later blk more.
Proof.
  assert (Same : forall objs p (od : objdata), map_get p objs = Some od ->
    exists od' more, map_get p objs = Some od' /\ o_locs od' = o_locs od ++ more /\ later blk more).
  { intros objs p od H. exists od, []. rewrite app_nil_r. split; [exact H|]. split; [reflexivity|constructor]. }
  induction l as [|a l IH]; intros i objs p od H; cbn [insert_locs]; [now apply Same|].
  destruct (checked_mul (a_n a) c) as [n|]; [|now apply Same]. destruct (map_get (a_path a) objs) eqn:Ga; [|now apply Same].
  assert (K : exists od1 m, map_get p (map_alter (a_path a) (add_loc (mkLoc blk i n)) objs) = Some od1
                /\ o_locs od1 = o_locs od ++ m /\ later blk m).
  { rewrite map_get_alter, H. cbn [option_map]. destruct (str_eqb p (a_path a)).
    - eexists. exists [mkLoc blk i n]. split; [reflexivity|]. split; [reflexivity|]. constructor; [cbn [l_block]; lia|constructor].
    - exists od, []. rewrite app_nil_r. split; [reflexivity|]. split; [reflexivity|constructor]. }
  destruct K as (od1 & m1 & K1 & K2 & K3). destruct (IH (S i) _ p od1 K1) as (od2 & m2 & J1 & J2 & J3).
  exists od2, (m1 ++ m2). split; [exact J1|]. split; [now rewrite J2, K2, app_assoc|]. now apply Forall_app.
Qed.
Lemma data_grown ix b : grown ix (fst (insert_data_block ix b)).
Proof.
  unfold insert_data_block. destruct (number_of_chunks b) as [c|x|x|]; try apply grown_refl.
  pose proof (locs_grown (length (ix_blocks ix)) c (ix_active ix) 0 (ix_objs ix)) as K.
  destruct (insert_locs _ _ _ _ _) as [objs r]. cbn [fst] in *. split; [exists [b]; reflexivity|].
  intros p ls G. unfold get_positions in *. cbn [ix_objs]. destruct (map_get p (ix_objs ix)) as [od|] eqn:Q; [|discriminate].
  injection G as <-. destruct (K _ _ Q) as (od' & more & -> & -> & L). eauto.
Qed.
Lemma raw_grown E ix s : grown ix (fst (add_raw E ix s)).
Proof.
  unfold add_raw. destruct (active_metas _ _) as [[|m ms]|x|x|]; try apply grown_refl.
  destruct (from_segment _ _ _ _) as [b|x|x|]; try apply grown_refl. apply data_grown.
Qed.
Lemma segment_grown E ix s : grown ix (fst (add_segment E ix s)).
Proof.
  unfold add_segment. cbv zeta. set (ix0 := if toc_newlist (sg_toc s) then _ else _).
  assert (G0 : grown ix ix0) by (unfold ix0; destruct (toc_newlist _); [apply active_grown|apply grown_refl]).
  assert (G1 : grown ix0 (fst (match sg_meta s with Some objs => add_objects ix0 objs | None => (ix0, Ok tt) end))).
  { destruct (sg_meta s); [apply objects_grown|apply grown_refl]. }
  destruct (match sg_meta s with Some _ => _ | None => _ end) as [ix1 r]. cbn [fst] in G1.
  pose proof (grown_trans _ _ _ G0 G1) as G01. destruct r as [u|x|x|]; try exact G01.
  assert (G2 : grown ix1 (fst (if toc_raw (sg_toc s) then add_raw E ix1 s else (ix1, Ok tt)))).
  { destruct (toc_raw _); [apply raw_grown|apply grown_refl]. }
  destruct (if toc_raw _ then _ else _) as [ix2 r2]. cbn [fst] in G2. pose proof (grown_trans _ _ _ G01 G2) as G02.
  destruct r2 as [u2|x|x|]; try exact G02. destruct (total_size_bytes s) as [n|x|x|]; try exact G02.
  destruct (checked_add _ _) as [m|]; [|exact G02]. apply (grown_trans _ _ _ G02). cbn [fst].
  apply grown_same; [reflexivity|]. intros p od H. cbn [set_next ix_objs]. eauto.
Qed.
Lemma call_grown E F c : grown (tf_ix F) (tf_ix (fst (do_call E F c))).
Proof.
  destruct c as [e path kvs|e t chans vs lay]; cbn [do_call].
  - unfold write_properties_e. destruct (write_segment _ _ _ _) as [bs s]. pose proof (segment_grown E (tf_ix F) s) as K.
    destruct (add_segment E (tf_ix F) s). exact K.
  - unfold write_channels_e. destruct (stream_segment _ _ _ _ _ _) as [[bs s]|x|x|]; try apply grown_refl.
    pose proof (segment_grown E (tf_ix F) s) as K. destruct (add_segment E (tf_ix F) s). exact K.
Qed.
Lemma run_grown E : forall cs F, grown (tf_ix F) (tf_ix (fst (run_calls E F cs))).
Proof.
  induction cs as [|c cs IH]; intros F; cbn [run_calls]; [apply grown_refl|].
  pose proof (call_grown E F c) as K. destruct (do_call E F c) as [F1 x]. specialize (IH F1).
  destruct (run_calls E F1 cs) as [F2 xs]. exact (grown_trans _ _ _ K IH).
Qed.
(** The invariant of the index through calls. *)
Lemma call_inv E F c : inv (tf_ix F) -> inv (tf_ix (fst (do_call E F c))).
Proof.
  intros Iv. destruct c as [e path kvs|e t chans vs lay]; cbn [do_call].
  - unfold write_properties_e. destruct (write_segment _ _ _ _) as [bs s]. pose proof (add_segment_inv E (tf_ix F) s Iv) as K.
    destruct (add_segment E (tf_ix F) s). exact K.
  - unfold write_channels_e. destruct (stream_segment _ _ _ _ _ _) as [[bs s]|x|x|]; try exact Iv.
    pose proof (add_segment_inv E (tf_ix F) s Iv) as K. destruct (add_segment E (tf_ix F) s). exact K.
Qed.
Lemma run_inv E : forall cs F, inv (tf_ix F) -> inv (tf_ix (fst (run_calls E F cs))).
Proof.
  induction cs as [|c cs IH]; intros F Iv; cbn [run_calls]; [exact Iv|].
  pose proof (call_inv E F c Iv) as K. destruct (do_call E F c) as [F1 x]. specialize (IH F1 K).
  destruct (run_calls E F1 cs) as [F2 xs]. exact IH.
Qed.
Lemma inv_earlier ix p ls : inv ix -> get_positions ix p = Some ls -> earlier (length (ix_blocks ix)) ls.
Proof.
  intros Iv G. unfold get_positions in G. destruct (map_get p (ix_objs ix)) as [od|] eqn:Q; [|discriminate]. injection G as <-.
  destruct (inv_locs _ Iv _ _ Q) as [L _]. eapply Forall_impl; [|exact L]. intros l Hl. exact (loc_ok_block _ _ Hl).
Qed.

(** ** Executing a plan after the file has grown *)
Lemma block_at_grown ix ix' i b : grown ix ix' -> get_data_block ix i = Some b -> get_data_block ix' i = Some b.
Proof.
  intros [[bs B] _] H. unfold get_data_block in *. rewrite B. rewrite nth_error_app1; [exact H|].
  apply nth_error_Some. congruence.
Qed.
(** The same plan, any number of channels. *)
Lemma execute_same E f g t ix ix' : grown ix ix' -> forall plan prs outs outs',
  execute E f t ix plan prs outs = (outs', Ok tt) -> execute E (f ++ g) t ix' plan prs outs = (outs', Ok tt).
Proof.
  intros Gr. induction plan as [|br rest IH]; intros prs outs outs' H; cbn [execute] in *; [exact H|].
  destruct (get_data_block ix (br_block br)) as [b|] eqn:Gb; [|discriminate]. rewrite (block_at_grown _ _ _ _ Gr Gb).
  cbv zeta in *. destruct (if any_skip (br_chans br) then _ else _) as [got r] eqn:B in H.
  destruct r as [n|x|x|]; cbn [recast] in H; try discriminate. rewrite (block_grow _ _ g _ _ _ _ _ _ B).
  destruct (forallb complete _); [exact H|]. now apply IH.
Qed.
(** One channel: what is read does not depend on what the buffer held. *)
Lemma execute_indep E f t ix : forall plan pr n, Forall (fun br => length (br_chans br) = 1%nat) plan ->
  pr_target pr = n -> pr_read pr <= n ->
  exists v r, pr_read pr + lenN v <= n
    /\ forall o, lenN o = n -> execute E f t ix plan [pr] [o] = ([splice o (pr_read pr) v], r).
Proof.
  induction plan as [|br rest IH]; intros pr n F T Pr; cbn [execute].
  - exists [], (Ok tt). split; [rewrite lenN_nil; lia|]. intros o _. now rewrite splice_nil.
  - apply Forall_cons_iff in F. destruct F as [F1 F]. destruct (br_chans br) as [|p [|? ?]] eqn:Bc; try discriminate F1.
    destruct (get_data_block ix (br_block br)) as [b|].
    2: { eexists [], _. split; [rewrite lenN_nil; lia|]. intros o _. rewrite splice_nil. reflexivity. }
    cbv zeta. destruct (requests_one p pr) as [R1 R2].
    destruct (if any_skip [p] then _ else _) as [got y] eqn:B.
    destruct (block_spec E f t b _ (any_skip [p]) _ _ R1 B) as (m & -> & Lm & Q).
    assert (Lm' : pr_read pr + lenN m <= n).
    { rewrite R2 in Lm. destruct (block_requests [p] [pr]); [destruct m; [rewrite lenN_nil; lia|cbn [length] in Lm; lia]|].
      unfold lenN. rewrite T in Lm. lia. }
    assert (St : forall o : list (carrier t), store [p] [pr] [o] (one_got t (block_requests [p] [pr]) m) = [splice o (pr_read pr) m]).
    { intros o. rewrite store_one. destruct (block_requests [p] [pr]); [|reflexivity]. cbn [room_for] in Lm. destruct m; [|cbn [length] in Lm; lia].
      now rewrite splice_nil. }
    destruct y as [k|x|x|]; cbn [recast].
    2-4: eexists m, _; split; [exact Lm'|]; intros o _; rewrite St; reflexivity.
    rewrite (advance_one t p pr k m (Q _ eq_refl) Lm). cbn [forallb]. destruct (complete _ && true).
    + eexists m, _. split; [exact Lm'|]. intros o _. rewrite St. reflexivity.
    + destruct (IH (mkPr (pr_read pr + lenN m) (pr_target pr)) n F T Lm') as (v & r & Lv & Hv). cbn [pr_read] in *.
      exists (m ++ v), r. rewrite lenN_app. split; [lia|]. intros o Lo. rewrite St, Hv.
      * f_equal. f_equal. apply splice_splice. lia.
      * unfold lenN. rewrite splice_len by lia. exact Lo.
Qed.
Lemma execute_grow E f g t ix ix' extra : grown ix ix' -> forall plan pr n o0 outs0,
  Forall (fun br => length (br_chans br) = 1%nat) plan -> pr_target pr = n -> pr_read pr < n -> lenN o0 = n ->
  execute E f t ix plan [pr] [o0] = (outs0, Ok tt) ->
  exists v, pr_read pr + lenN v <= n /\ forall o, lenN o = n ->
    execute E f t ix plan [pr] [o] = ([splice o (pr_read pr) v], Ok tt)
    /\ execute E (f ++ g) t ix' (plan ++ extra) [pr] [o]
       = if pr_read pr + lenN v =? n then ([splice o (pr_read pr) v], Ok tt)
         else execute E (f ++ g) t ix' extra [mkPr (pr_read pr + lenN v) n] [splice o (pr_read pr) v].
Proof.
  intros Gr. induction plan as [|br rest IH]; intros pr n o0 outs0 F T Pr L0 H; cbn [execute app] in *.
  - exists []. rewrite lenN_nil, N.add_0_r. split; [lia|]. intros o _. rewrite splice_nil. split; [reflexivity|].
    replace (pr_read pr =? n) with false by (symmetry; apply N.eqb_neq; lia). rewrite <- T. now destruct pr.
  - apply Forall_cons_iff in F. destruct F as [F1 F]. destruct (br_chans br) as [|p [|? ?]] eqn:Bc; try discriminate F1.
    destruct (get_data_block ix (br_block br)) as [b|] eqn:Gb; [|discriminate]. rewrite (block_at_grown _ _ _ _ Gr Gb).
    cbv zeta in *. destruct (requests_one p pr) as [R1 R2].
    destruct (if any_skip [p] then _ else _) as [got y] eqn:B in H. rewrite B.
    destruct (block_spec E f t b _ (any_skip [p]) _ _ R1 B) as (m & -> & Lm & Q).
    assert (Lm' : pr_read pr + lenN m <= n).
    { rewrite R2 in Lm. destruct (block_requests [p] [pr]); [destruct m; [rewrite lenN_nil; lia|cbn [length] in Lm; lia]|].
      unfold lenN. rewrite T in Lm. lia. }
    assert (St : forall o : list (carrier t), store [p] [pr] [o] (one_got t (block_requests [p] [pr]) m) = [splice o (pr_read pr) m]).
    { intros o. rewrite store_one. destruct (block_requests [p] [pr]); [|reflexivity]. cbn [room_for] in Lm. destruct m; [|cbn [length] in Lm; lia].
      now rewrite splice_nil. }
    destruct y as [k|x|x|]; cbn [recast] in H; try discriminate.
    rewrite (block_grow _ _ g _ _ _ _ _ _ B).
    rewrite (advance_one t p pr k m (Q _ eq_refl) Lm) in *. cbn [forallb] in *. rewrite St in H.
    destruct (complete _ && true) eqn:Cm.
    + exists m. split; [exact Lm'|]. intros o _. rewrite St. rewrite andb_true_r in Cm. unfold complete in Cm. cbn [pr_read pr_target] in Cm.
      replace (pr_read pr + lenN m =? n) with true by (symmetry; apply N.eqb_eq; lia). split; reflexivity.
    + rewrite andb_true_r in Cm. unfold complete in Cm. cbn [pr_read pr_target] in Cm.
      destruct (IH (mkPr (pr_read pr + lenN m) (pr_target pr)) n (splice o0 (pr_read pr) m) outs0 F T) as (v & Lv & Hv); cbn [pr_read] in *; [lia| |exact H|].
      * unfold lenN. rewrite splice_len by lia. exact L0.
      * exists (m ++ v). rewrite lenN_app. split; [lia|]. intros o Lo. rewrite St.
        destruct (Hv (splice o (pr_read pr) m)) as [H1 H2]; [unfold lenN; rewrite splice_len by lia; exact Lo|].
        rewrite H1, H2, N.add_assoc, splice_splice by lia. split; reflexivity.
Qed.
