(** * Reads of a file that has lost its end *)
From Verif Require Import Base Lib Utf8 DataTypes MetaData DataBlock Index RawData ChannelReader TdmsFile ReaderIO
  SpecReadIO SpecIndex SpecSession SpecRead SpecMulti Codec_proofs Parse_proofs ReadIO_proofs Cut_proofs Plan_proofs MultiCut_proofs
  Persist_proofs SpecShort.

(** ** Decoding *)
Definition kept {A} (p : parser A) : Prop := forall bs x,
  p bs = EOF \/ match p bs with Ok (v, r) => p (bs ++ x) = Ok (v, r ++ x) | q => p (bs ++ x) = q end.
Lemma kept_exact n : kept (read_exact n).
Proof.
  intros bs x. destruct (read_exact n bs) as [[v r]|y|y|] eqn:R.
  - right. apply read_exact_ok in R. destruct R as [-> <-]. rewrite <- app_assoc. apply read_exact_app.
  - left. unfold read_exact in R. destruct (n <=? lenN bs); [discriminate|]. symmetry. exact R.
  - unfold read_exact in R. destruct (n <=? lenN bs); discriminate.
  - unfold read_exact in R. destruct (n <=? lenN bs); discriminate.
Qed.
Lemma kept_bind {A B} (p : parser A) (q : A -> parser B) : kept p -> (forall a, kept (q a)) ->
  kept (fun bs => '(a, r) <- p bs ;; q a r).
Proof.
  intros P Q bs x. destruct (P bs x) as [H|H]; [left; now rewrite H|].
  destruct (p bs) as [[v r]|y|y|]; cbn [bind]; rewrite H; cbn [bind].
  - exact (Q v r x).
  - right; reflexivity.
  - right; reflexivity.
  - right; reflexivity.
Qed.
Lemma kept_ret {A} (a : A) : kept (fun bs => Ok (a, bs)).
Proof. intros bs x. right. reflexivity. Qed.
Lemma kept_err {A} y : kept (fun _ : list byte => @Err (A * list byte) y).
Proof. intros bs x. right. reflexivity. Qed.
Lemma kept_uint e w : kept (dec_uint e w).
Proof. apply (kept_bind (read_exact (N.of_nat w)) (fun b r => Ok (uint_val e b, r))); [apply kept_exact|]. intros a. apply kept_ret. Qed.
Lemma kept_sint e w : kept (dec_sint e w).
Proof. apply (kept_bind (dec_uint e w) (fun b r => Ok (to_signed w b, r))); [apply kept_uint|]. intros a. apply kept_ret. Qed.
Lemma kept_complex e w : kept (dec_complex e w).
Proof.
  apply (kept_bind (dec_uint e w) (fun re r => '(im, r') <- dec_uint e w r ;; Ok ((re, im), r'))); [apply kept_uint|]. intros a.
  apply (kept_bind (dec_uint e w) (fun im r => Ok ((a, im), r))); [apply kept_uint|]. intros c. apply kept_ret.
Qed.
Lemma kept_str E e : kept (dec_str E e).
Proof.
  apply (kept_bind (dec_uint e 4) (fun len r => if alloc_ok E AString len then
    '(b, r') <- read_exact len r ;; if utf8_valid b then Ok (b, r') else Err EStringFormat else Err EStringAllocationFailed)).
  - apply kept_uint.
  - intros a. destruct (alloc_ok E AString a); [|apply kept_err].
    apply (kept_bind (read_exact a) (fun b r' => if utf8_valid b then Ok (b, r') else Err EStringFormat)); [apply kept_exact|].
    intros c. destruct (utf8_valid c); [apply kept_ret|apply kept_err].
Qed.
Lemma kept_dec E e t : kept (dec E e t).
Proof.
  destruct t; cbn [dec]; try apply kept_uint; try apply kept_sint; try apply kept_complex.
  - apply (kept_bind (read_exact 1) (fun b r => Ok (negb (le_val b =? 0), r))); [apply kept_exact|]. intros a. apply kept_ret.
  - apply (kept_bind (read_exact 10) (fun b r => Ok (match e with LittleE => le_val (b ++ repeat x00 6) | BigE => le_val (rev (repeat x00 6 ++ b)) end, r)));
      [apply kept_exact|]. intros a. apply kept_ret.
  - apply kept_str.
Qed.
Lemma dec_nil E e t : dec E e t [] = EOF.
Proof.
  pose proof (good_dec E e t []) as [_ Gd]. destruct (dec E e t []) as [[v r]|y|y|] eqn:D.
  - destruct (Gd _ _ eq_refl) as [c [Hc [Lc _]]]. destruct c; [|discriminate]. rewrite lenN_nil in Lc. pose proof (min_size_pos t). lia.
  - revert D. destruct t; cbn; intros D; injection D as <-; reflexivity.
  - revert D. destruct t; cbn; discriminate.
  - revert D. destruct t; cbn; discriminate.
Qed.

Section Bytes.
Context (E : env) (f g : list byte) (t : sty) (e : endian).
Local Notation V := (carrier t).
Local Notation ext := (entry_ext t).

(** The same, or the end of the shorter file. *)
Lemma at_short pos : read_at E f t e pos = EOF \/ read_at E (f ++ g) t e pos = read_at E f t e pos.
Proof.
  unfold read_at. destruct (N.le_gt_cases pos (lenN f)) as [L|L].
  - rewrite (dropN_before _ _ _ L). destruct (kept_dec E e t (dropN pos f) g) as [H|H]; [left; now rewrite H|].
    destruct (dec E e t (dropN pos f)) as [[v r]|y|y|] eqn:D; rewrite H; cbn [bind]; [|right; reflexivity|right; reflexivity|right; reflexivity].
    right. f_equal. f_equal. rewrite !lenN_app. lia.
  - left. rewrite (dropN_past _ _ L), dec_nil. reflexivity.
Qed.

Definition short {A} (es : list (entry V)) (x y : list (entry V) * res A) : Prop :=
  x = y \/ (snd x = EOF /\ behind t es (fst x) (fst y)).
Lemma vals_short : forall n pos, read_vals E f t e n pos = read_vals E (f ++ g) t e n pos
  \/ (snd (read_vals E f t e n pos) = EOF /\ exists rest, fst (read_vals E (f ++ g) t e n pos) = fst (read_vals E f t e n pos) ++ rest).
Proof.
  induction n as [|n IH]; intros pos; cbn [read_vals]; [left; reflexivity|].
  destruct (at_short pos) as [H|H].
  - right. rewrite H. cbn [recast fst snd EOF]. split; [reflexivity|]. eexists. reflexivity.
  - rewrite H. destruct (read_at E f t e pos) as [[v p]|y|y|]; cbn [recast]; [|left; reflexivity|left; reflexivity|left; reflexivity].
    destruct (IH p) as [Q|[Q [rest R]]].
    + rewrite Q. left. reflexivity.
    + right. destruct (read_vals E f t e n p) as [vs r], (read_vals E (f ++ g) t e n p) as [ws s]. cbn [fst snd] in *. subst. split; [reflexivity|].
      exists rest. reflexivity.
Qed.
Lemma seq_short room samples pos : read_seq E f t e room samples pos = read_seq E (f ++ g) t e room samples pos
  \/ (snd (read_seq E f t e room samples pos) = EOF
      /\ exists rest, fst (read_seq E (f ++ g) t e room samples pos) = fst (read_seq E f t e room samples pos) ++ rest).
Proof.
  unfold read_seq. cbv zeta. destruct (vals_short (N.to_nat (N.min (N.of_nat room) samples)) pos) as [Q|[Q [rest R]]].
  - rewrite Q. left. reflexivity.
  - right. destruct (read_vals E f t e _ pos) as [vs r], (read_vals E (f ++ g) t e _ pos) as [ws s]. cbn [fst snd] in *. subst. split; [reflexivity|].
    exists rest. reflexivity.
Qed.
Lemma vals_len h : forall n pos, (length (fst (read_vals E h t e n pos)) <= n)%nat.
Proof.
  induction n as [|n IH]; intros pos; cbn [read_vals]; [cbn; lia|].
  destruct (read_at E h t e pos) as [[v p]|y|y|]; cbn [fst length]; try lia.
  specialize (IH p). destruct (read_vals E h t e n p). cbn [fst length] in *. lia.
Qed.
Lemma seq_len h room samples pos : (length (fst (read_seq E h t e room samples pos)) <= room)%nat.
Proof.
  unfold read_seq. cbv zeta. pose proof (vals_len h (N.to_nat (N.min (N.of_nat room) samples)) pos) as L.
  destruct (read_vals E h t e _ pos). cbn [fst] in *. lia.
Qed.
Lemma entry_short x pos : read_entry E f t e x pos = read_entry E (f ++ g) t e x pos
  \/ (snd (read_entry E f t e x pos) = EOF /\ part t x (fst (read_entry E f t e x pos), fst (read_entry E (f ++ g) t e x pos))).
Proof.
  unfold read_entry. destruct (en_plan x) as [b|o got room skip] eqn:P; cbv zeta; [left; reflexivity|].
  destruct (if 0 <? _ then _ else _) as [p|z|z|]; cbn [recast]; [|left; reflexivity|left; reflexivity|left; reflexivity].
  match goal with |- context[read_seq E f t e room ?s p] => pose proof (seq_len f room s p) as L1; pose proof (seq_len (f ++ g) room s p) as L2;
    destruct (seq_short room s p) as [Q|[Q [rest R]]] end.
  - rewrite Q. left. reflexivity.
  - right. destruct (read_seq E f t e room _ p) as [vs r], (read_seq E (f ++ g) t e room _ p) as [ws s]. cbn [fst snd] in *. subst r ws.
    split; [reflexivity|]. rewrite app_length in *. exists vs, rest. cbn [fst snd]. unfold entry_ext. rewrite P. split.
    + eexists _, _, _. split; [reflexivity|lia].
    + eexists _, _, _. split; [reflexivity|]. rewrite app_length. lia.
Qed.
Lemma sub_short : forall es len pos, short es (read_sub_block E f t e es len pos) (read_sub_block E (f ++ g) t e es len pos).
Proof.
  induction es as [|x es IH]; intros len pos; cbn [read_sub_block]; [left; reflexivity|].
  destruct (entry_short x pos) as [Q|[Q P]].
  - rewrite <- Q. destruct (read_entry E f t e x pos) as [x' r] eqn:R. destruct (entry_spec E f t e _ _ _ _ R) as [m [X _]].
    destruct r as [[l p]|z|z|]; cbn [recast]; [|left; reflexivity|left; reflexivity|left; reflexivity].
    destruct (IH (match l with Some n => n | None => len end) p) as [H|[H1 H2]].
    + rewrite H. left. reflexivity.
    + right. destruct (read_sub_block E f t e es _ p) as [e1 r1], (read_sub_block E (f ++ g) t e es _ p) as [e2 r2]. cbn [fst snd] in *.
      split; [exact H1|]. apply behind_cons; [exact (part_refl t _ _ _ X)|exact H2].
  - right. destruct (read_entry E f t e x pos) as [x1 r1], (read_entry E (f ++ g) t e x pos) as [x2 r2]. cbn [fst snd] in *. subst r1.
    cbn [recast EOF]. split; [reflexivity|]. cbn [fst].
    destruct r2 as [[l q]|y|y|]; cbn [fst].
    2-4: apply behind_cons; [exact P|apply behind_refl, grew_refl].
    match goal with |- context[read_sub_block E (f ++ g) t e es ?l q] => pose proof (sub_grew E (f ++ g) t e es l q) as G2;
      destruct (read_sub_block E (f ++ g) t e es l q) as [es2 r2] end.
    apply behind_cons; [exact P|]. apply behind_now. exact G2.
Qed.
Lemma contig_short step : keeps t step -> forall n idx es len pos,
  short es (contig_loop E f t e step n idx es len pos) (contig_loop E (f ++ g) t e step n idx es len pos).
Proof.
  intros Kp. induction n as [|n IH]; intros idx es len pos; cbn [contig_loop]; [left; reflexivity|].
  destruct (step idx es) as [es1|] eqn:St.
  - pose proof (Kp _ _ _ St) as G1. destruct (sub_short es1 0 pos) as [Q|[Q B]].
    + rewrite <- Q. pose proof (sub_grew E f t e es1 0 pos) as G2. destruct (read_sub_block E f t e es1 0 pos) as [es2 r]. cbn [fst] in G2.
      destruct r as [[l p]|z|z|]; cbn [recast]; [|left; reflexivity|left; reflexivity|left; reflexivity].
      destruct (IH (idx + 1) es2 (len + l) p) as [H|[H1 H2]]; [left; exact H|right]. split; [exact H1|].
      eapply behind_pre; [exact G1|]. eapply behind_pre; [exact G2|exact H2].
    + right. destruct (read_sub_block E f t e es1 0 pos) as [e1 r1], (read_sub_block E (f ++ g) t e es1 0 pos) as [e2 r2]. cbn [fst snd] in *.
      subst r1. cbn [recast EOF fst snd]. split; [reflexivity|]. eapply behind_pre; [exact G1|].
      destruct r2 as [[l q]|y|y|]; cbn [fst]; try exact B. eapply behind_post; [exact B|apply contig_grew, Kp].
  - destruct (bind _ _) as [p|z|z|]; cbn [recast]; [|left; reflexivity|left; reflexivity|left; reflexivity]. apply IH.
Qed.
Lemma row_short row : forall es any pos, short es (inter_row E f t e row es any pos) (inter_row E (f ++ g) t e row es any pos).
Proof.
  induction es as [|x es IH]; intros any pos; cbn [inter_row]; [left; reflexivity|].
  assert (One : forall x' a p m, ext x x' m ->
    short (x :: es) (let '(r', q) := inter_row E f t e row es a p in (x' :: r', q)) (let '(r', q) := inter_row E (f ++ g) t e row es a p in (x' :: r', q))).
  { intros x' a p m X. destruct (IH a p) as [H|[H1 H2]]; [rewrite H; left; reflexivity|right].
    destruct (inter_row E f t e row es a p) as [e1 r1], (inter_row E (f ++ g) t e row es a p) as [e2 r2]. cbn [fst snd] in *.
    split; [exact H1|]. apply behind_cons; [exact (part_refl t _ _ _ X)|exact H2]. }
  destruct (en_plan x) as [b|o got room skip] eqn:P.
  - destruct (seek_rel E pos b) as [p|z|z|]; cbn [recast]; [|left; reflexivity|left; reflexivity|left; reflexivity].
    apply (One x any p []). apply entry_ext_refl.
  - destruct (at_short pos) as [H|H].
    + right. rewrite H. cbn [recast EOF fst snd]. split; [reflexivity|]. apply behind_now.
      pose proof (row_grew E (f ++ g) t e row (x :: es) any pos) as G. cbn [inter_row] in G. rewrite P in G. exact G.
    + rewrite H. destruct (read_at E f t e pos) as [[v p]|z|z|]; cbn [recast]; [|left; reflexivity|left; reflexivity|left; reflexivity].
      destruct (skip <=? row); [destruct room as [|room]|].
      * apply (One x any p []). apply entry_ext_refl.
      * apply (One _ true p [v]). unfold entry_ext. rewrite P. eexists _, _, _. split; [reflexivity|cbn [length]; lia].
      * apply (One x any p []). apply entry_ext_refl.
Qed.
Lemma rows_short : forall n row es read pos, short es (inter_rows E f t e n row es read pos) (inter_rows E (f ++ g) t e n row es read pos).
Proof.
  induction n as [|n IH]; intros row es read pos; cbn [inter_rows]; [left; reflexivity|].
  destruct (row_short row es false pos) as [Q|[Q B]].
  - rewrite <- Q. pose proof (row_grew E f t e row es false pos) as G. destruct (inter_row E f t e row es false pos) as [es1 r]. cbn [fst] in G.
    destruct r as [[[|] p]|z|z|]; cbn [recast]; [|left; reflexivity|left; reflexivity|left; reflexivity|left; reflexivity].
    destruct (IH (row + 1) es1 (read + 1) p) as [H|[H1 H2]]; [left; exact H|right]. split; [exact H1|]. eapply behind_pre; [exact G|exact H2].
  - right. destruct (inter_row E f t e row es false pos) as [e1 r1], (inter_row E (f ++ g) t e row es false pos) as [e2 r2]. cbn [fst snd] in *.
    subst r1. cbn [recast EOF fst snd]. split; [reflexivity|].
    destruct r2 as [[[|] q]|y|y|]; cbn [fst]; try exact B. eapply behind_post; [exact B|apply rows_grew].
Qed.
Lemma inter_short start blen es : short es (inter_read E f t e start blen es) (inter_read E (f ++ g) t e start blen es).
Proof.
  unfold inter_read. cbv zeta. destruct (bind _ _) as [[p total]|z|z|]; cbn [recast]; [|left; reflexivity|left; reflexivity|left; reflexivity].
  match goal with |- context[map ?h es] => assert (G1 : grew t es (map h es)) end.
  { apply grew_map. intros x. destruct (en_plan x) eqn:P; [reflexivity|]. eexists. reflexivity. }
  match goal with |- context[inter_rows E f t e ?n 0 ?m 0 p] => destruct (rows_short n 0 m 0 p) as [H|[H1 H2]] end; [left; exact H|right].
  split; [exact H1|]. eapply behind_pre; [exact G1|exact H2].
Qed.
Lemma from_short start blen es s : short es (contig_read_from E f t e start blen es s) (contig_read_from E (f ++ g) t e start blen es s).
Proof.
  unfold contig_read_from. destruct (bind _ _) as [[[[p total] q] rm]|z|z|]; cbn [recast]; [|left; reflexivity|left; reflexivity|left; reflexivity].
  apply contig_short, from_keeps.
Qed.
Lemma skips_short start blen es s : short es (contig_read_skips E f t e start blen es s) (contig_read_skips E (f ++ g) t e start blen es s).
Proof.
  unfold contig_read_skips. destruct (bind _ _) as [[[p total] q]|z|z|]; cbn [recast]; [|left; reflexivity|left; reflexivity|left; reflexivity].
  apply contig_short. intros idx es0 es1. destruct (forallb _ q); intros Z; [|discriminate]. injection Z as <-. apply grew_zip.
Qed.
End Bytes.

(** ** One block *)
(** Entries of a plan that nothing was read into, with the room of their requests. *)
Definition fresh {V} (reqs : list req) (x : entry V) : Prop :=
  match en_plan x with PRead o got r _ => got = [] /\ exists q, nth_error reqs o = Some q /\ r = rq_room q | PSkip _ => True end.
Lemma set_fresh {V} reqs : forall rs k (es : list (entry V)), (forall i q, nth_error rs i = Some q -> nth_error reqs (k + i) = Some q) ->
  Forall (fresh reqs) es -> Forall (fresh reqs) (set_readable k rs es).
Proof.
  induction rs as [|q rs IH]; intros k es Hr H; cbn [set_readable]; [exact H|]. apply IH.
  - intros i q' Hi. specialize (Hr (S i) q' Hi). now rewrite Nat.add_succ_r in Hr.
  - assert (Hq : nth_error reqs k = Some q) by (specialize (Hr 0%nat q eq_refl); now rewrite Nat.add_0_r in Hr).
    generalize (rq_chan q) as i. induction H as [|x es X H IHe]; intros i; [destruct i; constructor|].
    destruct i as [|i]; cbn [set_plan]; constructor; auto. unfold fresh. cbn [en_plan]. eauto.
Qed.
Lemma plan_fresh t ms reqs es : @build_record_plan (carrier t) t ms reqs = Ok es -> Forall (fresh reqs) es.
Proof.
  unfold build_record_plan. destruct (validate t reqs ms); cbn [bind]; try discriminate. intros H. injection H as <-.
  apply set_fresh; [auto|]. unfold base_record. apply Forall_map, Forall_forall. intros m _. exact Logic.I.
Qed.
Lemma fresh_empty {V} reqs (es : list (entry V)) : Forall (fresh reqs) es -> Forall empty_got es.
Proof. apply Forall_impl. intros x. unfold fresh, empty_got. destruct (en_plan x); [auto|tauto]. Qed.
Lemma fresh_harvest t reqs i q : nth_error reqs i = Some q -> forall es es', Forall (fresh reqs) es -> grew t es es' ->
  (length (harvest i es') <= rq_room q)%nat.
Proof.
  intros Hq es es' F G. induction G as [|x y es es' [m X] G IH]; [cbn; lia|]. apply Forall_cons_iff in F. destruct F as [Fx F].
  unfold entry_ext in X. unfold fresh in Fx. cbn [harvest]. destruct (en_plan x) as [b|o got room skip] eqn:P.
  - destruct X as [-> _]. rewrite P. now apply IH.
  - destruct X as (l' & r' & s' & -> & L). cbn [en_plan]. destruct (Nat.eqb o i) eqn:Q; [|now apply IH].
    apply Nat.eqb_eq in Q. subst o. destruct Fx as [-> [q' [Hq' ->]]]. rewrite Hq in Hq'. injection Hq' as <-. cbn [app]. lia.
Qed.
Lemma outputs_len t reqs es es' : Forall (fresh reqs) es -> grew t es es' ->
  Forall2 (fun q g => (length g <= rq_room q)%nat) reqs (outputs reqs es').
Proof.
  intros F G. unfold outputs. assert (K : forall rs k, (forall i q, nth_error rs i = Some q -> nth_error reqs (k + i) = Some q) ->
    Forall2 (fun q (g : list (carrier t)) => (length g <= rq_room q)%nat) rs (map (fun i => harvest i es') (seq k (length rs)))).
  { induction rs as [|q rs IH]; intros k Hr; cbn [length seq map]; constructor.
    - apply (fresh_harvest t reqs k q) with (es := es); [|exact F|exact G]. specialize (Hr 0%nat q eq_refl). now rewrite Nat.add_0_r in Hr.
    - apply IH. intros i q' Hi. specialize (Hr (S i) q' Hi). now rewrite Nat.add_succ_r in Hr. }
  apply K. auto.
Qed.

Section Block.
Context (E : env) (t : sty).
Definition any_read (h : list byte) (b : dblock) (reqs : list req) (skips : bool) : list (list (carrier t)) * res N :=
  if skips then block_read_skips E h t b reqs else block_read E h t b reqs.
Lemma block_room h b reqs skips : Forall2 (fun q g => (length g <= rq_room q)%nat) reqs (fst (any_read h b reqs skips)).
Proof.
  unfold any_read, block_read_skips, block_read. destruct (build_record_plan t (b_chans b) reqs) as [es|z|z|] eqn:Bp.
  2-4: assert (K : Forall2 (fun q (g : list (carrier t)) => (length g <= rq_room q)%nat) reqs (map (fun _ => []) reqs))
    by (clear; induction reqs as [|q rs IH]; cbn [map]; constructor; [cbn; lia|exact IH]); destruct skips; exact K.
  pose proof (plan_fresh _ _ _ _ Bp) as F. destruct skips, (b_layout b); cbv zeta.
  - match goal with |- context[inter_read E h t ?e ?s ?l ?z] => pose proof (inter_grew E h t e s l z) as G; destruct (inter_read E h t e s l z) end.
    cbn [fst] in *. eapply outputs_len; [exact F|]. eapply grew_trans; [|exact G]. apply grew_zip.
  - match goal with |- context[contig_read_skips E h t ?e ?s ?l ?z ?k] => pose proof (skips_grew E h t e s l z k) as G; destruct (contig_read_skips E h t e s l z k) end.
    cbn [fst] in *. eapply outputs_len; [exact F|exact G].
  - match goal with |- context[inter_read E h t ?e ?s ?l ?z] => pose proof (inter_grew E h t e s l z) as G; destruct (inter_read E h t e s l z) end.
    cbn [fst] in *. eapply outputs_len; [exact F|exact G].
  - match goal with |- context[contig_read_from E h t ?e ?s ?l ?z ?k] => pose proof (from_grew E h t e s l z k) as G; destruct (contig_read_from E h t e s l z k) end.
    cbn [fst] in *. eapply outputs_len; [exact F|exact G].
Qed.
Lemma block_short f g b reqs skips : any_read f b reqs skips = any_read (f ++ g) b reqs skips
  \/ (snd (any_read f b reqs skips) = EOF /\ Forall2 (begins t) (fst (any_read f b reqs skips)) (fst (any_read (f ++ g) b reqs skips))).
Proof.
  unfold any_read, block_read_skips, block_read. destruct (build_record_plan t (b_chans b) reqs) as [es|z|z|] eqn:Bp.
  2-4: left; destruct skips; reflexivity.
  pose proof (fresh_empty _ _ (plan_fresh _ _ _ _ Bp)) as Em.
  assert (O : forall es1 es2, behind t es es1 es2 -> Forall2 (begins t) (outputs reqs es1) (outputs reqs es2)).
  { intros es1 es2 B. unfold outputs. induction (seq 0 (length reqs)) as [|i l IH]; cbn [map]; constructor; [|exact IH].
    exact (behind_harvest t i es es1 es2 (empty_harvest _ i es Em) B). }
  destruct skips, (b_layout b); cbv zeta.
  - match goal with |- context[inter_read E f t ?e ?s ?l ?z] => destruct (inter_short E f g t e s l z) as [H|[H1 H2]];
      [rewrite H; left; reflexivity|right; destruct (inter_read E f t e s l z), (inter_read E (f ++ g) t e s l z)] end.
    cbn [fst snd] in *. split; [exact H1|]. apply O. eapply behind_pre; [apply grew_zip|exact H2].
  - match goal with |- context[contig_read_skips E f t ?e ?s ?l ?z ?k] => destruct (skips_short E f g t e s l z k) as [H|[H1 H2]];
      [rewrite H; left; reflexivity|right; destruct (contig_read_skips E f t e s l z k), (contig_read_skips E (f ++ g) t e s l z k)] end.
    cbn [fst snd] in *. split; [exact H1|]. apply O, H2.
  - match goal with |- context[inter_read E f t ?e ?s ?l ?z] => destruct (inter_short E f g t e s l z) as [H|[H1 H2]];
      [rewrite H; left; reflexivity|right; destruct (inter_read E f t e s l z), (inter_read E (f ++ g) t e s l z)] end.
    cbn [fst snd] in *. split; [exact H1|]. apply O, H2.
  - match goal with |- context[contig_read_from E f t ?e ?s ?l ?z ?k] => destruct (from_short E f g t e s l z k) as [H|[H1 H2]];
      [rewrite H; left; reflexivity|right; destruct (contig_read_from E f t e s l z k), (contig_read_from E (f ++ g) t e s l z k)] end.
    cbn [fst snd] in *. split; [exact H1|]. apply O, H2.
Qed.
End Block.

(** ** A plan *)
Lemma partly_refl {A} (o : list A) : partly o o o.
Proof. repeat split. exists 0%nat. split; reflexivity. Qed.
Lemma all_partly_nil {A} : @all_partly A [] [] [].
Proof. repeat split. intros [|i] o; discriminate. Qed.
Lemma all_partly_cons {A} (a b o : list A) old new os : partly a b o -> all_partly old new os -> all_partly (a :: old) (b :: new) (o :: os).
Proof.
  intros P (L1 & L2 & H). split; [cbn; lia|]. split; [cbn; lia|]. intros [|i] x Hx; cbn [nth_error] in *; [injection Hx as <-; eauto|]. now apply H.
Qed.
Lemma all_partly_refl {A} (os : list (list A)) : all_partly os os os.
Proof. induction os; [apply all_partly_nil|]. apply all_partly_cons; [apply partly_refl|assumption]. Qed.
Lemma splice_partly {A} (o m rest : list A) off : (N.to_nat off + length (m ++ rest) <= length o)%nat ->
  partly o (splice o off (m ++ rest)) (splice o off m).
Proof.
  intros L. rewrite app_length in L. split; [apply splice_len; unfold lenN; lia|]. split; [apply splice_len; unfold lenN; rewrite app_length; lia|].
  exists (N.to_nat off + length m)%nat. unfold splice.
  assert (Lf : length (firstn (N.to_nat off) o) = N.to_nat off) by (apply firstn_length_le; lia). split.
  - rewrite <- app_assoc, !(app_assoc (firstn (N.to_nat off) o) m).
    assert (Lm : length (firstn (N.to_nat off) o ++ m) = (N.to_nat off + length m)%nat) by (rewrite app_length; lia).
    rewrite <- Lm. rewrite !firstn_app, !Nat.sub_diag, !firstn_O, !app_nil_r. reflexivity.
  - rewrite !skipn_app, Lf, (skipn_all2 (firstn (N.to_nat off) o)) by lia.
    replace (N.to_nat off + length m - N.to_nat off)%nat with (length m) by lia. rewrite skipn_all, Nat.sub_diag. reflexivity.
Qed.
Definition fits {A} (prs : list progress) (outs : list (list A)) : Prop := Forall2 (fun pr o => pr_target pr = lenN o) prs outs.
Lemma fits_advance {A} : forall plans n prs (outs : list (list A)), fits prs outs -> fits (advance plans n prs) outs.
Proof.
  induction plans as [|p plans IH]; intros n prs outs F; [exact F|].
  destruct F as [|pr o prs outs H F]; cbn [advance]; [constructor|]. constructor; [destruct p; exact H|now apply IH].
Qed.
Lemma not_complete pr n (o : N) : complete pr = false -> pr_target pr = o -> (n <= N.to_nat (pr_target pr - pr_read pr))%nat ->
  (N.to_nat (pr_read pr) + n <= N.to_nat o)%nat.
Proof. unfold complete. lia. Qed.
Lemma store_short t : forall plans prs outs got1 got2, fits prs outs ->
  Forall2 (begins t) got1 got2 ->
  Forall2 (fun q (g : list (carrier t)) => (length g <= rq_room q)%nat) (block_requests plans prs) got2 ->
  fits prs (store plans prs outs got2) /\ all_partly outs (store plans prs outs got2) (store plans prs outs got1).
Proof.
  induction plans as [|p plans IH]; intros prs outs got1 got2 F B G; cbn [store block_requests] in *.
  - split; [exact F|apply all_partly_refl].
  - destruct F as [|pr o prs outs H F]; [split; [constructor|apply all_partly_refl]|].
    destruct p as [[i s]|]; [destruct (complete pr) eqn:C|].
    + destruct (IH prs outs got1 got2 F B G) as [I1 I2]. split; [constructor; assumption|]. apply all_partly_cons; [apply partly_refl|exact I2].
    + inversion G as [|q m reqs got Hq G' Q1 Q2]; subst. inversion B as [|m1 m2 got1' got2' Hb B' Q1 Q2]; subst.
      destruct (IH prs outs _ _ F B' G') as [I1 I2]. destruct Hb as [rest ->]. cbn [rq_room] in Hq.
      pose proof (not_complete pr _ _ C H Hq) as L. unfold lenN in L. rewrite Nnat.Nat2N.id in L. split.
      * constructor; [|exact I1]. rewrite H. unfold lenN. rewrite splice_len; [reflexivity|unfold lenN; lia].
      * apply all_partly_cons; [|exact I2]. now apply splice_partly.
    + destruct (IH prs outs got1 got2 F B G) as [I1 I2]. split; [constructor; assumption|]. apply all_partly_cons; [apply partly_refl|exact I2].
Qed.
Lemma begins_refl t got : Forall2 (begins t) got got.
Proof. induction got; constructor; [exists []; now rewrite app_nil_r|assumption]. Qed.

Lemma execute_short E f g t ix : forall plan prs outs, fits prs outs ->
  execute E f t ix plan prs outs = execute E (f ++ g) t ix plan prs outs
  \/ (snd (execute E f t ix plan prs outs) = EOF
      /\ exists k, (k < length plan)%nat
         /\ all_partly (fst (execute E (f ++ g) t ix (firstn k plan) prs outs))
                       (fst (execute E (f ++ g) t ix (firstn (S k) plan) prs outs))
                       (fst (execute E f t ix plan prs outs))).
Proof.
  induction plan as [|br rest IH]; intros prs outs F; cbn [execute]; [left; reflexivity|].
  destruct (get_data_block ix (br_block br)) as [b|] eqn:Gb; [|left; reflexivity]. cbv zeta.
  change (if any_skip (br_chans br) then block_read_skips E f t b (block_requests (br_chans br) prs)
          else block_read E f t b (block_requests (br_chans br) prs)) with (any_read E t f b (block_requests (br_chans br) prs) (any_skip (br_chans br))).
  change (if any_skip (br_chans br) then block_read_skips E (f ++ g) t b (block_requests (br_chans br) prs)
          else block_read E (f ++ g) t b (block_requests (br_chans br) prs)) with (any_read E t (f ++ g) b (block_requests (br_chans br) prs) (any_skip (br_chans br))).
  pose proof (block_room E t (f ++ g) b (block_requests (br_chans br) prs) (any_skip (br_chans br))) as R.
  destruct (block_short E t f g b (block_requests (br_chans br) prs) (any_skip (br_chans br))) as [Q|[Q B]].
  - rewrite Q. destruct (any_read E t (f ++ g) b _ _) as [got r] eqn:A. cbn [fst] in R.
    destruct r as [n|z|z|]; cbn [recast]; [|left; reflexivity|left; reflexivity|left; reflexivity].
    destruct (forallb complete _) eqn:Cm; [left; reflexivity|].
    destruct (store_short t _ _ _ _ _ F (begins_refl t got) R) as [F' _].
    destruct (IH _ _ (fits_advance (br_chans br) n _ _ F')) as [H|[H1 [k [Lk H2]]]]; [left; exact H|right]. split; [exact H1|].
    exists (S k). split; [cbn [length]; lia|]. cbn [firstn execute]. rewrite Gb. cbv zeta.
    change (if any_skip (br_chans br) then block_read_skips E (f ++ g) t b (block_requests (br_chans br) prs)
          else block_read E (f ++ g) t b (block_requests (br_chans br) prs)) with (any_read E t (f ++ g) b (block_requests (br_chans br) prs) (any_skip (br_chans br))).
    rewrite A, Cm. exact H2.
  - right. destruct (store_short t _ _ _ _ _ F B R) as [_ P].
    destruct (any_read E t f b _ _) as [got1 r1]. destruct (any_read E t (f ++ g) b _ _) as [got2 r2] eqn:A. cbn [fst snd] in *. subst r1.
    cbn [recast EOF fst snd]. split; [reflexivity|]. exists 0%nat. split; [cbn [length]; lia|]. cbn [firstn execute fst]. rewrite Gb. cbv zeta.
    change (if any_skip (br_chans br) then block_read_skips E (f ++ g) t b (block_requests (br_chans br) prs)
          else block_read E (f ++ g) t b (block_requests (br_chans br) prs)) with (any_read E t (f ++ g) b (block_requests (br_chans br) prs) (any_skip (br_chans br))).
    rewrite A. destruct r2 as [n|z|z|]; cbn [fst]; try exact P. destruct (forallb complete _); exact P.
Qed.
Lemma fits_start {A} (outs : list (list A)) : fits (map (fun o => mkPr 0 (lenN o)) outs) outs.
Proof. induction outs; constructor; [reflexivity|assumption]. Qed.

(** ** One channel: the values read are the first of those that the whole file would give *)
Lemma execute_short_one E f g t ix : forall plan pr o, Forall (fun br => length (br_chans br) = 1%nat) plan ->
  pr_target pr = lenN o -> pr_read pr <= lenN o ->
  exists vs rest r1 r2, pr_read pr + lenN (vs ++ rest) <= lenN o
    /\ execute E f t ix plan [pr] [o] = ([splice o (pr_read pr) vs], r1)
    /\ execute E (f ++ g) t ix plan [pr] [o] = ([splice o (pr_read pr) (vs ++ rest)], r2)
    /\ ((rest = [] /\ r1 = r2) \/ r1 = EOF).
Proof.
  induction plan as [|br rest IH]; intros pr o F T Pr; cbn [execute].
  - exists [], [], (Ok tt), (Ok tt). cbn [app]. rewrite lenN_nil, !splice_nil. split; [lia|]. do 2 (split; [reflexivity|]). left; split; reflexivity.
  - apply Forall_cons_iff in F. destruct F as [F1 F]. destruct (br_chans br) as [|p [|? ?]] eqn:Bc; try discriminate F1.
    destruct (get_data_block ix (br_block br)) as [b|].
    2: { eexists [], [], _, _. cbn [app]. rewrite lenN_nil, !splice_nil. split; [lia|]. do 2 (split; [reflexivity|]). left; split; reflexivity. }
    cbv zeta. destruct (requests_one p pr) as [R1 R2].
    destruct (if any_skip [p] then block_read_skips E f t b _ else _) as [got1 y1] eqn:B1.
    destruct (if any_skip [p] then block_read_skips E (f ++ g) t b _ else _) as [got2 y2] eqn:B2.
    destruct (block_spec E f t b _ (any_skip [p]) _ _ R1 B1) as (m1 & -> & Lm1 & Q1).
    destruct (block_spec E (f ++ g) t b _ (any_skip [p]) _ _ R1 B2) as (m2 & -> & Lm2 & Q2).
    assert (Le : forall m : list (carrier t), (length m <= room_for (block_requests [p] [pr]))%nat -> pr_read pr + lenN m <= lenN o).
    { intros m L. rewrite R2 in L. destruct (block_requests [p] [pr]); [destruct m; [rewrite lenN_nil; lia|cbn [length] in L; lia]|].
      unfold lenN in *. rewrite T in L. lia. }
    assert (St : forall (o : list (carrier t)) m, (length m <= room_for (block_requests [p] [pr]))%nat ->
      store [p] [pr] [o] (one_got t (block_requests [p] [pr]) m) = [splice o (pr_read pr) m]).
    { intros o' m L. rewrite store_one. destruct (block_requests [p] [pr]); [|reflexivity]. cbn [room_for] in L. destruct m; [|cbn [length] in L; lia].
      now rewrite splice_nil. }
    rewrite !St by assumption.
    pose proof (block_short E t f g b (block_requests [p] [pr]) (any_skip [p])) as Bs. unfold any_read in Bs. rewrite B1, B2 in Bs.
    cbn [fst snd] in Bs. destruct Bs as [Q|[Q B]].
    + assert (y1 = y2) by (clear - Q; congruence). subst y2.
      assert (m1 = m2).
      { assert (Q' : one_got t (block_requests [p] [pr]) m1 = one_got t (block_requests [p] [pr]) m2) by (clear - Q; congruence).
        unfold one_got in Q'. destruct (block_requests [p] [pr]); [|congruence]. cbn [room_for] in *.
        destruct m1, m2; cbn [length] in *; try lia. reflexivity. }
      subst m2. destruct y1 as [k|x|x|]; cbn [recast].
      2-4: eexists m1, [], _, _; rewrite app_nil_r; split; [now apply Le|]; do 2 (split; [reflexivity|]); left; split; reflexivity.
      rewrite (advance_one t p pr k m1 (Q1 _ eq_refl) Lm1). cbn [forallb]. destruct (complete _ && true).
      * eexists m1, [], _, _; rewrite app_nil_r; split; [now apply Le|]; do 2 (split; [reflexivity|]); left; split; reflexivity.
      * pose proof (Le m1 Lm1) as L1. assert (Ls : lenN (splice o (pr_read pr) m1) = lenN o) by (unfold lenN; rewrite splice_len by exact L1; reflexivity).
        destruct (IH (mkPr (pr_read pr + lenN m1) (pr_target pr)) (splice o (pr_read pr) m1) F) as (vs & more & r1 & r2 & L & X1 & X2 & X3);
          cbn [pr_read pr_target]; [now rewrite Ls|now rewrite Ls|]. cbn [pr_read] in *. rewrite Ls in L. rewrite lenN_app in L.
        exists (m1 ++ vs), more, r1, r2. rewrite X1, X2. rewrite !lenN_app. split; [lia|].
        rewrite <- app_assoc, !splice_splice by (rewrite ?lenN_app; lia). do 2 (split; [reflexivity|]). exact X3.
    + subst y1. cbn [recast EOF]. assert (Hm : exists rest', m2 = m1 ++ rest').
      { unfold one_got in B. destruct (block_requests [p] [pr]); [|inversion B; subst; assumption]. cbn [room_for] in *.
        destruct m1, m2; cbn [length] in *; try lia. exists []. reflexivity. }
      destruct Hm as [rest' ->]. pose proof (Le _ Lm2) as L2.
      destruct y2 as [k|x|x|]; cbn [recast].
      2-4: eexists m1, rest', _, _; split; [exact L2|]; do 2 (split; [reflexivity|]); right; reflexivity.
      rewrite (advance_one t p pr k (m1 ++ rest') (Q2 _ eq_refl) Lm2). cbn [forallb]. destruct (complete _ && true).
      * eexists m1, rest', _, _; split; [exact L2|]; do 2 (split; [reflexivity|]); right; reflexivity.
      * destruct (execute_indep E (f ++ g) t ix rest (mkPr (pr_read pr + lenN (m1 ++ rest')) (pr_target pr)) (lenN o) F T L2) as (v & r & Lv & Hv).
        cbn [pr_read] in *. rewrite Hv by (unfold lenN; rewrite splice_len by exact L2; reflexivity).
        exists m1, (rest' ++ v). eexists _, _. rewrite app_assoc, lenN_app. split; [lia|]. split; [reflexivity|].
        rewrite splice_splice by (rewrite lenN_app in *; lia). split; [reflexivity|]. right; reflexivity.
Qed.
