(** * What a failed read of several channels leaves in the buffers *)
From Verif Require Import Base Utf8 DataTypes MetaData DataBlock Index RawData ChannelReader TdmsFile ReaderIO Lib
  SpecReadIO SpecIndex SpecSession SpecRead SpecMulti ReadIO_proofs Cut_proofs Block_proofs Request_proofs Plan_proofs Read_proofs
  SkipReq_proofs Serve_proofs Deliver_proofs.

Section Reads.
Context (E : env) (f : list byte) (t : sty) (e : endian).
Local Notation V := (carrier t).

(** ** What happens to the entries *)
Local Notation ext := (entry_ext t).
Lemma ext_trans x y z m n : ext x y m -> ext y z n -> ext x z (m ++ n).
Proof.
  unfold entry_ext. destruct (en_plan x) as [b|o g room skip] eqn:P.
  - intros [-> ->]. rewrite P. intros [-> ->]. split; reflexivity.
  - intros (l' & r' & s' & -> & L). cbn [en_plan]. intros (l2 & r2 & s2 & -> & L2).
    exists l2, r2, s2. rewrite app_assoc, app_length. split; [reflexivity|lia].
Qed.
Definition grew (es es' : list (entry V)) : Prop := Forall2 (fun x y => exists m, ext x y m) es es'.
(** The entries [ec] hold the beginnings of what [ef] holds. *)
Definition part (x : entry V) (y : entry V * entry V) : Prop :=
  exists m rest, ext x (fst y) m /\ ext x (snd y) (m ++ rest).
Definition behind (es ec ef : list (entry V)) : Prop :=
  exists ps, Forall2 part es ps /\ ec = map fst ps /\ ef = map snd ps.

Lemma grew_refl es : grew es es.
Proof. induction es; constructor; auto. exists []. apply entry_ext_refl. Qed.
Lemma grew_trans a b c : grew a b -> grew b c -> grew a c.
Proof.
  intros H. revert c. induction H as [|x y a b [m X] H IH]; intros c K; inversion K as [|y' z b' c' [n Y] K']; subst; constructor.
  - exists (m ++ n). eapply ext_trans; eassumption.
  - now apply IH.
Qed.
Lemma behind_nil : behind [] [] [].
Proof. exists []. repeat split. constructor. Qed.
Lemma behind_cons x xc xf es ec ef : part x (xc, xf) -> behind es ec ef -> behind (x :: es) (xc :: ec) (xf :: ef).
Proof. intros P (ps & F & -> & ->). exists ((xc, xf) :: ps). split; [now constructor|]. split; reflexivity. Qed.
Lemma behind_inv x es ec ef : behind (x :: es) ec ef ->
  exists xc xf ec' ef', ec = xc :: ec' /\ ef = xf :: ef' /\ part x (xc, xf) /\ behind es ec' ef'.
Proof.
  intros (ps & F & -> & ->). inversion F as [|a [xc xf] l ps' P F']; subst. cbn [map fst snd].
  eexists _, _, _, _. split; [reflexivity|]. split; [reflexivity|]. split; [exact P|]. exists ps'. repeat split. exact F'.
Qed.
Lemma behind_now es ef : grew es ef -> behind es es ef.
Proof.
  induction 1 as [|x y es ef [m X] H IH]; [apply behind_nil|]. apply behind_cons; [|exact IH].
  exists [], m. split; [apply entry_ext_refl|exact X].
Qed.
Lemma behind_refl es es' : grew es es' -> behind es es' es'.
Proof.
  induction 1 as [|x y es ef [m X] H IH]; [apply behind_nil|]. apply behind_cons; [|exact IH].
  exists m, []. rewrite app_nil_r. split; exact X.
Qed.
Lemma behind_pre es es1 ec ef : grew es es1 -> behind es1 ec ef -> behind es ec ef.
Proof.
  intros H. revert ec ef. induction H as [|x y es es1 [m X] H IH]; intros ec ef B; [exact B|].
  destruct (behind_inv _ _ _ _ B) as (xc & xf & ec' & ef' & -> & -> & (n & rest & P1 & P2) & B').
  apply behind_cons; [|now apply IH]. cbn [fst snd] in *. exists (m ++ n), rest. cbn [fst snd].
  split; [eapply ext_trans; eassumption|]. rewrite <- app_assoc. eapply ext_trans; eassumption.
Qed.
Lemma behind_post es ec ef ef' : behind es ec ef -> grew ef ef' -> behind es ec ef'.
Proof.
  revert ec ef ef'. induction es as [|x es IH]; intros ec ef ef' B H.
  - destruct B as (ps & F & -> & ->). inversion F; subst. inversion H; subst. apply behind_nil.
  - destruct (behind_inv _ _ _ _ B) as (xc & xf & ec' & ef1 & -> & -> & (n & rest & P1 & P2) & B').
    inversion H as [|? z ? ef2 [k K] H']; subst. apply behind_cons; [|eapply IH; eassumption].
    exists n, (rest ++ k). cbn [fst snd] in *. split; [exact P1|]. rewrite app_assoc. eapply ext_trans; eassumption.
Qed.
(** Changing only the skips. *)
Lemma grew_map (h : entry V -> entry V) es :
  (forall x, match en_plan x with
             | PSkip b => h x = x
             | PRead o g r s => exists s', h x = mkEntry (en_len x) (PRead o g r s')
             end) -> grew es (map h es).
Proof.
  intros H. induction es as [|x es IH]; cbn [map]; constructor; [|exact IH]. exists []. specialize (H x). unfold entry_ext.
  destruct (en_plan x); [split; auto|]. destruct H as [s' ->]. eexists _, _, _. rewrite app_nil_r.
  split; [reflexivity|cbn [length]; lia].
Qed.
Lemma grew_set_all s es : grew es (set_all_skips s es).
Proof. apply grew_map. intros x. unfold set_skip. destruct (en_plan x) eqn:P; [reflexivity|]. eexists. reflexivity. Qed.
Lemma grew_zip : forall es skips, grew es (zip_skips skips es).
Proof.
  induction es as [|x es IH]; intros skips; cbn [zip_skips]; [constructor|]. destruct (en_plan x) eqn:P.
  - constructor; [exists []; apply entry_ext_refl|apply IH].
  - destruct skips as [|s ss]; [apply grew_refl|]. constructor; [|apply IH]. exists []. unfold entry_ext, set_skip. rewrite P.
    eexists _, _, _. rewrite app_nil_r. split; [reflexivity|cbn [length]; lia].
Qed.

(** ** The faultless functions *)
Lemma sub_grew : forall es len pos, grew es (fst (read_sub_block E f t e es len pos)).
Proof.
  induction es as [|x es IH]; intros len pos; cbn [read_sub_block]; [constructor|].
  destruct (read_entry E f t e x pos) as [x' y] eqn:R. destruct (entry_spec E f t e _ _ _ _ R) as [m [X _]].
  destruct y as [[l q]|y|y|]; cbn [fst].
  2-4: constructor; [exists m; exact X|apply grew_refl].
  specialize (IH (match l with Some n => n | None => len end) q).
  destruct (read_sub_block E f t e es _ q) as [es2 r2]. constructor; [exists m; exact X|exact IH].
Qed.
Definition keeps (step : N -> list (entry V) -> option (list (entry V))) : Prop :=
  forall idx es es1, step idx es = Some es1 -> grew es es1.
Lemma contig_grew step : keeps step -> forall n idx es len pos, grew es (fst (contig_loop E f t e step n idx es len pos)).
Proof.
  intros Kp. induction n as [|n IH]; intros idx es len pos; cbn [contig_loop]; [apply grew_refl|].
  destruct (step idx es) as [es1|] eqn:St.
  - pose proof (Kp _ _ _ St) as G1. pose proof (sub_grew es1 0 pos) as G2.
    destruct (read_sub_block E f t e es1 0 pos) as [es2 y]. cbn [fst] in G2. pose proof (grew_trans _ _ _ G1 G2) as G3.
    destruct y as [[l q]|y|y|]; cbn [fst]; try exact G3. eapply grew_trans; [exact G3|apply IH].
  - destruct (block_size E t es) as [bs|y|y|]; cbn [bind fst]; try apply grew_refl.
    destruct (seek_rel E pos (as_i64 bs)) as [q|y|y|]; cbn [fst]; try apply grew_refl. apply IH.
Qed.
Lemma row_grew row : forall es any pos, grew es (fst (inter_row E f t e row es any pos)).
Proof.
  induction es as [|x es IH]; intros any pos; cbn [inter_row]; [constructor|].
  destruct (en_plan x) as [b|o g room skip] eqn:P.
  - destruct (seek_rel E pos b) as [q|y|y|]; cbn [fst]; try apply grew_refl.
    specialize (IH any q). destruct (inter_row E f t e row es any q) as [es2 r2]. constructor; [exists []; apply entry_ext_refl|exact IH].
  - destruct (read_at E f t e pos) as [[v q]|y|y|]; cbn [fst]; try apply grew_refl.
    destruct (skip <=? row); [destruct room as [|room]|].
    1,3: specialize (IH any q); destruct (inter_row E f t e row es any q) as [es2 r2]; constructor; [exists []; apply entry_ext_refl|exact IH].
    specialize (IH true q). destruct (inter_row E f t e row es true q) as [es2 r2]. constructor; [|exact IH].
    exists [v]. unfold entry_ext. rewrite P. eexists _, _, _. split; [reflexivity|cbn [length]; lia].
Qed.
Lemma rows_grew : forall n row es read pos, grew es (fst (inter_rows E f t e n row es read pos)).
Proof.
  induction n as [|n IH]; intros row es read pos; cbn [inter_rows]; [apply grew_refl|].
  pose proof (row_grew row es false pos) as G1. destruct (inter_row E f t e row es false pos) as [es1 y]. cbn [fst] in G1.
  destruct y as [[[|] q]|y|y|]; cbn [fst]; try exact G1. eapply grew_trans; [exact G1|apply IH].
Qed.
Lemma from_keeps d rm : keeps (fun idx es => if idx <? d then None else if idx =? d then Some (set_all_skips rm es) else Some (set_all_skips 0 es)).
Proof.
  intros idx es es1 Z. destruct (idx <? d); [discriminate|]. destruct (idx =? d); injection Z as <-; apply grew_set_all.
Qed.
Lemma from_grew start blen es s : grew es (fst (contig_read_from E f t e start blen es s)).
Proof.
  unfold contig_read_from. destruct (bind _ _) as [[[[pos total] q] rm]|y|y|]; cbn [fst]; try apply grew_refl.
  apply contig_grew, from_keeps.
Qed.
Lemma skips_grew start blen es skips : grew es (fst (contig_read_skips E f t e start blen es skips)).
Proof.
  unfold contig_read_skips. destruct (bind _ _) as [[[pos total] l]|y|y|]; cbn [fst]; try apply grew_refl.
  apply contig_grew. intros idx es0 es1. destruct (forallb _ l); intros Z; [|discriminate]. injection Z as <-. apply grew_zip.
Qed.
Lemma inter_grew start blen es : grew es (fst (inter_read E f t e start blen es)).
Proof.
  unfold inter_read. cbv zeta. destruct (bind _ _) as [[pos total]|y|y|]; cbn [fst]; try apply grew_refl.
  eapply grew_trans; [|apply rows_grew]. apply grew_map. intros x. destruct (en_plan x) eqn:P; [reflexivity|]. eexists. reflexivity.
Qed.

(** ** The functions interrupted by the device *)
Notation c := (cut E f).
Lemma part_refl x x' m : ext x x' m -> part x (x', x').
Proof. intros X. exists m, []. rewrite app_nil_r. split; exact X. Qed.
Lemma mcut_sub : forall es len pos es' r, c (read_sub_block_p E t e es len) (AtBuf pos) (es', r) ->
  behind es es' (fst (read_sub_block E f t e es len pos)).
Proof.
  induction es as [|x es IH]; intros len pos es' r H; cbn [read_sub_block_p] in H; [destruct (cut_ret _ _ _ _ _ _ H)|].
  cbn [read_sub_block].
  apply cut_bind in H. destruct H as [[[x' y] [C Q]]|[[x' y] [w [R C]]]].
  - pose proof (stops_cut _ _ _ _ _ (st_entry E t e x) _ _ C) as Gu. unfold snd_gave_up, gave_up in Gu. cbn [snd] in Gu. subst y.
    cbn [recast] in Q. injection Q as <- _. destruct (cut_entry E f t e _ _ _ _ C) as (m & rest & X1 & X2).
    destruct (read_entry E f t e x pos) as [xp rp] eqn:Rp. cbn [fst] in X2.
    assert (P : part x (x', xp)) by (exists m, rest; split; assumption).
    destruct rp as [[l q]|y|y|]; cbn [fst].
    2-4: apply behind_cons; [exact P|apply behind_refl, grew_refl].
    match goal with |- context[read_sub_block E f t e es ?l q] => pose proof (sub_grew es l q) as G2; destruct (read_sub_block E f t e es l q) as [es2 r2] end.
    apply behind_cons; [exact P|]. apply behind_now. exact G2.
  - pose proof (entry_pure E f t e x pos) as P. destruct (read_entry E f t e x pos) as [xp rp] eqn:Rp.
    destruct rp as [[l q]|z|z|]; cbn [lands recast] in P.
    2-4: destruct P as [w' P]; rewrite P in R; injection R as <- <- <-; destruct (cut_ret _ _ _ _ _ _ C).
    rewrite P in R. injection R as <- <- <-. destruct (entry_spec E f t e _ _ _ _ Rp) as [m0 [X0 _]].
    apply cut_bind in C. destruct C as [[[r' y] [C Q]]|[a1 [w1 [R1 C]]]]; [|destruct (cut_ret _ _ _ _ _ _ C)].
    cbn [fst snd] in Q. injection Q as <- _. apply IH in C.
    destruct (read_sub_block E f t e es _ q) as [es2 r2]. cbn [fst] in *.
    apply behind_cons; [exact (part_refl _ _ _ X0)|exact C].
Qed.
Lemma mcut_contig step : keeps step -> forall n idx es len pos es' r,
  c (contig_loop_p E t e step n idx es len) (AtBuf pos) (es', r) ->
  behind es es' (fst (contig_loop E f t e step n idx es len pos)).
Proof.
  intros Kp. induction n as [|n IH]; intros idx es len pos es' r H; cbn [contig_loop_p] in H; [destruct (cut_ret _ _ _ _ _ _ H)|].
  cbn [contig_loop]. destruct (step idx es) as [es1|] eqn:St.
  - pose proof (Kp _ _ _ St) as G1. apply (behind_pre _ _ _ _ G1).
    apply cut_bind in H. destruct H as [[[es2 y] [C Q]]|[[es2 y] [w [R C]]]].
    + pose proof (stops_cut _ _ _ _ _ (st_sub E t e es1 0) _ _ C) as Gu. unfold snd_gave_up, gave_up in Gu. cbn [snd] in Gu. subst y.
      cbn [recast] in Q. injection Q as <- _. apply mcut_sub in C.
      destruct (read_sub_block E f t e es1 0 pos) as [esp rp]. cbn [fst] in *.
      destruct rp as [[l q]|y|y|]; cbn [fst]; try exact C.
      eapply behind_post; [exact C|apply contig_grew, Kp].
    + pose proof (sub_pure E f t e es1 0 pos) as P. pose proof (sub_grew es1 0 pos) as G0.
      destruct (read_sub_block E f t e es1 0 pos) as [esp rp]. cbn [fst] in G0.
      destruct rp as [[l q]|z|z|]; cbn [lands recast] in P.
      2-4: destruct P as [w' P]; rewrite P in R; injection R as <- <- <-; destruct (cut_ret _ _ _ _ _ _ C).
      rewrite P in R. injection R as <- <- <-. eapply behind_pre; [exact G0|]. eapply IH. exact C.
  - destruct (block_size E t es) as [bs|y|y|]; cbn [bind recast] in *; try destruct (cut_ret _ _ _ _ _ _ H).
    apply cut_bind in H. destruct H as [[a [C Q]]|[a [w [R C]]]].
    + pose proof (stops_cut _ _ _ _ _ (st_move _) _ _ C) as ->. cbn [recast] in Q. injection Q as <- _.
      destruct (seek_rel E pos (as_i64 bs)) as [q|y|y|]; cbn [fst]; try (apply behind_refl, grew_refl).
      apply behind_now, contig_grew, Kp.
    + pose proof (move_pure E f (as_i64 bs) pos) as Mv. destruct (seek_rel E pos (as_i64 bs)) as [q|y|y|]; cbn [recast] in *.
      2-4: destruct Mv as [w' Mv]; rewrite Mv in R; injection R as <- <-; destruct (cut_ret _ _ _ _ _ _ C).
      rewrite Mv in R. injection R as <- <-. eapply IH. exact C.
Qed.
Lemma mcut_row row : forall es any pos es' r, c (inter_row_p E t e row es any) (AtBuf pos) (es', r) ->
  behind es es' (fst (inter_row E f t e row es any pos)).
Proof.
  induction es as [|x es IH]; intros any pos es' r H; cbn [inter_row_p] in H; [destruct (cut_ret _ _ _ _ _ _ H)|].
  pose proof (row_grew row (x :: es) any pos) as Gp. cbn [inter_row] in Gp |- *.
  destruct (en_plan x) as [b|o g room skip] eqn:P; apply cut_bind in H.
  - destruct H as [[a [C Q]]|[a [w [R C]]]].
    + pose proof (stops_cut _ _ _ _ _ (st_move _) _ _ C) as ->. cbn [recast] in Q. injection Q as <- _.
      now apply behind_now.
    + pose proof (move_pure E f b pos) as Mv. destruct (seek_rel E pos b) as [q|y|y|]; cbn [recast] in *.
      2-4: destruct Mv as [w' Mv]; rewrite Mv in R; injection R as <- <-; destruct (cut_ret _ _ _ _ _ _ C).
      rewrite Mv in R. injection R as <- <-. apply cut_bind in C.
      destruct C as [[[r' y] [C Q]]|[a1 [w1 [R1 C]]]]; [|destruct (cut_ret _ _ _ _ _ _ C)].
      cbn [fst snd] in Q. injection Q as <- _. apply IH in C.
      destruct (inter_row E f t e row es any q) as [es2 r2]. apply behind_cons; [exact (part_refl _ _ _ (entry_ext_refl t x))|exact C].
  - destruct H as [[a [C Q]]|[a [w [R C]]]].
    + pose proof (stops_cut _ _ _ _ _ (st_dec E e t) _ _ C) as ->. cbn [recast] in Q. injection Q as <- _.
      now apply behind_now.
    + pose proof (dec_pure E f t e pos) as Dv. destruct (read_at E f t e pos) as [[v q]|y|y|]; cbn [recast] in *.
      2-4: destruct Dv as [w' Dv]; rewrite Dv in R; injection R as <- <-; destruct (cut_ret _ _ _ _ _ _ C).
      rewrite Dv in R. injection R as <- <-.
      assert (Tail : forall any' x1 mx, ext x x1 mx ->
        c (pbind (inter_row_p E t e row es any') (fun z : list (entry V) * res bool => Ret (x1 :: fst z, snd z))) (AtBuf q) (es', r) ->
        behind (x :: es) es' (x1 :: fst (inter_row E f t e row es any' q))).
      { intros any' x1 mx Xx C1. apply cut_bind in C1.
        destruct C1 as [[[r' y] [C1 Q]]|[a1 [w1 [R1 C1]]]]; [|destruct (cut_ret _ _ _ _ _ _ C1)].
        cbn [fst snd] in Q. injection Q as <- _. apply IH in C1. apply behind_cons; [exact (part_refl _ _ _ Xx)|exact C1]. }
      destruct (skip <=? row).
      * destruct room as [|room].
        -- apply (Tail any x [] (entry_ext_refl t x)) in C. destruct (inter_row E f t e row es any q). exact C.
        -- apply (Tail true _ [v]) in C.
           ++ destruct (inter_row E f t e row es true q). exact C.
           ++ unfold entry_ext. rewrite P. eexists _, _, _. split; [reflexivity|]. cbn [length]. lia.
      * apply (Tail any x [] (entry_ext_refl t x)) in C. destruct (inter_row E f t e row es any q). exact C.
Qed.
Lemma mcut_rows : forall n row es read pos es' r, c (inter_rows_p E t e n row es read) (AtBuf pos) (es', r) ->
  behind es es' (fst (inter_rows E f t e n row es read pos)).
Proof.
  induction n as [|n IH]; intros row es read pos es' r H; cbn [inter_rows_p] in H; [destruct (cut_ret _ _ _ _ _ _ H)|].
  cbn [inter_rows]. apply cut_bind in H. destruct H as [[[es1 y] [C Q]]|[[es1 y] [w [R C]]]].
  - pose proof (stops_cut _ _ _ _ _ (st_row E t e row es false) _ _ C) as Gu. unfold snd_gave_up, gave_up in Gu. cbn [snd] in Gu. subst y.
    cbn [recast] in Q. injection Q as <- _. apply mcut_row in C.
    destruct (inter_row E f t e row es false pos) as [esp rp]. cbn [fst] in *.
    destruct rp as [[[|] q]|y|y|]; cbn [fst]; try exact C. eapply behind_post; [exact C|apply rows_grew].
  - pose proof (row_pure E f t e row es false pos) as P. pose proof (row_grew row es false pos) as Y0.
    destruct (inter_row E f t e row es false pos) as [esp rp]. cbn [fst] in Y0.
    destruct rp as [[bb q]|z|z|]; cbn [lands recast] in P.
    2-4: destruct P as [w' P]; rewrite P in R; injection R as <- <- <-; destruct (cut_ret _ _ _ _ _ _ C).
    rewrite P in R. injection R as <- <- <-. destruct bb; [|destruct (cut_ret _ _ _ _ _ _ C)].
    eapply behind_pre; [exact Y0|]. eapply IH. exact C.
Qed.
Lemma mcut_from start blen es s w es' r : c (contig_read_from_p E t e start blen es s) w (es', r) ->
  behind es es' (fst (contig_read_from E f t e start blen es s)).
Proof.
  intros H. pose proof (from_grew start blen es s) as Gp.
  unfold contig_read_from_p in H. unfold contig_read_from in *. apply cut_bind in H.
  destruct H as [[a [C Q]]|[a [w1 [R C]]]].
  - apply cut_open in C. unfold gave_up in C. subst a. cbn [bind recast] in Q. injection Q as <- _. now apply behind_now.
  - apply open_res in R. destruct (seek_to E start) as [q|y|y|]; cbn [recast] in R.
    2-4: subst a; cbn [bind] in C; destruct (cut_ret _ _ _ _ _ _ C).
    destruct R as [-> ->]. cbn [bind] in *.
    destruct (block_size E t es) as [bs|y|y|]; cbn [bind] in *; try destruct (cut_ret _ _ _ _ _ _ C).
    destruct (udiv blen bs) as [total|y|y|]; cbn [bind] in *; try destruct (cut_ret _ _ _ _ _ _ C).
    destruct es as [|x es]; cbn [bind] in *; try destruct (cut_ret _ _ _ _ _ _ C).
    destruct (udiv s (en_len x)) as [d|y|y|]; cbn [bind] in *; try destruct (cut_ret _ _ _ _ _ _ C).
    apply mcut_contig in C; [exact C|apply from_keeps].
Qed.
Lemma mcut_skips start blen es skips w es' r : c (contig_read_skips_p E t e start blen es skips) w (es', r) ->
  behind es es' (fst (contig_read_skips E f t e start blen es skips)).
Proof.
  intros H. pose proof (skips_grew start blen es skips) as Gp.
  unfold contig_read_skips_p in H. unfold contig_read_skips in *. apply cut_bind in H.
  destruct H as [[a [C Q]]|[a [w1 [R C]]]].
  - apply cut_open in C. unfold gave_up in C. subst a. cbn [bind recast] in Q. injection Q as <- _. now apply behind_now.
  - apply open_res in R. destruct (seek_to E start) as [q|y|y|]; cbn [recast] in R.
    2-4: subst a; cbn [bind] in C; destruct (cut_ret _ _ _ _ _ _ C).
    destruct R as [-> ->]. cbn [bind] in *.
    destruct (block_size E t es) as [bs|y|y|]; cbn [bind] in *; try destruct (cut_ret _ _ _ _ _ _ C).
    destruct (udiv blen bs) as [total|y|y|]; cbn [bind] in *; try destruct (cut_ret _ _ _ _ _ _ C).
    destruct es as [|x es]; cbn [bind] in *; try destruct (cut_ret _ _ _ _ _ _ C).
    destruct (div_skips (en_len x) skips) as [d|y|y|]; cbn [bind] in *; try destruct (cut_ret _ _ _ _ _ _ C).
    apply mcut_contig in C; [exact C|]. intros idx es0 es1 Z.
    destruct (forallb _ d); [|discriminate]. injection Z as <-. apply grew_zip.
Qed.
Lemma mcut_inter start blen es w es' r : c (inter_read_p E t e start blen es) w (es', r) ->
  behind es es' (fst (inter_read E f t e start blen es)).
Proof.
  intros H. pose proof (behind_now _ _ (inter_grew start blen es)) as Now.
  unfold inter_read_p in H. unfold inter_read in *. cbv zeta in *. apply cut_bind in H.
  destruct H as [[a [C Q]]|[a [w1 [R C]]]].
  - apply cut_open in C. unfold gave_up in C. subst a. cbn [bind recast] in Q. injection Q as <- _. exact Now.
  - apply open_res in R. destruct (seek_to E start) as [q|y|y|]; cbn [recast] in R.
    2-4: subst a; cbn [bind] in C; destruct (cut_ret _ _ _ _ _ _ C).
    destruct R as [-> ->]. cbn [bind] in *.
    destruct (row_size E t es) as [rs|y|y|]; cbn [bind] in *; try destruct (cut_ret _ _ _ _ _ _ C).
    destruct (udiv blen rs) as [total|y|y|]; cbn [bind] in *; try destruct (cut_ret _ _ _ _ _ _ C).
    match type of C with context[map ?h es] => assert (G1 : grew es (map h es)) end.
    { apply grew_map. intros x. destruct (en_plan x) eqn:P; [reflexivity|]. eexists. reflexivity. }
    destruct (0 <? min_or_0 (block_skips es)).
    + destruct (imul E _ _) as [off|y|y|]; cbn [bind] in *; try destruct (cut_ret _ _ _ _ _ _ C).
      apply cut_bind in C. destruct C as [[a1 [C Q]]|[a1 [w1 [R1 C]]]].
      * pose proof (stops_cut _ _ _ _ _ (st_move _) _ _ C) as ->. cbn [recast] in Q. injection Q as <- _. exact Now.
      * pose proof (move_pure E f off q) as Mv. destruct (seek_rel E q off) as [q'|y|y|]; cbn [bind recast] in *.
        2-4: destruct Mv as [w' Mv]; rewrite Mv in R1; injection R1 as <- <-; destruct (cut_ret _ _ _ _ _ _ C).
        rewrite Mv in R1. injection R1 as <- <-. apply (behind_pre _ _ _ _ G1). eapply mcut_rows. exact C.
    + cbn [bind] in *. apply cut_bind in C. destruct C as [[a1 [C Q]]|[a1 [w1 [R1 C]]]]; [destruct (cut_ret _ _ _ _ _ _ C)|].
      cbn [run_pure] in R1. injection R1 as <- <-. apply (behind_pre _ _ _ _ G1). eapply mcut_rows. exact C.
Qed.
(** What each request holds. *)
Lemma behind_harvest oid : forall es ec ef, harvest oid es = [] -> behind es ec ef ->
  exists rest, harvest oid ef = harvest oid ec ++ rest.
Proof.
  induction es as [|x es IH]; intros ec ef Hh B.
  - destruct B as (ps & F & -> & ->). inversion F; subst. exists []. reflexivity.
  - destruct (behind_inv _ _ _ _ B) as (xc & xf & ec' & ef1 & -> & -> & (n & rest & P1 & P2) & B'). cbn [fst snd] in *.
    unfold entry_ext in *. cbn [harvest] in *. destruct (en_plan x) as [b|o g room skip] eqn:P.
    + destruct P1 as [-> _]. destruct P2 as [-> _]. rewrite P. now apply IH.
    + destruct P1 as (l1 & r1 & s1 & -> & _). destruct P2 as (l2 & r2 & s2 & -> & _). cbn [en_plan].
      destruct (Nat.eqb o oid); [|now apply IH]. subst g. exists rest. reflexivity.
Qed.
End Reads.

(** ** A block *)
Definition empty_got {V} (x : entry V) : Prop := match en_plan x with PRead _ g _ _ => g = [] | PSkip _ => True end.
Lemma empty_harvest V oid (es : list (entry V)) : Forall empty_got es -> harvest oid es = [].
Proof.
  induction 1 as [|x es X _ IH]; [reflexivity|]. cbn [harvest]. unfold empty_got in X. destruct (en_plan x); [exact IH|].
  now destruct (Nat.eqb _ _).
Qed.
Lemma fresh_plan V : forall reqs k (es : list (entry V)), Forall empty_got es -> Forall empty_got (set_readable k reqs es).
Proof.
  induction reqs as [|q reqs IH]; intros k es H; cbn [set_readable]; [exact H|]. apply IH.
  generalize (rq_chan q) as i. induction H as [|x es X H IHe]; intros i; [destruct i; constructor|].
  destruct i as [|i]; cbn [set_plan]; constructor; auto. reflexivity.
Qed.
Section Blocks.
Context (E : env) (f : list byte) (t : sty).
Notation c := (cut E f).
Local Notation V := (carrier t).
Definition begins (g h : list V) : Prop := exists rest, h = g ++ rest.
Lemma mcut_block b reqs (skips : bool) w got r :
  c (if skips then block_read_skips_p E t b reqs else block_read_p E t b reqs) w (got, r) ->
  Forall2 begins got (fst (if skips then block_read_skips E f t b reqs else block_read E f t b reqs)).
Proof.
  intros H. destruct (@build_record_plan (carrier t) t (b_chans b) reqs) as [es|y|y|] eqn:Bp.
  2-4: exfalso; destruct skips; [unfold block_read_skips_p in H|unfold block_read_p in H]; cbv zeta in H; rewrite Bp in H;
       destruct (cut_ret _ _ _ _ _ _ H).
  assert (Em : Forall empty_got es).
  { unfold build_record_plan in Bp. destruct (validate t reqs (b_chans b)); cbn [bind] in Bp; try discriminate. injection Bp as <-.
    apply fresh_plan. unfold base_record. apply Forall_map, Forall_forall. intros m _. exact Logic.I. }
  assert (K : exists ec ef, behind t es ec ef /\ got = outputs reqs ec
    /\ fst (if skips then block_read_skips E f t b reqs else block_read E f t b reqs) = outputs reqs ef).
  { destruct skips; [unfold block_read_skips_p in H; unfold block_read_skips|unfold block_read_p in H; unfold block_read];
      cbv zeta in H |- *; rewrite Bp in H |- *; apply cut_bind in H;
      (destruct H as [[[es' y] [C Q]]|[a [w1 [R C]]]]; [|destruct (cut_ret _ _ _ _ _ _ C)]);
      cbn [fst snd] in Q; injection Q as <- _; exists es'.
    - destruct (b_layout b).
      + apply mcut_inter in C. destruct (inter_read E f t _ _ _ _) as [esp rp]. exists esp.
        split; [|split; reflexivity]. eapply behind_pre; [apply grew_zip|exact C].
      + apply mcut_skips in C. destruct (contig_read_skips E f t _ _ _ _ _) as [esp rp]. exists esp.
        split; [exact C|split; reflexivity].
    - destruct (b_layout b).
      + apply mcut_inter in C. destruct (inter_read E f t _ _ _ _) as [esp rp]. exists esp. split; [exact C|split; reflexivity].
      + apply mcut_from in C. destruct (contig_read_from E f t _ _ _ _ _) as [esp rp]. exists esp. split; [exact C|split; reflexivity]. }
  destruct K as (ec & ef & B & -> & ->). unfold outputs. induction (seq 0 (length reqs)) as [|i l IH]; cbn [map]; constructor; [|exact IH].
  exact (behind_harvest t i es ec ef (empty_harvest _ i es Em) B).
Qed.
End Blocks.

(** ** A plan *)
Section Plan.
Context (E : env) (f : list byte) (t : sty) (ix : index).
Hypothesis (Fx : fixed t) (Ad : addressable E f).
Notation c := (cut E f).
Local Notation V := (carrier t).
(** What channel [i] may receive. *)
Context (src : nat -> list V).
Definition own_block (br : blockread) : Prop := exists b n c, skips_block f t ix br b n c
  /\ forall i ci si x, nth_error (br_chans br) i = Some (Some (ci, si)) -> In x (block_samples f t b ci (c * n)) -> In x (src i).
Definition own (os : list (list V)) (prs : list progress) (outs : list (list V)) : Prop :=
  length prs = length outs /\ length outs = length os
  /\ forall i pr o0 o, nth_error prs i = Some pr -> nth_error os i = Some o0 -> nth_error outs i = Some o ->
       pr_target pr = lenN o /\ filled_from t o0 (src i) o.

Lemma store_own b c n os : forall plans k prs outs got,
  (forall i ci si x, nth_error plans i = Some (Some (ci, si)) -> In x (block_samples f t b ci (c * n)) -> In x (src (k + i)%nat)) ->
  length prs = length outs -> length outs = length os ->
  (forall i pr o0 o, nth_error prs i = Some pr -> nth_error os i = Some o0 -> nth_error outs i = Some o ->
       pr_target pr = lenN o /\ filled_from t o0 (src (k + i)%nat) o) ->
  Forall2 (fun q g => (length g <= rq_room q)%nat /\ forall x, In x g -> In x (block_samples f t b (rq_chan q) (c * n)))
     (block_requests plans prs) got ->
  forall i o0 o', nth_error os i = Some o0 -> nth_error (store plans prs outs got) i = Some o' ->
    filled_from t o0 (src (k + i)%nat) o'.
Proof.
  revert os. intros os plans. revert os. induction plans as [|p plans IH]; intros os k prs outs got Hs L1 L2 Ho Fg i o0 o' H0 H'.
  - cbn [store] in H'. assert (Hi : (i < length prs)%nat) by (rewrite L1; apply nth_error_Some; congruence).
    destruct (nth_error prs i) as [pr|] eqn:Pi; [|apply nth_error_None in Pi; lia]. exact (proj2 (Ho i pr o0 o' Pi H0 H')).
  - destruct prs as [|pr prs]; destruct outs as [|o outs]; try discriminate L1; destruct os as [|o1 os]; try discriminate L2.
    { destruct i; discriminate. }
    assert (Hs' : forall i ci si x, nth_error plans i = Some (Some (ci, si)) -> In x (block_samples f t b ci (c * n)) -> In x (src (S k + i)%nat)).
    { intros j ci si x Hj Hx. replace (S k + j)%nat with (k + S j)%nat by lia. exact (Hs (S j) ci si x Hj Hx). }
    assert (Ho' : forall i pr o0 o, nth_error prs i = Some pr -> nth_error os i = Some o0 -> nth_error outs i = Some o ->
       pr_target pr = lenN o /\ filled_from t o0 (src (S k + i)%nat) o).
    { intros j pr1 o2 o3 A B C. replace (S k + j)%nat with (k + S j)%nat by lia. exact (Ho (S j) pr1 o2 o3 A B C). }
    cbn [length] in L1, L2. assert (L1' : length prs = length outs) by lia. assert (L2' : length outs = length os) by lia.
    destruct (Ho 0%nat pr o1 o eq_refl eq_refl eq_refl) as [T Fi].
    assert (Step : forall g got', filled_from t o1 (src (k + 0)%nat) g ->
       Forall2 (fun q g => (length g <= rq_room q)%nat /\ forall x, In x g -> In x (block_samples f t b (rq_chan q) (c * n)))
         (block_requests plans prs) got' ->
       nth_error (g :: store plans prs outs got') i = Some o' -> filled_from t o0 (src (k + i)%nat) o').
    { intros g got' Fg' F2 Hn. destruct i as [|i]; cbn [nth_error] in *; [injection H0 as <-; injection Hn as <-; exact Fg'|].
      replace (k + S i)%nat with (S k + i)%nat by lia. exact (IH os (S k) prs outs got' Hs' L1' L2' Ho' F2 i o0 o' H0 Hn). }
    cbn [store block_requests] in *. destruct p as [[ci si]|]; [|exact (Step _ _ Fi Fg H')].
    destruct (complete pr) eqn:Cm; [exact (Step _ _ Fi Fg H')|].
    inversion Fg as [|q g rs got' [Lg Hg] F2]; subst. refine (Step _ _ _ F2 H').
    cbn [rq_room rq_chan] in *. apply (put_filled t o1 (src (k + 0)%nat) o (pr_read pr) g Fi).
    + intros x Hx. exact (Hs 0%nat ci si x eq_refl (Hg x Hx)).
    + unfold complete in Cm. rewrite T in *. unfold lenN in *. lia.
Qed.
Lemma mcut_execute os : forall plan prs outs w outs' r, Forall own_block plan -> own os prs outs ->
  c (execute_p E t ix plan prs outs) w (outs', r) ->
  length outs' = length os /\ forall i o0 o', nth_error os i = Some o0 -> nth_error outs' i = Some o' -> filled_from t o0 (src i) o'.
Proof.
  induction plan as [|br rest IH]; intros prs outs w outs' r Fa Ow H; cbn [execute_p] in H; [destruct (cut_ret _ _ _ _ _ _ H)|].
  apply Forall_cons_iff in Fa. destruct Fa as [(b & n & ck & Sb & Src) Fa]. pose proof Ow as (L1 & L2 & Ho).
  destruct Sb as [Bb [Hn [Hc [Hne [Hu [Hbl [Hin [Hch Hd]]]]]]]].
  unfold get_data_block in H. rewrite Bb in H. cbv zeta in H. set (reqs := block_requests (br_chans br) prs) in *.
  assert (Hv : Forall (valid_req t (b_chans b)) reqs).
  { apply Forall_forall. intros q Hq. apply in_requests in Hq. destruct Hq as [i [ci [si [pr [Hi [_ [_ ->]]]]]]].
    destruct (Hch _ _ _ Hi) as [_ [mm Hm]]. exists mm. exact Hm. }
  assert (Hss : Forall (fun q => rq_skip q <= ck * n) reqs).
  { apply Forall_forall. intros q Hq. apply in_requests in Hq. destruct Hq as [i [ci [si [pr [Hi [_ [_ ->]]]]]]].
    now destruct (Hch _ _ _ Hi) as [Hx _]. }
  destruct (block_skips_exact E f t Fx Ad b reqs n ck Hn Hc Hne Hu Hbl Hin Hv (distinct_nodup _ _ Hd) Hss) as [Rs R0].
  set (G := fun q => got_of (b_layout b) n (ck * n) reqs q (block_samples f t b (rq_chan q) (ck * n))) in *.
  set (cnt := count_of_block (b_layout b) n (ck * n) reqs) in *.
  assert (Rd : (if any_skip (br_chans br) then block_read_skips E f t b reqs else block_read E f t b reqs)
               = (map G reqs, Ok cnt)).
  { destruct (any_skip (br_chans br)) eqn:As; [exact Rs|]. apply R0.
    apply Forall_forall. intros q Hq. apply in_requests in Hq. destruct Hq as [i [ci [si [pr [Hi [_ [_ ->]]]]]]].
    cbn [rq_skip]. destruct (0 <? si) eqn:Q; [|lia]. exfalso. apply not_true_iff_false in As. apply As.
    apply existsb_exists. exists (Some (ci, si)). split; [eapply nth_error_In; eauto|exact Q]. }
  set (ok := fun (q : req) (g : list V) => (length g <= rq_room q)%nat /\ forall x, In x g -> In x (block_samples f t b (rq_chan q) (ck * n))).
  assert (Full : forall rs, Forall2 ok rs (map G rs)).
  { induction rs as [|q rs IHr]; cbn [map]; constructor; [|exact IHr]. split; [apply got_length|].
    intros x Hx. eapply got_incl. exact Hx. }
  assert (Sto : forall got, Forall2 ok reqs got ->
     length (store (br_chans br) prs outs got) = length os
     /\ forall i o0 o', nth_error os i = Some o0 -> nth_error (store (br_chans br) prs outs got) i = Some o' -> filled_from t o0 (src i) o').
  { intros got Fg. split; [now rewrite store_length|].
    exact (store_own b ck n os (br_chans br) 0 prs outs got Src L1 L2 Ho Fg). }
  apply cut_bind in H. destruct H as [[[got z] [C Qz]]|[[got z] [w1 [R C]]]].
  - assert (Gu : z = Err (EIo DeviceError)).
    { destruct (any_skip (br_chans br)); [exact (stops_cut _ _ _ _ _ (st_block_skips E t b _) _ _ C)|exact (stops_cut _ _ _ _ _ (st_block E t b _) _ _ C)]. }
    subst z. cbn [recast] in Qz. injection Qz as <- _. apply mcut_block in C. rewrite Rd in C. cbn [fst] in C.
    apply Sto. specialize (Full reqs). clear - C Full. revert got C. induction Full as [|q g rs gs [A B] F IHf]; intros got C; inversion C as [|g0 ? gs0 ? [rest P] C']; subst; constructor.
    + split; [rewrite app_length in A; lia|]. intros x Hx. apply B. apply in_or_app. now left.
    + now apply IHf.
  - assert (Pu : ends (if any_skip (br_chans br) then block_read_skips E f t b reqs else block_read E f t b reqs)
                   (run_pure E f (if any_skip (br_chans br) then block_read_skips_p E t b reqs else block_read_p E t b reqs) w))
      by (destruct (any_skip (br_chans br)); [apply block_skips_pure|apply block_pure]).
    destruct Pu as [w2 Pu]. rewrite Pu, Rd in R. injection R as <- <- <-.
    destruct (forallb complete (advance (br_chans br) cnt prs)); [destruct (cut_ret _ _ _ _ _ _ C)|].
    destruct (Sto _ (Full reqs)) as [Ls Fs].
    apply (IH _ _ _ _ _ Fa) in C; [exact C|]. split; [rewrite advance_length, store_length; exact L1|].
    split; [exact Ls|]. intros i pr' o0 o' Hp H0 H'. pose proof (Fs i o0 o' H0 H') as Fi. split; [|exact Fi].
    assert (Hi : (i < length prs)%nat) by (rewrite <- (advance_length cnt (br_chans br) prs); apply nth_error_Some; congruence).
    destruct (nth_error prs i) as [pr|] eqn:Pi; [|apply nth_error_None in Pi; lia].
    destruct (nth_error outs i) as [o|] eqn:Oi; [|apply nth_error_None in Oi; lia].
    destruct (Ho i pr o0 o Pi H0 Oi) as [T [Lo _]]. destruct Fi as [Lo' _].
    assert (Tg : pr_target pr' = pr_target pr).
    { destruct (nth_error (br_chans br) i) as [p|] eqn:Bi.
      - rewrite (nth_advance cnt _ _ _ _ _ Bi Pi) in Hp. injection Hp as <-. destruct p; reflexivity.
      - clearbody cnt. clear - Hp Bi Pi. revert prs i Hp Bi Pi. induction (br_chans br) as [|p l IH]; intros prs i Hp Bi Pi; [cbn [advance] in Hp; congruence|].
        destruct prs as [|p0 prs]; [destruct i; discriminate|]. destruct i as [|i]; [discriminate|]. cbn [advance nth_error] in *. eauto. }
    rewrite Tg, T. unfold lenN. congruence.
Qed.
End Plan.
