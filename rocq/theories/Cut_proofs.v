(** * What a failed read of one channel leaves in the buffer *)
From Verif Require Import Base Utf8 DataTypes MetaData DataBlock Index RawData ChannelReader TdmsFile ReaderIO Lib
  SpecReadIO ReadIO_proofs.

Section Entries.
Context {V : Type}.
(** The requests in a list of entries, and what they got and still have room for. *)
Definition shape (es : list (entry V)) : list (option nat) :=
  map (fun x => match en_plan x with PSkip _ => None | PRead o _ _ _ => Some o end) es.
Definition gots (es : list (entry V)) : list V :=
  concat (map (fun x => match en_plan x with PSkip _ => [] | PRead _ g _ _ => g end) es).
Definition rooms (es : list (entry V)) : nat :=
  fold_right Nat.add 0%nat (map (fun x => match en_plan x with PSkip _ => 0%nat | PRead _ _ r _ => r end) es).
Definition nreads (s : list (option nat)) : nat :=
  length (filter (fun o => match o with Some _ => true | None => false end) s).
Definition single (es : list (entry V)) : Prop := (nreads (shape es) <= 1)%nat.

(** The entries [es'] come from [es] by storing [m]. *)
Definition G (es es' : list (entry V)) (m : list V) : Prop :=
  shape es' = shape es /\ gots es' = gots es ++ m /\ (rooms es' + length m = rooms es)%nat.

Lemma G_refl es : G es es [].
Proof. split; [reflexivity|]. split; [symmetry; apply app_nil_r|cbn [length]; lia]. Qed.
Lemma G_trans a b c m n : G a b m -> G b c n -> G a c (m ++ n).
Proof.
  intros (S1 & G1 & R1) (S2 & G2 & R2). split; [congruence|]. split; [rewrite G2, G1; symmetry; apply app_assoc|].
  rewrite app_length. lia.
Qed.
Lemma G_single a b m : G a b m -> single a -> single b.
Proof. intros (S1 & _) H. unfold single. rewrite S1. exact H. Qed.
Lemma no_reads (es : list (entry V)) : nreads (shape es) = 0%nat -> gots es = [] /\ rooms es = 0%nat.
Proof.
  unfold nreads, gots, rooms, shape. induction es as [|x es IH]; intros H; [split; reflexivity|].
  cbn [map filter concat fold_right] in *. destruct (en_plan x); cbn [length] in H; [|lia]. cbn [app]. apply IH in H. exact H.
Qed.
Lemma G_none es es' m : nreads (shape es) = 0%nat -> G es es' m -> m = [].
Proof.
  intros N0 (S1 & G1 & R1). destruct (no_reads es N0) as [_ R]. rewrite R in R1. destruct m; [reflexivity|cbn [length] in R1; lia].
Qed.
(** Entry by entry. *)
Lemma G_skip x r r' m b : en_plan x = PSkip b -> G r r' m -> G (x :: r) (x :: r') m.
Proof.
  intros P (S1 & G1 & R1). unfold G, shape, gots, rooms in *. cbn [map concat fold_right]. rewrite P. cbn [app].
  split; [congruence|]. split; assumption.
Qed.
Lemma G_read x r l g o room skip m room' skip' l' : en_plan x = PRead o g room skip ->
  (room' + length m = room)%nat -> nreads (shape r) = 0%nat -> G r l [] ->
  G (x :: r) (mkEntry l' (PRead o (g ++ m) room' skip') :: l) m.
Proof.
  intros P Rm N0 (S1 & G1 & R1). destruct (no_reads r N0) as [Z1 Z2].
  assert (N1 : nreads (shape l) = 0%nat) by congruence. destruct (no_reads l N1) as [Z3 Z4].
  unfold G, shape, gots, rooms in *. cbn [map concat fold_right en_plan en_len]. rewrite P.
  split; [congruence|]. rewrite Z1, Z3, Z2, Z4. split; [rewrite !app_nil_r; reflexivity|lia].
Qed.
Lemma single_tail x r : single (x :: r) -> single r.
Proof. unfold single, nreads, shape. cbn [map filter]. destruct (en_plan x); cbn [length]; lia. Qed.
Lemma single_read x r o g room skip : en_plan x = PRead o g room skip -> single (x :: r) -> nreads (shape r) = 0%nat.
Proof. unfold single, nreads, shape. cbn [map filter]. intros ->. cbn [length]. lia. Qed.
Lemma nreads_skip x r b : en_plan x = PSkip b -> nreads (shape (x :: r)) = nreads (shape r).
Proof. unfold nreads, shape. cbn [map filter]. intros ->. reflexivity. Qed.
Lemma nreads_read x r o g room skip : en_plan x = PRead o g room skip -> nreads (shape (x :: r)) <> 0%nat.
Proof. unfold nreads, shape. cbn [map filter]. intros ->. discriminate. Qed.

(** Changing only lengths of skips keeps everything. *)
Lemma G_map (h : entry V -> entry V) es :
  (forall x, match en_plan x with
             | PSkip b => h x = x
             | PRead o g r s => exists s', en_plan (h x) = PRead o g r s'
             end) -> G es (map h es) [].
Proof.
  intros H. assert (K : shape (map h es) = shape es /\ gots (map h es) = gots es /\ rooms (map h es) = rooms es).
  { unfold shape, gots, rooms. induction es as [|x es IH]; [repeat split|]. cbn [map concat fold_right].
    destruct IH as (I1 & I2 & I3). rewrite I1, I2, I3. specialize (H x). destruct (en_plan x) eqn:P.
    - rewrite H, P. repeat split.
    - destruct H as [s' ->]. repeat split. }
  destruct K as (K1 & K2 & K3). split; [exact K1|]. split; [rewrite app_nil_r; exact K2|cbn [length]; lia].
Qed.
Lemma G_set_all s es : G es (set_all_skips s es) [].
Proof.
  apply G_map. intros x. unfold set_skip. destruct (en_plan x) eqn:P; [reflexivity|]. eexists. reflexivity.
Qed.
Lemma G_zip : forall es skips, G es (zip_skips skips es) [].
Proof.
  intros es skips.
  assert (K : shape (zip_skips skips es) = shape es /\ gots (zip_skips skips es) = gots es /\ rooms (zip_skips skips es) = rooms es).
  { revert skips. unfold shape, gots, rooms. induction es as [|x es IH]; intros skips; [repeat split|]. cbn [zip_skips].
    destruct (en_plan x) eqn:P.
    - destruct (IH skips) as (I1 & I2 & I3). cbn [map concat fold_right]. rewrite I1, I2, I3. repeat split.
    - destruct skips as [|s ss]; [repeat split|]. destruct (IH ss) as (I1 & I2 & I3). cbn [map concat fold_right].
      rewrite I1, I2, I3. unfold set_skip. rewrite P. repeat split. }
  destruct K as (K1 & K2 & K3). split; [exact K1|]. split; [rewrite app_nil_r; exact K2|cbn [length]; lia].
Qed.
End Entries.

Section Reads.
Context (E : env) (f : list byte) (t : sty) (e : endian).
Local Notation V := (carrier t).

(** ** The faultless functions *)
Lemma vals_len : forall n pos vs r, read_vals E f t e n pos = (vs, r) ->
  (length vs <= n)%nat /\ (forall q, r = Ok q -> length vs = n).
Proof.
  induction n as [|n IH]; intros pos vs r H; cbn [read_vals] in H.
  - injection H as <- <-. split; [cbn [length]; lia|reflexivity].
  - destruct (read_at E f t e pos) as [[v q]|x|x|]; cbn [recast] in H;
      try (injection H as <- <-; split; [cbn [length]; lia|discriminate]).
    destruct (read_vals E f t e n q) as [vs' r'] eqn:R. injection H as <- <-. destruct (IH _ _ _ R) as [L1 L2].
    cbn [length]. split; [lia|]. intros q' Z. now rewrite (L2 q' Z).
Qed.
Lemma seq_len room samples pos vs r : read_seq E f t e room samples pos = (vs, r) ->
  (length vs <= room)%nat /\ (forall k q, r = Ok (k, q) -> k = lenN vs).
Proof.
  unfold read_seq. cbv zeta. destruct (read_vals E f t e _ pos) as [vs' r'] eqn:R. intros H. injection H as <- <-.
  destruct (vals_len _ _ _ _ R) as [L1 L2]. split; [lia|]. intros k q Z.
  destruct r' as [q'|x|x|]; cbn [bind] in Z; try discriminate. specialize (L2 _ eq_refl).
  destruct (0 <? samples - _); [|injection Z as <- _; unfold lenN; lia].
  destruct (imul E _ _) as [off|x|x|]; cbn [bind] in Z; try discriminate.
  destruct (seek_rel E q' off) as [q2|x|x|]; cbn [bind] in Z; try discriminate. injection Z as <- _. unfold lenN. lia.
Qed.
(** What [read_entry] does to an entry. *)
Definition entry_ext (x x' : entry V) (m : list V) : Prop :=
  match en_plan x with
  | PSkip _ => x' = x /\ m = []
  | PRead o g room skip => exists l' room' skip', x' = mkEntry l' (PRead o (g ++ m) room' skip') /\ (room' + length m = room)%nat
  end.
Lemma entry_ext_refl x : entry_ext x x [].
Proof.
  unfold entry_ext. destruct (en_plan x) as [b|o g room skip] eqn:P; [split; reflexivity|].
  exists (en_len x), room, skip. split; [|cbn [length]; lia]. rewrite app_nil_r, <- P. destruct x; reflexivity.
Qed.
Lemma entry_spec x pos x' r : read_entry E f t e x pos = (x', r) ->
  exists m, entry_ext x x' m
    /\ forall l q, r = Ok (l, q) -> match en_plan x with PSkip _ => l = None | PRead _ _ _ _ => l = Some (lenN m) end.
Proof.
  unfold read_entry, entry_ext. destruct (en_plan x) as [b|o g room skip] eqn:P; cbv zeta.
  - intros H. injection H as <- <-. exists []. split; [split; reflexivity|]. intros l q Z.
    destruct (imul E _ _) as [off|y|y|]; cbn [bind] in Z; try discriminate.
    destruct (seek_rel E pos off) as [q2|y|y|]; cbn [bind] in Z; try discriminate. now injection Z as <- _.
  - destruct (if 0 <? _ then _ else _) as [q1|y|y|]; cbn [recast].
    2-4: intros H; injection H as <- <-; exists []; split; [|discriminate].
    2-4: exists (en_len x), room, skip; split; [|cbn [length]; lia]; rewrite app_nil_r, <- P; destruct x; reflexivity.
    destruct (read_seq E f t e room _ q1) as [vs r1] eqn:R. intros H. injection H as <- <-.
    destruct (seq_len _ _ _ _ _ R) as [L1 L2]. exists vs. split.
    + eexists _, _, _. split; [reflexivity|]. lia.
    + intros l q Z. destruct r1 as [[k q2]|y|y|]; cbn [bind] in Z; try discriminate. injection Z as <- _.
      now rewrite (L2 _ _ eq_refl).
Qed.
Lemma ext_cons x x' m r : single (x :: r) -> entry_ext x x' m -> G (x :: r) (x' :: r) m.
Proof.
  intros Sg X. unfold entry_ext in X. destruct (en_plan x) as [b|o g room skip] eqn:P.
  - destruct X as [-> ->]. apply G_refl.
  - destruct X as (l' & room' & skip' & -> & L). apply (G_read _ _ _ _ _ _ _ _ _ _ _ P L (single_read _ _ _ _ _ _ P Sg) (G_refl r)).
Qed.
Lemma ext_tail x x' m r r' m' : single (x :: r) -> entry_ext x x' m -> G r r' m' -> G (x :: r) (x' :: r') (m ++ m').
Proof.
  intros Sg X Gr. unfold entry_ext in X. destruct (en_plan x) as [b|o g room skip] eqn:P.
  - destruct X as [-> ->]. cbn [app]. exact (G_skip _ _ _ _ _ P Gr).
  - destruct X as (l' & room' & skip' & -> & L). pose proof (single_read _ _ _ _ _ _ P Sg) as N0.
    pose proof (G_none _ _ _ N0 Gr) as ->. rewrite app_nil_r. exact (G_read _ _ _ _ _ _ _ _ _ _ _ P L N0 Gr).
Qed.
Lemma sub_spec : forall es len pos es' r, single es -> read_sub_block E f t e es len pos = (es', r) ->
  exists m, G es es' m
    /\ forall l q, r = Ok (l, q) -> l = if Nat.eqb (nreads (shape es)) 0 then len else lenN m.
Proof.
  induction es as [|x es IH]; intros len pos es' r Sg H; cbn [read_sub_block] in H.
  - injection H as <- <-. exists []. split; [apply G_refl|]. intros l q Z. injection Z as <- _. reflexivity.
  - destruct (read_entry E f t e x pos) as [x' y] eqn:R. destruct (entry_spec _ _ _ _ R) as [m [X Q]].
    destruct y as [[l q]|y|y|]; cbn [recast] in H.
    2-4: injection H as <- <-; exists m; split; [exact (ext_cons _ _ _ _ Sg X)|discriminate].
    destruct (read_sub_block E f t e es _ q) as [es2 r2] eqn:R2. injection H as <- <-.
    destruct (IH _ _ _ _ (single_tail _ _ Sg) R2) as [m2 [G2 Q2]].
    exists (m ++ m2). split; [exact (ext_tail _ _ _ _ _ _ Sg X G2)|]. intros l' q' Z. specialize (Q2 l' q' Z).
    specialize (Q _ _ eq_refl). unfold entry_ext in X. destruct (en_plan x) as [b|o g room skip] eqn:P.
    + subst l. destruct X as [_ ->]. rewrite (nreads_skip _ _ _ P). exact Q2.
    + subst l. pose proof (nreads_read _ es _ _ _ _ P) as Nz. apply Nat.eqb_neq in Nz. rewrite Nz.
      pose proof (single_read _ _ _ _ _ _ P Sg) as N0. rewrite N0 in Q2. cbn [Nat.eqb] in Q2.
      pose proof (G_none _ _ _ N0 G2) as ->. rewrite app_nil_r. exact Q2.
Qed.
Definition keeps (step : N -> list (entry V) -> option (list (entry V))) : Prop :=
  forall idx es es1, step idx es = Some es1 -> G es es1 [].
Lemma sub0 es pos es' r m l q : G es es' m -> r = Ok (l, q) ->
  (forall l q, r = Ok (l, q) -> l = if Nat.eqb (nreads (shape es)) 0 then 0 else lenN m) ->
  read_sub_block E f t e es 0 pos = (es', r) -> l = lenN m.
Proof.
  intros Gm Z Q _. specialize (Q l q Z). destruct (Nat.eqb (nreads (shape es)) 0) eqn:N0; [|exact Q].
  apply Nat.eqb_eq in N0. rewrite (G_none _ _ _ N0 Gm). exact Q.
Qed.
Lemma contig_spec step : keeps step -> forall n idx es len pos es' r, single es ->
  contig_loop E f t e step n idx es len pos = (es', r) ->
  exists m, G es es' m /\ forall l, r = Ok l -> l = len + lenN m.
Proof.
  intros Kp. induction n as [|n IH]; intros idx es len pos es' r Sg H; cbn [contig_loop] in H.
  - injection H as <- <-. exists []. split; [apply G_refl|]. intros l Z. injection Z as <-. rewrite lenN_nil. lia.
  - destruct (step idx es) as [es1|] eqn:St.
    + pose proof (Kp _ _ _ St) as G1. pose proof (G_single _ _ _ G1 Sg) as Sg1.
      destruct (read_sub_block E f t e es1 0 pos) as [es2 y] eqn:R. destruct (sub_spec _ _ _ _ _ Sg1 R) as [m [G2 Q2]].
      pose proof (G_trans _ _ _ _ _ G1 G2) as G12. cbn [app] in G12.
      destruct y as [[l q]|y|y|]; cbn [recast] in H.
      2-4: injection H as <- <-; exists m; split; [exact G12|discriminate].
      destruct (IH _ _ _ _ _ _ (G_single _ _ _ G12 Sg) H) as [m3 [G3 Q3]]. exists (m ++ m3).
      split; [exact (G_trans _ _ _ _ _ G12 G3)|]. intros l' Z. rewrite (Q3 l' Z), lenN_app.
      rewrite (sub0 _ _ _ _ _ _ _ G2 eq_refl Q2 R). lia.
    + destruct (block_size E t es) as [bs|y|y|]; cbn [bind recast] in H.
      2-4: injection H as <- <-; exists []; split; [apply G_refl|discriminate].
      destruct (seek_rel E pos (as_i64 bs)) as [q|y|y|]; cbn [recast] in H.
      2-4: injection H as <- <-; exists []; split; [apply G_refl|discriminate].
      exact (IH _ _ _ _ _ _ Sg H).
Qed.
Lemma row_spec row : forall es any pos es' r, single es -> inter_row E f t e row es any pos = (es', r) ->
  exists m, G es es' m /\ forall b q, r = Ok (b, q) -> (b = any /\ m = []) \/ (b = true /\ exists v, m = [v]).
Proof.
  induction es as [|x es IH]; intros any pos es' r Sg H; cbn [inter_row] in H.
  - injection H as <- <-. exists []. split; [apply G_refl|]. intros b q Z. injection Z as <- _. left. split; reflexivity.
  - pose proof (single_tail _ _ Sg) as St.
    destruct (en_plan x) as [b|o g room skip] eqn:P.
    + destruct (seek_rel E pos b) as [q|y|y|]; cbn [recast] in H.
      2-4: injection H as <- <-; exists []; split; [apply G_refl|discriminate].
      destruct (inter_row E f t e row es any q) as [es2 r2] eqn:R. injection H as <- <-.
      destruct (IH _ _ _ _ St R) as [m [G2 Q2]]. exists m. split; [exact (G_skip _ _ _ _ _ P G2)|exact Q2].
    + pose proof (single_read _ _ _ _ _ _ P Sg) as N0.
      destruct (read_at E f t e pos) as [[v q]|y|y|]; cbn [recast] in H.
      2-4: injection H as <- <-; exists []; split; [apply G_refl|discriminate].
      assert (Same : forall es2 r2, inter_row E f t e row es any q = (es2, r2) ->
        exists m, G (x :: es) (x :: es2) m /\ forall b q, r2 = Ok (b, q) -> (b = any /\ m = []) \/ (b = true /\ exists v, m = [v])).
      { intros es2 r2 R. destruct (IH _ _ _ _ St R) as [m [G2 Q2]]. pose proof (G_none _ _ _ N0 G2) as ->.
        exists []. split; [|exact Q2]. pose proof (ext_tail x x [] es es2 [] Sg (entry_ext_refl x) G2) as G3. exact G3. }
      destruct (skip <=? row).
      * destruct room as [|room].
        -- destruct (inter_row E f t e row es any q) as [es2 r2] eqn:R. injection H as <- <-. exact (Same _ _ eq_refl).
        -- destruct (inter_row E f t e row es true q) as [es2 r2] eqn:R. injection H as <- <-.
           destruct (IH _ _ _ _ St R) as [m [G2 Q2]]. pose proof (G_none _ _ _ N0 G2) as ->.
           exists [v]. split.
           ++ apply (G_read _ _ _ _ _ _ _ _ _ _ _ P); [cbn [length]; lia|exact N0|exact G2].
           ++ intros b q' Z. right. split; [|eexists; reflexivity].
              destruct (Q2 b q' Z) as [[-> _]|[-> _]]; reflexivity.
      * destruct (inter_row E f t e row es any q) as [es2 r2] eqn:R. injection H as <- <-. exact (Same _ _ eq_refl).
Qed.
Lemma rows_spec : forall n row es read pos es' r, single es -> inter_rows E f t e n row es read pos = (es', r) ->
  exists m, G es es' m /\ forall l, r = Ok l -> l = read + lenN m.
Proof.
  induction n as [|n IH]; intros row es read pos es' r Sg H; cbn [inter_rows] in H.
  - injection H as <- <-. exists []. split; [apply G_refl|]. intros l Z. injection Z as <-. rewrite lenN_nil. lia.
  - destruct (inter_row E f t e row es false pos) as [es1 y] eqn:R. destruct (row_spec _ _ _ _ _ _ Sg R) as [m [G1 Q1]].
    destruct y as [[b q]|y|y|]; cbn [recast] in H.
    2-4: injection H as <- <-; exists m; split; [exact G1|discriminate].
    destruct (Q1 b q eq_refl) as [[-> ->]|[-> [v ->]]].
    + injection H as <- <-. exists []. split; [exact G1|]. intros l Z. injection Z as <-. rewrite lenN_nil. lia.
    + destruct (IH _ _ _ _ _ _ (G_single _ _ _ G1 Sg) H) as [m [G2 Q2]]. exists ([v] ++ m).
      split; [exact (G_trans _ _ _ _ _ G1 G2)|]. intros l Z. rewrite (Q2 l Z), lenN_app. change (lenN [v]) with 1. lia.
Qed.
Lemma from_spec start blen es s es' r : single es -> contig_read_from E f t e start blen es s = (es', r) ->
  exists m, G es es' m /\ forall l, r = Ok l -> l = lenN m.
Proof.
  intros Sg. unfold contig_read_from. destruct (bind _ _) as [[[[pos total] q] rm]|y|y|]; cbn [recast]; intros H.
  2-4: injection H as <- <-; exists []; split; [apply G_refl|discriminate].
  eapply contig_spec in H; [exact H| |exact Sg].
  intros idx es0 es1. destruct (idx <? q); [discriminate|]. destruct (idx =? q); intros Z; injection Z as <-; apply G_set_all.
Qed.
Lemma skips_spec start blen es skips es' r : single es -> contig_read_skips E f t e start blen es skips = (es', r) ->
  exists m, G es es' m /\ forall l, r = Ok l -> l = lenN m.
Proof.
  intros Sg. unfold contig_read_skips. destruct (bind _ _) as [[[pos total] l]|y|y|]; cbn [recast]; intros H.
  2-4: injection H as <- <-; exists []; split; [apply G_refl|discriminate].
  eapply contig_spec in H; [exact H| |exact Sg].
  intros idx es0 es1. destruct (forallb _ l); intros Z; [|discriminate]. injection Z as <-. apply G_zip.
Qed.
Lemma inter_spec start blen es es' r : single es -> inter_read E f t e start blen es = (es', r) ->
  exists m, G es es' m /\ forall l, r = Ok l -> l = lenN m.
Proof.
  intros Sg. unfold inter_read. cbv zeta. destruct (bind _ _) as [[pos total]|y|y|]; cbn [recast]; intros H.
  2-4: injection H as <- <-; exists []; split; [apply G_refl|discriminate].
  match type of H with context[inter_rows _ _ _ _ _ _ (map ?h es) _ _] => assert (G1 : G es (map h es) []) end.
  { apply G_map. intros x. destruct (en_plan x) eqn:P; [reflexivity|]. eexists. reflexivity. }
  apply rows_spec in H; [|exact (G_single _ _ _ G1 Sg)]. destruct H as [m [G2 Q]]. exists m.
  split; [exact (G_trans _ _ _ _ _ G1 G2)|exact Q].
Qed.

(** ** The functions interrupted by the device *)
Notation c := (cut E f).
Lemma cut_vals : forall n pos vs r, c (read_vals_p E t e n) (AtBuf pos) (vs, r) ->
  exists rest, fst (read_vals E f t e n pos) = vs ++ rest.
Proof.
  induction n as [|n IH]; intros pos vs r H; cbn [read_vals_p] in H; [destruct (cut_ret _ _ _ _ _ _ H)|].
  apply cut_bind in H. destruct H as [[a [C Q]]|[a [w [R C]]]].
  - pose proof (stops_cut _ _ _ _ _ (st_dec E e t) _ _ C) as ->. cbn [recast] in Q. injection Q as <- _.
    exists (fst (read_vals E f t e (S n) pos)). reflexivity.
  - cbn [read_vals]. pose proof (dec_pure E f t e pos) as P. destruct (read_at E f t e pos) as [[v q]|x|x|]; cbn [recast] in *.
    2-4: destruct P as [w' P]; rewrite P in R; injection R as <- <-; destruct (cut_ret _ _ _ _ _ _ C).
    rewrite P in R. injection R as <- <-. apply cut_bind in C. destruct C as [[[vs' r'] [C Q]]|[a1 [w1 [R1 C]]]].
    + cbn [fst snd] in Q. injection Q as <- <-. destruct (IH _ _ _ C) as [rest Hr]. exists rest.
      destruct (read_vals E f t e n q) as [vs2 r2]. cbn [fst app] in *. now rewrite Hr.
    + destruct (cut_ret _ _ _ _ _ _ C).
Qed.
Lemma cut_seq room samples pos vs r : c (read_seq_p E t e room samples) (AtBuf pos) (vs, r) ->
  exists rest, fst (read_seq E f t e room samples pos) = vs ++ rest.
Proof.
  unfold read_seq_p, read_seq. cbv zeta. set (k := N.min (N.of_nat room) samples). intros H. apply cut_bind in H.
  destruct H as [[[vs' r'] [C Q]]|[a [w [R C]]]].
  - pose proof (stops_cut _ _ _ _ _ (st_vals E t e _) _ _ C) as Gu. unfold snd_gave_up, gave_up in Gu. cbn [snd] in Gu. subst r'.
    cbn [recast] in Q. injection Q as <- _. destruct (cut_vals _ _ _ _ C) as [rest Hr]. exists rest.
    destruct (read_vals E f t e (N.to_nat k) pos) as [vs2 r2]. exact Hr.
  - pose proof (vals_pure E f t e (N.to_nat k) pos) as P. destruct (read_vals E f t e (N.to_nat k) pos) as [vs2 r2].
    exists []. rewrite app_nil_r. cbn [fst]. destruct r2 as [q|x|x|]; cbn [bind lands recast] in P.
    2-4: destruct P as [w' P]; rewrite P in R; injection R as <- <-; destruct (cut_ret _ _ _ _ _ _ C).
    rewrite P in R. injection R as <- <-. destruct (0 <? samples - k); [|destruct (cut_ret _ _ _ _ _ _ C)].
    destruct (imul E _ _); try destruct (cut_ret _ _ _ _ _ _ C).
    apply cut_bind in C. destruct C as [[a1 [C Q]]|[a1 [w1 [R1 C]]]]; [|destruct (cut_ret _ _ _ _ _ _ C)].
    now injection Q as -> _.
Qed.
(** One interrupted step: what was stored is the beginning of what would have
    been stored. *)
Lemma cut_entry x pos x' r : c (read_entry_p E t e x) (AtBuf pos) (x', r) ->
  exists m rest, entry_ext x x' m /\ entry_ext x (fst (read_entry E f t e x pos)) (m ++ rest).
Proof.
  intros H. destruct (read_entry E f t e x pos) as [xp rp] eqn:Rp. destruct (entry_spec _ _ _ _ Rp) as [mp [Xp _]]. cbn [fst].
  unfold read_entry_p in H. unfold read_entry in Rp. destruct (en_plan x) as [b|o g room skip] eqn:P; cbv zeta in *.
  - assert (x' = x).
    { destruct (imul E b _); try destruct (cut_ret _ _ _ _ _ _ H). apply cut_bind in H.
      destruct H as [[a1 [C Q]]|[a1 [w1 [R1 C]]]]; [now injection Q as <- _|destruct (cut_ret _ _ _ _ _ _ C)]. }
    subst x'. exists [], mp. split; [apply entry_ext_refl|exact Xp].
  - set (sk := N.min skip (en_len x)) in *. apply cut_bind in H. destruct H as [[a [C Q]]|[a [w [R C]]]].
    + assert (Gu : gave_up a).
      { destruct (0 <? sk); [|destruct (cut_ret _ _ _ _ _ _ C)]. destruct (imul E _ _); try destruct (cut_ret _ _ _ _ _ _ C).
        exact (stops_cut _ _ _ _ _ (st_move _) _ _ C). }
      unfold gave_up in Gu. subst a. cbn [recast] in Q. injection Q as <- _. exists [], mp. split; [apply entry_ext_refl|exact Xp].
    + assert (M : match (if 0 <? sk then off <- imul E (as_i64 sk) (as_i64 (size_bytes t)) ;; seek_rel E pos off else Ok pos) with
                  | Ok q => a = Ok tt /\ w = AtBuf q
                  | r => a = recast r
                  end).
      { destruct (0 <? sk); [|cbn [run_pure] in R; injection R as <- <-; split; reflexivity].
        destruct (imul E _ _) as [off|y|y|]; cbn [bind recast run_pure] in *; try (injection R as <- <-; reflexivity).
        pose proof (move_pure E f off pos) as Mv. destruct (seek_rel E pos off) as [q|y|y|]; cbn [recast] in *.
        2-4: destruct Mv as [w' Mv]; rewrite Mv in R; injection R as <- _; reflexivity.
        rewrite Mv in R. injection R as <- <-. split; reflexivity. }
      match type of M with match ?X with _ => _ end => destruct X as [q|y|y|] end; cbn [recast] in *.
      2-4: subst a; cbn [recast] in C; destruct (cut_ret _ _ _ _ _ _ C).
      destruct M as [-> ->]. apply cut_bind in C. destruct C as [[[vs r'] [C Q]]|[a' [w' [R' C]]]].
      2: destruct (cut_ret _ _ _ _ _ _ C).
      cbn [fst snd] in Q. injection Q as <- _. destruct (cut_seq _ _ _ _ _ C) as [rest Hr].
      destruct (read_seq E f t e room (en_len x - sk) q) as [vsp r2] eqn:Rs. cbn [fst] in Hr. subst vsp.
      injection Rp as <- _. destruct (seq_len _ _ _ _ _ Rs) as [L _]. rewrite app_length in L.
      exists vs, rest. unfold entry_ext. rewrite P. split.
      * eexists _, _, _. split; [reflexivity|]. lia.
      * eexists _, _, _. split; [reflexivity|]. rewrite app_length. lia.
Qed.
Lemma cut_sub : forall es len pos es' r, single es -> c (read_sub_block_p E t e es len) (AtBuf pos) (es', r) ->
  exists m rest, G es es' m /\ G es (fst (read_sub_block E f t e es len pos)) (m ++ rest).
Proof.
  induction es as [|x es IH]; intros len pos es' r Sg H; cbn [read_sub_block_p] in H; [destruct (cut_ret _ _ _ _ _ _ H)|].
  cbn [read_sub_block]. pose proof (single_tail _ _ Sg) as St.
  apply cut_bind in H. destruct H as [[[x' y] [C Q]]|[[x' y] [w [R C]]]].
  - pose proof (stops_cut _ _ _ _ _ (st_entry E t e x) _ _ C) as Gu. unfold snd_gave_up, gave_up in Gu. cbn [snd] in Gu. subst y.
    cbn [recast] in Q. injection Q as <- _. destruct (cut_entry _ _ _ _ C) as (m & rest & X1 & X2).
    destruct (read_entry E f t e x pos) as [xp rp] eqn:Rp. cbn [fst] in X2.
    destruct rp as [[l q]|y|y|].
    2-4: exists m, rest; split; [exact (ext_cons _ _ _ _ Sg X1)|exact (ext_cons _ _ _ _ Sg X2)].
    destruct (read_sub_block E f t e es _ q) as [es2 r2] eqn:R2. destruct (sub_spec _ _ _ _ _ St R2) as [m2 [G2 _]].
    exists m, (rest ++ m2). split; [exact (ext_cons _ _ _ _ Sg X1)|]. cbn [fst].
    rewrite app_assoc. exact (ext_tail _ _ _ _ _ _ Sg X2 G2).
  - pose proof (entry_pure E f t e x pos) as P. destruct (read_entry E f t e x pos) as [xp rp] eqn:Rp.
    destruct rp as [[l q]|z|z|]; cbn [lands recast] in P.
    2-4: destruct P as [w' P]; rewrite P in R; injection R as <- <- <-; destruct (cut_ret _ _ _ _ _ _ C).
    rewrite P in R. injection R as <- <- <-. destruct (entry_spec _ _ _ _ Rp) as [m0 [X0 _]].
    apply cut_bind in C. destruct C as [[[r' y] [C Q]]|[a1 [w1 [R1 C]]]]; [|destruct (cut_ret _ _ _ _ _ _ C)].
    cbn [fst snd] in Q. injection Q as <- _. destruct (IH _ _ _ _ St C) as (m & rest & G1 & G2).
    exists (m0 ++ m), rest. split; [exact (ext_tail _ _ _ _ _ _ Sg X0 G1)|].
    destruct (read_sub_block E f t e es _ q) as [es2 r2]. cbn [fst] in *. rewrite <- app_assoc.
    exact (ext_tail _ _ _ _ _ _ Sg X0 G2).
Qed.
Lemma cut_contig step : keeps step -> forall n idx es len pos es' r, single es ->
  c (contig_loop_p E t e step n idx es len) (AtBuf pos) (es', r) ->
  exists m rest, G es es' m /\ G es (fst (contig_loop E f t e step n idx es len pos)) (m ++ rest).
Proof.
  intros Kp. induction n as [|n IH]; intros idx es len pos es' r Sg H; cbn [contig_loop_p] in H; [destruct (cut_ret _ _ _ _ _ _ H)|].
  cbn [contig_loop]. destruct (step idx es) as [es1|] eqn:St.
  - pose proof (Kp _ _ _ St) as G1. pose proof (G_single _ _ _ G1 Sg) as Sg1.
    apply cut_bind in H. destruct H as [[[es2 y] [C Q]]|[[es2 y] [w [R C]]]].
    + pose proof (stops_cut _ _ _ _ _ (st_sub E t e es1 0) _ _ C) as Gu. unfold snd_gave_up, gave_up in Gu. cbn [snd] in Gu. subst y.
      cbn [recast] in Q. injection Q as <- _. destruct (cut_sub _ _ _ _ _ Sg1 C) as (m & rest & X1 & X2).
      pose proof (G_trans _ _ _ _ _ G1 X1) as Y1. pose proof (G_trans _ _ _ _ _ G1 X2) as Y2. cbn [app] in Y1, Y2.
      destruct (read_sub_block E f t e es1 0 pos) as [esp rp] eqn:Rp. cbn [fst] in *.
      destruct rp as [[l q]|y|y|].
      2-4: exists m, rest; split; [exact Y1|exact Y2].
      destruct (contig_loop E f t e step n (idx + 1) esp (len + l) q) as [es3 r3] eqn:R3.
      destruct (contig_spec step Kp _ _ _ _ _ _ _ (G_single _ _ _ Y2 Sg) R3) as [m3 [G3 _]].
      exists m, (rest ++ m3). split; [exact Y1|]. cbn [fst]. rewrite app_assoc. exact (G_trans _ _ _ _ _ Y2 G3).
    + pose proof (sub_pure E f t e es1 0 pos) as P. destruct (read_sub_block E f t e es1 0 pos) as [esp rp] eqn:Rp.
      destruct (sub_spec _ _ _ _ _ Sg1 Rp) as [m0 [G0 _]]. pose proof (G_trans _ _ _ _ _ G1 G0) as Y0. cbn [app] in Y0.
      destruct rp as [[l q]|z|z|]; cbn [lands recast] in P.
      2-4: destruct P as [w' P]; rewrite P in R; injection R as <- <- <-; destruct (cut_ret _ _ _ _ _ _ C).
      rewrite P in R. injection R as <- <- <-.
      destruct (IH _ _ _ _ _ _ (G_single _ _ _ Y0 Sg) C) as (m & rest & X1 & X2).
      exists (m0 ++ m), rest. split; [exact (G_trans _ _ _ _ _ Y0 X1)|]. rewrite <- app_assoc. exact (G_trans _ _ _ _ _ Y0 X2).
  - destruct (block_size E t es) as [bs|y|y|]; cbn [bind recast] in *; try destruct (cut_ret _ _ _ _ _ _ H).
    apply cut_bind in H. destruct H as [[a [C Q]]|[a [w [R C]]]].
    + pose proof (stops_cut _ _ _ _ _ (st_move _) _ _ C) as ->. cbn [recast] in Q. injection Q as <- _.
      destruct (seek_rel E pos (as_i64 bs)) as [q|y|y|].
      2-4: exists [], []; split; apply G_refl.
      destruct (contig_loop E f t e step n (idx + 1) es len q) as [es3 r3] eqn:R3.
      destruct (contig_spec step Kp _ _ _ _ _ _ _ Sg R3) as [m3 [G3 _]]. exists [], m3. split; [apply G_refl|exact G3].
    + pose proof (move_pure E f (as_i64 bs) pos) as Mv. destruct (seek_rel E pos (as_i64 bs)) as [q|y|y|]; cbn [recast] in *.
      2-4: destruct Mv as [w' Mv]; rewrite Mv in R; injection R as <- <-; destruct (cut_ret _ _ _ _ _ _ C).
      rewrite Mv in R. injection R as <- <-. exact (IH _ _ _ _ _ _ Sg C).
Qed.
Lemma cut_row row : forall es any pos es' r, single es -> c (inter_row_p E t e row es any) (AtBuf pos) (es', r) ->
  exists m rest, G es es' m /\ G es (fst (inter_row E f t e row es any pos)) (m ++ rest).
Proof.
  induction es as [|x es IH]; intros any pos es' r Sg H; cbn [inter_row_p] in H; [destruct (cut_ret _ _ _ _ _ _ H)|].
  destruct (inter_row E f t e row (x :: es) any pos) as [esp rp] eqn:Rp.
  destruct (row_spec row _ _ _ _ _ Sg Rp) as [mp [Gp _]]. cbn [fst].
  pose proof (single_tail _ _ Sg) as St. cbn [inter_row] in Rp.
  assert (Now : forall a, gave_up a -> forall k : res V -> prog (list (entry V) * res bool),
             k a = Ret (x :: es, recast a) -> k a = Ret (es', r) ->
             exists m rest, G (x :: es) es' m /\ G (x :: es) esp (m ++ rest)).
  { intros a _ k K1 K2. rewrite K1 in K2. injection K2 as <- _. exists [], mp. split; [apply G_refl|exact Gp]. }
  destruct (en_plan x) as [b|o g room skip] eqn:P; apply cut_bind in H.
  - destruct H as [[a [C Q]]|[a [w [R C]]]].
    + pose proof (stops_cut _ _ _ _ _ (st_move _) _ _ C) as ->. cbn [recast] in Q. injection Q as <- _.
      exists [], mp. split; [apply G_refl|exact Gp].
    + pose proof (move_pure E f b pos) as Mv. destruct (seek_rel E pos b) as [q|y|y|]; cbn [recast] in *.
      2-4: destruct Mv as [w' Mv]; rewrite Mv in R; injection R as <- <-; destruct (cut_ret _ _ _ _ _ _ C).
      rewrite Mv in R. injection R as <- <-. apply cut_bind in C.
      destruct C as [[[r' y] [C Q]]|[a1 [w1 [R1 C]]]]; [|destruct (cut_ret _ _ _ _ _ _ C)].
      cbn [fst snd] in Q. injection Q as <- _. destruct (IH _ _ _ _ St C) as (m & rest & G1 & G2).
      destruct (inter_row E f t e row es any q) as [es2 r2]. cbn [fst] in G2. injection Rp as <- _.
      exists m, rest. split; [exact (G_skip _ _ _ _ _ P G1)|exact (G_skip _ _ _ _ _ P G2)].
  - destruct H as [[a [C Q]]|[a [w [R C]]]].
    + pose proof (stops_cut _ _ _ _ _ (st_dec E e t) _ _ C) as ->. cbn [recast] in Q. injection Q as <- _.
      exists [], mp. split; [apply G_refl|exact Gp].
    + pose proof (dec_pure E f t e pos) as Dv. destruct (read_at E f t e pos) as [[v q]|y|y|]; cbn [recast] in *.
      2-4: destruct Dv as [w' Dv]; rewrite Dv in R; injection R as <- <-; destruct (cut_ret _ _ _ _ _ _ C).
      rewrite Dv in R. injection R as <- <-. pose proof (single_read _ _ _ _ _ _ P Sg) as N0.
      assert (Tail : forall any' x1 mx, entry_ext x x1 mx ->
        c (pbind (inter_row_p E t e row es any') (fun z : list (entry V) * res bool => Ret (x1 :: fst z, snd z))) (AtBuf q) (es', r) ->
        esp = x1 :: fst (inter_row E f t e row es any' q) ->
        exists m rest, G (x :: es) es' m /\ G (x :: es) esp (m ++ rest)).
      { intros any' x1 mx Xx C1 ->. apply cut_bind in C1.
        destruct C1 as [[[r' y] [C1 Q]]|[a1 [w1 [R1 C1]]]]; [|destruct (cut_ret _ _ _ _ _ _ C1)].
        cbn [fst snd] in Q. injection Q as <- _. destruct (IH _ _ _ _ St C1) as (m & rest & G1 & G2).
        exists (mx ++ m), rest. split; [exact (ext_tail _ _ _ _ _ _ Sg Xx G1)|]. rewrite <- app_assoc.
        exact (ext_tail _ _ _ _ _ _ Sg Xx G2). }
      destruct (skip <=? row).
      * destruct room as [|room].
        -- apply (Tail any x [] (entry_ext_refl x) C). destruct (inter_row E f t e row es any q). now injection Rp as <- _.
        -- apply (Tail true _ [v]) in C; [exact C| |].
           ++ unfold entry_ext. rewrite P. eexists _, _, _. split; [reflexivity|]. cbn [length]. lia.
           ++ destruct (inter_row E f t e row es true q). now injection Rp as <- _.
      * apply (Tail any x [] (entry_ext_refl x) C). destruct (inter_row E f t e row es any q). now injection Rp as <- _.
Qed.
Lemma cut_rows : forall n row es read pos es' r, single es -> c (inter_rows_p E t e n row es read) (AtBuf pos) (es', r) ->
  exists m rest, G es es' m /\ G es (fst (inter_rows E f t e n row es read pos)) (m ++ rest).
Proof.
  induction n as [|n IH]; intros row es read pos es' r Sg H; cbn [inter_rows_p] in H; [destruct (cut_ret _ _ _ _ _ _ H)|].
  cbn [inter_rows]. apply cut_bind in H. destruct H as [[[es1 y] [C Q]]|[[es1 y] [w [R C]]]].
  - pose proof (stops_cut _ _ _ _ _ (st_row E t e row es false) _ _ C) as Gu. unfold snd_gave_up, gave_up in Gu. cbn [snd] in Gu. subst y.
    cbn [recast] in Q. injection Q as <- _. destruct (cut_row _ _ _ _ _ _ Sg C) as (m & rest & X1 & X2).
    destruct (inter_row E f t e row es false pos) as [esp rp] eqn:Rp. cbn [fst] in *.
    destruct rp as [[[|] q]|y|y|].
    2-5: exists m, rest; split; [exact X1|exact X2].
    destruct (inter_rows E f t e n (row + 1) esp (read + 1) q) as [es3 r3] eqn:R3.
    destruct (rows_spec _ _ _ _ _ _ _ (G_single _ _ _ X2 Sg) R3) as [m3 [G3 _]].
    exists m, (rest ++ m3). split; [exact X1|]. cbn [fst]. rewrite app_assoc. exact (G_trans _ _ _ _ _ X2 G3).
  - pose proof (row_pure E f t e row es false pos) as P. destruct (inter_row E f t e row es false pos) as [esp rp] eqn:Rp.
    destruct (row_spec _ _ _ _ _ _ Sg Rp) as [m0 [Y0 _]].
    destruct rp as [[bb q]|z|z|]; cbn [lands recast] in P.
    2-4: destruct P as [w' P]; rewrite P in R; injection R as <- <- <-; destruct (cut_ret _ _ _ _ _ _ C).
    rewrite P in R. injection R as <- <- <-. destruct bb; [|destruct (cut_ret _ _ _ _ _ _ C)].
    destruct (IH _ _ _ _ _ _ (G_single _ _ _ Y0 Sg) C) as (m & rest & X1 & X2).
    exists (m0 ++ m), rest. split; [exact (G_trans _ _ _ _ _ Y0 X1)|]. rewrite <- app_assoc. exact (G_trans _ _ _ _ _ Y0 X2).
Qed.
Lemma cut_open start w a : c (open_at_p start) w a -> gave_up a.
Proof. exact (stops_cut _ _ _ _ _ (st_open start) w a). Qed.
Lemma open_res start w a w' : run_pure E f (open_at_p start) w = Some (a, w') ->
  match seek_to E start with Ok q => a = Ok tt /\ w' = AtBuf q | r => a = recast r end.
Proof.
  intros R. pose proof (open_pure E f start w) as O. destruct (seek_to E start) as [q|y|y|]; cbn [recast] in *.
  2-4: destruct O as [w2 O]; rewrite O in R; injection R as <- _; reflexivity.
  rewrite O in R. injection R as <- <-. split; reflexivity.
Qed.
Lemma cut_from start blen es s w es' r : single es -> c (contig_read_from_p E t e start blen es s) w (es', r) ->
  exists m rest, G es es' m /\ G es (fst (contig_read_from E f t e start blen es s)) (m ++ rest).
Proof.
  intros Sg H. destruct (contig_read_from E f t e start blen es s) as [esp rp] eqn:Rp.
  destruct (from_spec _ _ _ _ _ _ Sg Rp) as [mp [Gp _]]. cbn [fst].
  unfold contig_read_from_p in H. unfold contig_read_from in Rp. apply cut_bind in H.
  destruct H as [[a [C Q]]|[a [w1 [R C]]]].
  - apply cut_open in C. unfold gave_up in C. subst a. cbn [bind recast] in Q. injection Q as <- _.
    exists [], mp. split; [apply G_refl|exact Gp].
  - apply open_res in R. destruct (seek_to E start) as [q|y|y|]; cbn [recast] in R.
    2-4: subst a; cbn [bind] in C; destruct (cut_ret _ _ _ _ _ _ C).
    destruct R as [-> ->]. cbn [bind] in *.
    destruct (block_size E t es) as [bs|y|y|]; cbn [bind] in *; try destruct (cut_ret _ _ _ _ _ _ C).
    destruct (udiv blen bs) as [total|y|y|]; cbn [bind] in *; try destruct (cut_ret _ _ _ _ _ _ C).
    destruct es as [|x es]; cbn [bind] in *; try destruct (cut_ret _ _ _ _ _ _ C).
    destruct (udiv s (en_len x)) as [d|y|y|]; cbn [bind] in *; try destruct (cut_ret _ _ _ _ _ _ C).
    eapply cut_contig in C; [|intros idx es0 es1 Z|exact Sg].
    + rewrite Rp in C. exact C.
    + destruct (idx <? d); [discriminate|]. destruct (idx =? d); injection Z as <-; apply G_set_all.
Qed.
Lemma cut_skips start blen es skips w es' r : single es -> c (contig_read_skips_p E t e start blen es skips) w (es', r) ->
  exists m rest, G es es' m /\ G es (fst (contig_read_skips E f t e start blen es skips)) (m ++ rest).
Proof.
  intros Sg H. destruct (contig_read_skips E f t e start blen es skips) as [esp rp] eqn:Rp.
  destruct (skips_spec _ _ _ _ _ _ Sg Rp) as [mp [Gp _]]. cbn [fst].
  unfold contig_read_skips_p in H. unfold contig_read_skips in Rp. apply cut_bind in H.
  destruct H as [[a [C Q]]|[a [w1 [R C]]]].
  - apply cut_open in C. unfold gave_up in C. subst a. cbn [bind recast] in Q. injection Q as <- _.
    exists [], mp. split; [apply G_refl|exact Gp].
  - apply open_res in R. destruct (seek_to E start) as [q|y|y|]; cbn [recast] in R.
    2-4: subst a; cbn [bind] in C; destruct (cut_ret _ _ _ _ _ _ C).
    destruct R as [-> ->]. cbn [bind] in *.
    destruct (block_size E t es) as [bs|y|y|]; cbn [bind] in *; try destruct (cut_ret _ _ _ _ _ _ C).
    destruct (udiv blen bs) as [total|y|y|]; cbn [bind] in *; try destruct (cut_ret _ _ _ _ _ _ C).
    destruct es as [|x es]; cbn [bind] in *; try destruct (cut_ret _ _ _ _ _ _ C).
    destruct (div_skips (en_len x) skips) as [d|y|y|]; cbn [bind] in *; try destruct (cut_ret _ _ _ _ _ _ C).
    eapply cut_contig in C; [|intros idx es0 es1 Z|exact Sg].
    + rewrite Rp in C. exact C.
    + destruct (forallb _ d); [|discriminate]. injection Z as <-. apply G_zip.
Qed.
Lemma cut_inter start blen es w es' r : single es -> c (inter_read_p E t e start blen es) w (es', r) ->
  exists m rest, G es es' m /\ G es (fst (inter_read E f t e start blen es)) (m ++ rest).
Proof.
  intros Sg H. destruct (inter_read E f t e start blen es) as [esp rp] eqn:Rp.
  destruct (inter_spec _ _ _ _ _ Sg Rp) as [mp [Gp _]]. cbn [fst].
  assert (Now : exists m rest, G es es m /\ G es esp (m ++ rest)) by (exists [], mp; split; [apply G_refl|exact Gp]).
  unfold inter_read_p in H. unfold inter_read in Rp. cbv zeta in *. apply cut_bind in H.
  destruct H as [[a [C Q]]|[a [w1 [R C]]]].
  - apply cut_open in C. unfold gave_up in C. subst a. cbn [bind recast] in Q. injection Q as <- _. exact Now.
  - apply open_res in R. destruct (seek_to E start) as [q|y|y|]; cbn [recast] in R.
    2-4: subst a; cbn [bind] in C; destruct (cut_ret _ _ _ _ _ _ C).
    destruct R as [-> ->]. cbn [bind] in *.
    destruct (row_size E t es) as [rs|y|y|]; cbn [bind] in *; try destruct (cut_ret _ _ _ _ _ _ C).
    destruct (udiv blen rs) as [total|y|y|]; cbn [bind] in *; try destruct (cut_ret _ _ _ _ _ _ C).
    match type of C with context[map ?h es] => assert (G1 : G es (map h es) []) end.
    { apply G_map. intros x. destruct (en_plan x) eqn:P; [reflexivity|]. eexists. reflexivity. }
    assert (Go : forall q', c (inter_rows_p E t e (N.to_nat (total - min_or_0 (block_skips es))) 0
                 (map (fun x => match en_plan x with
                                | PRead o g r s => mkEntry (en_len x) (PRead o g r (s - min_or_0 (block_skips es)))
                                | PSkip _ => x
                                end) es) 0) (AtBuf q') (es', r) ->
        inter_rows E f t e (N.to_nat (total - min_or_0 (block_skips es))) 0
                 (map (fun x => match en_plan x with
                                | PRead o g r s => mkEntry (en_len x) (PRead o g r (s - min_or_0 (block_skips es)))
                                | PSkip _ => x
                                end) es) 0 q' = (esp, rp) ->
        exists m rest, G es es' m /\ G es esp (m ++ rest)).
    { intros q' C1 R1. apply cut_rows in C1; [|exact (G_single _ _ _ G1 Sg)]. rewrite R1 in C1. cbn [fst] in C1.
      destruct C1 as (m & rest & X1 & X2). exists m, rest.
      split; [exact (G_trans _ _ _ _ _ G1 X1)|exact (G_trans _ _ _ _ _ G1 X2)]. }
    destruct (0 <? min_or_0 (block_skips es)).
    + destruct (imul E _ _) as [off|y|y|]; cbn [bind] in *; try destruct (cut_ret _ _ _ _ _ _ C).
      apply cut_bind in C. destruct C as [[a1 [C Q]]|[a1 [w1 [R1 C]]]].
      * pose proof (stops_cut _ _ _ _ _ (st_move _) _ _ C) as ->. cbn [recast] in Q. injection Q as <- _. exact Now.
      * pose proof (move_pure E f off q) as Mv. destruct (seek_rel E q off) as [q'|y|y|]; cbn [bind recast] in *.
        2-4: destruct Mv as [w' Mv]; rewrite Mv in R1; injection R1 as <- <-; destruct (cut_ret _ _ _ _ _ _ C).
        rewrite Mv in R1. injection R1 as <- <-. exact (Go q' C Rp).
    + cbn [bind] in *. apply cut_bind in C. destruct C as [[a1 [C Q]]|[a1 [w1 [R1 C]]]]; [destruct (cut_ret _ _ _ _ _ _ C)|].
      cbn [run_pure] in R1. injection R1 as <- <-. exact (Go q C Rp).
Qed.
End Reads.

(** ** A block, for at most one request *)
Lemma set_plan_reads V i (p : plan V) : forall es, nreads (shape es) = 0%nat -> gots es = [] -> rooms es = 0%nat ->
  match p with
  | PSkip _ => True
  | PRead o g r s => g = [] ->
    single (set_plan i p es) /\ gots (set_plan i p es) = [] /\ (rooms (set_plan i p es) <= r)%nat
    /\ Forall (fun x => x = None \/ x = Some o) (shape (set_plan i p es))
  end.
Proof.
  destruct p as [b|o g r s]; [intros; exact Logic.I|].
  revert i. intros i es. revert i. unfold single, nreads, gots, rooms, shape.
  induction es as [|x es IH]; intros i N0 G0 R0 ->; cbn [set_plan].
  - destruct i; (cbn; split; [lia|]; split; [reflexivity|]; split; [lia|constructor]).
  - cbn [map filter concat fold_right] in *. destruct (en_plan x) as [b|] eqn:P; [|discriminate N0].
    assert (All : Forall (fun x => x = None \/ x = Some o) (map (fun x0 => match en_plan x0 with PSkip _ => None | PRead o0 _ _ _ => Some o0 end) es)).
    { apply Forall_forall. intros y Hy. left. destruct y as [y|]; [|reflexivity]. exfalso.
      assert (Z : In (Some y) (filter (fun o => match o with Some _ => true | None => false end)
                    (map (fun x0 => match en_plan x0 with PSkip _ => None | PRead o0 _ _ _ => Some o0 end) es))) by (apply filter_In; split; [exact Hy|reflexivity]).
      destruct (filter _ _); [destruct Z|discriminate N0]. }
    destruct i as [|i]; cbn [set_plan map filter concat fold_right en_plan length].
    + rewrite N0. cbn [app] in *. rewrite Nat.add_0_l in R0. rewrite G0, R0. split; [lia|]. split; [reflexivity|]. split; [lia|]. constructor; [right; reflexivity|exact All].
    + rewrite P. destruct (IH i N0 G0 R0 eq_refl) as (I1 & I2 & I3 & I4). cbn [app]. split; [exact I1|]. split; [exact I2|]. split; [lia|].
      constructor; [left; reflexivity|exact I4].
Qed.
Lemma harvest_gots V : forall es : list (entry V), single es -> Forall (fun x => x = None \/ x = Some 0%nat) (shape es) ->
  harvest 0 es = gots es.
Proof.
  induction es as [|x es IH]; intros Sg F; [reflexivity|]. cbn [harvest]. unfold gots. cbn [map concat]. fold (gots es).
  pose proof (single_tail _ _ Sg) as St. unfold shape in F. cbn [map] in F. apply Forall_cons_iff in F. destruct F as [Fx F].
  destruct (en_plan x) as [b|o g r s] eqn:P; [exact (IH St F)|].
  destruct Fx as [Fx|Fx]; [discriminate Fx|]. injection Fx as ->. cbn [Nat.eqb].
  pose proof (single_read _ _ _ _ _ _ P Sg) as N0. destruct (no_reads es N0) as [-> _]. symmetry. apply app_nil_r.
Qed.
Lemma base_none V chans : nreads (shape (@base_record V chans)) = 0%nat.
Proof. unfold nreads, shape, base_record. rewrite map_map. induction chans as [|x l IH]; [reflexivity|exact IH]. Qed.

(** The entries for at most one request. *)
Definition planned {V} (reqs : list req) (es : list (entry V)) : Prop :=
  single es /\ gots es = [] /\ Forall (fun x => x = None \/ x = Some 0%nat) (shape es)
  /\ match reqs with [] => nreads (shape es) = 0%nat | q :: _ => (rooms es <= rq_room q)%nat end.
Lemma plan_one t chans reqs (es : list (entry (carrier t))) : (length reqs <= 1)%nat -> build_record_plan t chans reqs = Ok es -> planned reqs es.
Proof.
  unfold build_record_plan. destruct (validate t reqs chans); cbn [bind]; try discriminate. intros L H. injection H as <-.
  pose proof (base_none (carrier t) chans) as N0. destruct (no_reads _ N0) as [G0 R0].
  destruct reqs as [|q [|q2 reqs]]; cbn [set_readable length] in *; [| |lia].
  - split; [unfold single; lia|]. split; [exact G0|]. split; [|exact N0].
    apply Forall_forall. intros y Hy. left. unfold shape, base_record in Hy. rewrite map_map in Hy. apply in_map_iff in Hy.
    destruct Hy as [c [<- _]]. reflexivity.
  - destruct (set_plan_reads _ (rq_chan q) (PRead 0%nat [] (rq_room q) 0) _ N0 G0 R0 eq_refl) as (S1 & S2 & S3 & S4).
    split; [exact S1|]. split; [exact S2|]. split; [exact S4|exact S3].
Qed.
Lemma outputs_one V reqs (es es' : list (entry V)) m : (length reqs <= 1)%nat -> planned reqs es -> G es es' m ->
  (length m <= match reqs with [] => 0 | q :: _ => rq_room q end)%nat
  /\ outputs reqs es' = match reqs with [] => [] | _ => [m] end.
Proof.
  intros L (S1 & G1 & F1 & R1) Gm. destruct reqs as [|q [|q2 reqs]]; [| |cbn [length] in L; lia].
  - rewrite (G_none _ _ _ R1 Gm). split; [cbn [length]; lia|reflexivity].
  - pose proof (G_single _ _ _ Gm S1) as S2. destruct Gm as (H1 & H2 & H3). split; [lia|].
    unfold outputs. cbn [length seq map]. rewrite harvest_gots; [|exact S2|rewrite H1; exact F1].
    rewrite H2, G1. reflexivity.
Qed.

Section Blocks.
Context (E : env) (f : list byte) (t : sty).
Notation c := (cut E f).
(** What a block read gives to at most one request. *)
Definition one_got (reqs : list req) (m : list (carrier t)) : list (list (carrier t)) := match reqs with [] => [] | _ => [m] end.
Definition room_for (reqs : list req) : nat := match reqs with [] => 0 | q :: _ => rq_room q end.

Lemma block_spec b reqs (skips : bool) got r : (length reqs <= 1)%nat ->
  (if skips then block_read_skips E f t b reqs else block_read E f t b reqs) = (got, r) ->
  exists m, got = one_got reqs m /\ (length m <= room_for reqs)%nat
    /\ (forall n, r = Ok n -> n = lenN m).
Proof.
  intros L H. assert (Bad : map (fun _ : req => @nil (carrier t)) reqs = one_got reqs []).
  { destruct reqs as [|q [|q2 reqs]]; [reflexivity|reflexivity|cbn [length] in L; lia]. }
  assert (H' : match build_record_plan t (b_chans b) reqs with
               | Ok es => exists es', got = outputs reqs es' /\
                   (match b_layout b with
                    | Contigious => if skips then contig_read_skips E f t (b_order b) (b_start b) (b_len b) es (map rq_skip reqs)
                                    else contig_read_from E f t (b_order b) (b_start b) (b_len b) es 0
                    | Interleaved => inter_read E f t (b_order b) (b_start b) (b_len b) (if skips then zip_skips (map rq_skip reqs) es else es)
                    end) = (es', r)
               | q => got = map (fun _ => []) reqs /\ r = recast q
               end).
  { destruct skips.
    - unfold block_read_skips in H. cbv zeta in H. destruct (build_record_plan t (b_chans b) reqs) as [es|y|y|].
      2-4: injection H as <- <-; split; reflexivity.
      destruct (match b_layout b with Contigious => _ | Interleaved => _ end) as [es' r'] eqn:Q.
      injection H as <- <-. exists es'. split; reflexivity.
    - unfold block_read in H. destruct (build_record_plan t (b_chans b) reqs) as [es|y|y|].
      2-4: injection H as <- <-; split; reflexivity.
      destruct (match b_layout b with Contigious => _ | Interleaved => _ end) as [es' r'] eqn:Q.
      injection H as <- <-. exists es'. split; reflexivity. }
  clear H. destruct (build_record_plan t (b_chans b) reqs) as [es|y|y|] eqn:Bp.
  2-4: destruct H' as [-> ->]; exists []; rewrite Bad; split; [reflexivity|]; split; [cbn [length]; lia|discriminate].
  destruct H' as [es' [-> H']]. pose proof (plan_one _ _ _ _ L Bp) as Pl. pose proof (proj1 Pl) as Sg.
  assert (K : exists m, G es es' m /\ forall n, r = Ok n -> n = lenN m).
  { destruct (b_layout b).
    - destruct skips.
      + pose proof (G_zip es (map rq_skip reqs)) as G0. apply inter_spec in H'; [|exact (G_single _ _ _ G0 Sg)].
        destruct H' as [m [G1 Q]]. exists m. split; [exact (G_trans _ _ _ _ _ G0 G1)|exact Q].
      + exact (inter_spec E f t _ _ _ _ _ _ Sg H').
    - destruct skips; [exact (skips_spec E f t _ _ _ _ _ _ _ Sg H')|exact (from_spec E f t _ _ _ _ _ _ _ Sg H')]. }
  destruct K as [m [Gm Q]]. destruct (outputs_one _ _ _ _ _ L Pl Gm) as [O1 O2]. exists m.
  split; [exact O2|]. split; [exact O1|exact Q].
Qed.
Lemma cut_block b reqs (skips : bool) w got r : (length reqs <= 1)%nat ->
  c (if skips then block_read_skips_p E t b reqs else block_read_p E t b reqs) w (got, r) ->
  exists m rest, got = one_got reqs m
    /\ fst (if skips then block_read_skips E f t b reqs else block_read E f t b reqs) = one_got reqs (m ++ rest)
    /\ (length (m ++ rest) <= room_for reqs)%nat.
Proof.
  intros L H. destruct (@build_record_plan (carrier t) t (b_chans b) reqs) as [es|y|y|] eqn:Bp.
  2-4: exfalso; destruct skips; [unfold block_read_skips_p in H|unfold block_read_p in H]; cbv zeta in H; rewrite Bp in H;
       destruct (cut_ret _ _ _ _ _ _ H).
  pose proof (plan_one _ _ _ _ L Bp) as Pl. pose proof (proj1 Pl) as Sg.
  assert (K : exists es' m rest, G es es' m /\ got = outputs reqs es'
    /\ exists esp, G es esp (m ++ rest)
      /\ fst (if skips then block_read_skips E f t b reqs else block_read E f t b reqs) = outputs reqs esp).
  { destruct skips; [unfold block_read_skips_p in H; unfold block_read_skips|unfold block_read_p in H; unfold block_read];
      cbv zeta in H |- *; rewrite Bp in H |- *; apply cut_bind in H;
      (destruct H as [[[es' y] [C Q]]|[a [w1 [R C]]]]; [|destruct (cut_ret _ _ _ _ _ _ C)]);
      cbn [fst snd] in Q; injection Q as <- _.
    - destruct (b_layout b).
      + pose proof (G_zip es (map rq_skip reqs)) as G0. apply cut_inter in C; [|exact (G_single _ _ _ G0 Sg)].
        destruct C as (m & rest & X1 & X2). exists es', m, rest. split; [exact (G_trans _ _ _ _ _ G0 X1)|]. split; [reflexivity|].
        destruct (inter_read E f t _ _ _ _) as [esp rp]. exists esp. split; [exact (G_trans _ _ _ _ _ G0 X2)|reflexivity].
      + apply cut_skips in C; [|exact Sg]. destruct C as (m & rest & X1 & X2). exists es', m, rest. split; [exact X1|]. split; [reflexivity|].
        destruct (contig_read_skips E f t _ _ _ _ _) as [esp rp]. exists esp. split; [exact X2|reflexivity].
    - destruct (b_layout b).
      + apply cut_inter in C; [|exact Sg].
        destruct C as (m & rest & X1 & X2). exists es', m, rest. split; [exact X1|]. split; [reflexivity|].
        destruct (inter_read E f t _ _ _ _) as [esp rp]. exists esp. split; [exact X2|reflexivity].
      + apply cut_from in C; [|exact Sg]. destruct C as (m & rest & X1 & X2). exists es', m, rest. split; [exact X1|]. split; [reflexivity|].
        destruct (contig_read_from E f t _ _ _ _ _) as [esp rp]. exists esp. split; [exact X2|reflexivity]. }
  destruct K as (es' & m & rest & X1 & -> & esp & X2 & ->). exists m, rest.
  destruct (outputs_one _ _ _ _ _ L Pl X1) as [_ O1]. destruct (outputs_one _ _ _ _ _ L Pl X2) as [O2 O3].
  split; [exact O1|]. split; [exact O3|exact O2].
Qed.

(** ** A plan for one channel *)
Lemma splice_nil A (o : list A) p : splice o p [] = o.
Proof. unfold splice. cbn [length app]. rewrite Nat.add_0_r. apply firstn_skipn. Qed.
Lemma splice_splice A (o : list A) p v1 v2 : p + lenN v1 <= lenN o ->
  splice (splice o p v1) (p + lenN v1) v2 = splice o p (v1 ++ v2).
Proof.
  intros L. unfold splice. unfold lenN in L.
  replace (N.to_nat (p + lenN v1)) with (N.to_nat p + length v1)%nat by (unfold lenN; lia).
  assert (Lp : length (firstn (N.to_nat p) o) = N.to_nat p) by (apply firstn_length_le; lia).
  replace (firstn (N.to_nat p + length v1) (firstn (N.to_nat p) o ++ v1 ++ skipn (N.to_nat p + length v1) o))
    with (firstn (N.to_nat p) o ++ v1).
  2: { rewrite app_assoc, firstn_app, app_length, Lp, Nat.sub_diag. cbn [firstn]. rewrite app_nil_r.
       rewrite (@firstn_all2 A _ (firstn (N.to_nat p) o ++ v1)); [reflexivity|].
       rewrite app_length, Lp. lia. }
  replace (skipn (N.to_nat p + length v1 + length v2) (firstn (N.to_nat p) o ++ v1 ++ skipn (N.to_nat p + length v1) o))
    with (skipn (N.to_nat p + length (v1 ++ v2)) o).
  2: { rewrite app_assoc, skipn_app, !app_length, Lp. rewrite (@skipn_all2 A _ (firstn (N.to_nat p) o ++ v1)) by (rewrite app_length, Lp; lia).
       cbn [app]. rewrite skipn_skipn. f_equal. lia. }
  rewrite <- !app_assoc. reflexivity.
Qed.
Lemma splice_len A (o : list A) p v : p + lenN v <= lenN o -> length (splice o p v) = length o.
Proof.
  intros L. unfold lenN in L. unfold splice. rewrite !app_length, firstn_length, skipn_length. lia.
Qed.
Lemma requests_one p pr : (length (block_requests [p] [pr]) <= 1)%nat
  /\ room_for (block_requests [p] [pr]) = match block_requests [p] [pr] with [] => 0%nat | _ => N.to_nat (pr_target pr - pr_read pr) end.
Proof.
  cbn [block_requests]. destruct p as [[i s]|]; [destruct (complete pr)|]; cbn [length room_for rq_room]; split; try lia; reflexivity.
Qed.
Lemma store_one p pr (o : list (carrier t)) m :
  store [p] [pr] [o] (one_got (block_requests [p] [pr]) m)
  = [match block_requests [p] [pr] with [] => o | _ => splice o (pr_read pr) m end].
Proof.
  cbn [block_requests store]. destruct p as [[i s]|]; [|reflexivity]. destruct (complete pr); reflexivity.
Qed.
Lemma advance_one p pr n (m : list (carrier t)) : n = lenN m ->
  (length m <= room_for (block_requests [p] [pr]))%nat ->
  advance [p] n [pr] = [mkPr (pr_read pr + lenN m) (pr_target pr)].
Proof.
  intros -> L. cbn [advance]. destruct p as [[i s]|]; [reflexivity|]. cbn [block_requests room_for] in L.
  destruct m; [|cbn [length] in L; lia]. rewrite lenN_nil, N.add_0_r. destruct pr; reflexivity.
Qed.

Lemma execute_one ix : forall plan pr o outs r, Forall (fun br => length (br_chans br) = 1%nat) plan ->
  pr_target pr = lenN o -> pr_read pr <= lenN o ->
  execute E f t ix plan [pr] [o] = (outs, r) ->
  exists v, pr_read pr + lenN v <= lenN o /\ outs = [splice o (pr_read pr) v].
Proof.
  induction plan as [|br rest IH]; intros pr o outs r F T Pr H; cbn [execute] in H.
  - injection H as <- _. exists []. rewrite splice_nil, lenN_nil. split; [lia|reflexivity].
  - apply Forall_cons_iff in F. destruct F as [F1 F]. destruct (br_chans br) as [|p [|? ?]] eqn:Bc; try discriminate F1.
    destruct (get_data_block ix (br_block br)) as [b|].
    2: { injection H as <- _. exists []. rewrite splice_nil, lenN_nil. split; [lia|reflexivity]. }
    cbv zeta in H. destruct (requests_one p pr) as [R1 R2].
    destruct (if any_skip [p] then _ else _) as [got y] eqn:B in H.
    destruct (block_spec b _ (any_skip [p]) _ _ R1 B) as (m & -> & Lm & Q). rewrite store_one in H.
    assert (Lm' : pr_read pr + lenN m <= lenN o).
    { rewrite R2 in Lm. destruct (block_requests [p] [pr]); unfold lenN in *; lia. }
    assert (St : (match block_requests [p] [pr] with [] => o | _ => splice o (pr_read pr) m end) = splice o (pr_read pr) m).
    { destruct (block_requests [p] [pr]); [|reflexivity]. cbn [room_for] in Lm. destruct m; [|cbn [length] in Lm; lia].
      symmetry. apply splice_nil. }
    rewrite St in H. destruct y as [n|y|y|].
    2-4: injection H as <- _; exists m; split; [exact Lm'|reflexivity].
    rewrite (advance_one _ _ _ _ (Q n eq_refl) Lm) in H.
    destruct (forallb complete _).
    + injection H as <- _. exists m. split; [exact Lm'|reflexivity].
    + pose proof (splice_len _ _ _ _ Lm') as Sl. assert (Sn : lenN (splice o (pr_read pr) m) = lenN o) by (unfold lenN; now rewrite Sl).
      apply IH in H; [|exact F|cbn [pr_target]; lia|cbn [pr_read]; lia]. cbn [pr_read] in H. destruct H as [v [Lv ->]].
      exists (m ++ v). rewrite lenN_app. split; [lia|]. now rewrite splice_splice.
Qed.
Lemma cut_execute ix : forall plan pr o w outs r, Forall (fun br => length (br_chans br) = 1%nat) plan ->
  pr_target pr = lenN o -> pr_read pr <= lenN o ->
  c (execute_p E t ix plan [pr] [o]) w (outs, r) ->
  exists v rest, pr_read pr + lenN (v ++ rest) <= lenN o /\ outs = [splice o (pr_read pr) v]
    /\ fst (execute E f t ix plan [pr] [o]) = [splice o (pr_read pr) (v ++ rest)].
Proof.
  induction plan as [|br rest IH]; intros pr o w outs r F T Pr H; cbn [execute_p] in H; [destruct (cut_ret _ _ _ _ _ _ H)|].
  apply Forall_cons_iff in F. destruct F as [F1 F]. destruct (br_chans br) as [|p [|? ?]] eqn:Bc; try discriminate F1.
  cbn [execute]. rewrite Bc. destruct (get_data_block ix (br_block br)) as [b|]; [|destruct (cut_ret _ _ _ _ _ _ H)].
  cbv zeta in *. destruct (requests_one p pr) as [R1 R2].
  destruct (if any_skip [p] then block_read_skips E f t b _ else _) as [gp y] eqn:B.
  destruct (block_spec b _ (any_skip [p]) _ _ R1 B) as (m & Gp & Lm & Q).
  assert (Fit : forall m : list (carrier t), (length m <= room_for (block_requests [p] [pr]))%nat -> pr_read pr + lenN m <= lenN o).
  { intros m' L'. rewrite R2 in L'. destruct (block_requests [p] [pr]); unfold lenN in *; lia. }
  assert (Sto : forall m : list (carrier t), (length m <= room_for (block_requests [p] [pr]))%nat ->
      store [p] [pr] [o] (one_got (block_requests [p] [pr]) m) = [splice o (pr_read pr) m]).
  { intros m' L'. rewrite store_one. destruct (block_requests [p] [pr]); [|reflexivity]. cbn [room_for] in L'.
    destruct m'; [|cbn [length] in L'; lia]. now rewrite splice_nil. }
  (* the rest of the faultless run only adds *)
  assert (Later : forall m : list (carrier t), (length m <= room_for (block_requests [p] [pr]))%nat -> (forall n, y = Ok n -> n = lenN m) ->
     exists m', pr_read pr + lenN (m ++ m') <= lenN o /\
     fst (match y with
          | Ok n => if forallb complete (advance [p] n [pr]) then (store [p] [pr] [o] (one_got (block_requests [p] [pr]) m), Ok tt)
                    else execute E f t ix rest (advance [p] n [pr]) (store [p] [pr] [o] (one_got (block_requests [p] [pr]) m))
          | q => (store [p] [pr] [o] (one_got (block_requests [p] [pr]) m), recast q)
          end) = [splice o (pr_read pr) (m ++ m')]).
  { intros m' L' Q'. rewrite (Sto m' L'). pose proof (Fit m' L') as Ft. destruct y as [n|y|y|].
    2-4: exists []; rewrite app_nil_r; split; [exact Ft|reflexivity].
    rewrite (advance_one _ _ _ _ (Q' n eq_refl) L'). destruct (forallb complete _); [exists []; rewrite app_nil_r; split; [exact Ft|reflexivity]|].
    destruct (execute E f t ix rest _ _) as [outs2 r2] eqn:Ex. pose proof (splice_len _ _ _ _ Ft) as Sl.
    assert (Sn : lenN (splice o (pr_read pr) m') = lenN o) by (unfold lenN; now rewrite Sl).
    apply execute_one in Ex; [|exact F|cbn [pr_target]; lia|cbn [pr_read]; lia]. cbn [pr_read] in Ex.
    destruct Ex as [v [Lv ->]]. exists v. rewrite lenN_app. split; [lia|]. cbn [fst]. now rewrite splice_splice. }
  apply cut_bind in H. destruct H as [[[got z] [C Qz]]|[[got z] [w1 [R C]]]].
  - assert (Gu : z = Err (EIo DeviceError)).
    { destruct (any_skip [p]); [exact (stops_cut _ _ _ _ _ (st_block_skips E t b _) _ _ C)|exact (stops_cut _ _ _ _ _ (st_block E t b _) _ _ C)]. }
    subst z. cbn [recast] in Qz. injection Qz as <- _. destruct (cut_block b _ (any_skip [p]) _ _ _ R1 C) as (v & r1 & -> & G2 & L2).
    rewrite B in G2. cbn [fst] in G2.
    assert (Lv : (length v <= room_for (block_requests [p] [pr]))%nat) by (rewrite app_length in L2; lia).
    destruct (Later (v ++ r1) L2) as [m' [L3 Ex]].
    { intros n Z. rewrite (Q n Z). rewrite Gp in G2. unfold one_got in G2. destruct (block_requests [p] [pr]) as [|q qs]; [|congruence].
      cbn [room_for] in Lm, L2. destruct m; [|cbn [length] in Lm; lia]. destruct (v ++ r1); [reflexivity|cbn [length] in L2; lia]. }
    exists v, (r1 ++ m'). rewrite app_assoc. split; [exact L3|]. split; [exact (Sto v Lv)|]. rewrite G2. exact Ex.
  - assert (Pu : ends (if any_skip [p] then block_read_skips E f t b (block_requests [p] [pr]) else block_read E f t b (block_requests [p] [pr]))
                   (run_pure E f (if any_skip [p] then block_read_skips_p E t b (block_requests [p] [pr]) else block_read_p E t b (block_requests [p] [pr])) w))
      by (destruct (any_skip [p]); [apply block_skips_pure|apply block_pure]).
    destruct Pu as [w2 Pu]. rewrite Pu, B in R. injection R as <- <- <-. subst gp.
    rewrite (Sto m Lm) in C |- *. pose proof (Fit m Lm) as Ft. destruct y as [n|y|y|]; try destruct (cut_ret _ _ _ _ _ _ C).
    rewrite (advance_one _ _ _ _ (Q n eq_refl) Lm) in C |- *. destruct (forallb complete _); [destruct (cut_ret _ _ _ _ _ _ C)|].
    pose proof (splice_len _ _ _ _ Ft) as Sl.
    assert (Sn : lenN (splice o (pr_read pr) m) = lenN o) by (unfold lenN; now rewrite Sl).
    apply IH in C; [|exact F|cbn [pr_target]; lia|cbn [pr_read]; lia]. cbn [pr_read] in C.
    destruct C as (v & r1 & Lv & -> & ->). exists (m ++ v), r1. rewrite <- app_assoc, !lenN_app in *.
    split; [lia|]. rewrite !splice_splice by exact Ft. split; reflexivity.
Qed.
End Blocks.
