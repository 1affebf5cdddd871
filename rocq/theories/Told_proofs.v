(** * Samples with different numbers can be told apart *)
From Coq Require Import Sorting.Sorted Permutation.
From Verif Require Import Base Lib DataTypes MetaData DataBlock Index RawData ChannelReader TdmsFile
  SpecIndex SpecSession SpecRead SpecMulti SpecSource
  Index_proofs Block_proofs Plan_proofs Read_proofs Session_proofs History_proofs Deliver_proofs Source_proofs Thm_Index Thm_Read Thm_Reopen Thm_Tidy.

Lemma session_data E H F : session E H F -> Forall has_data H.
Proof.
  intros Se. destruct (session_accepted _ _ _ Se) as [A _].
  clear -A. induction A as [|H ix s ix' n A IH Ad]; [constructor|]. apply Forall_app. split; [exact IH|]. constructor; [|constructor].
  intros T. destruct (accepted_described _ _ _ A) as [Iv _]. destruct (add_segment_spec E ix s Iv) as [ix2 [r [E1 [_ R]]]].
  rewrite Ad in E1. injection E1 as <- <-. destruct R as [_ [_ [_ [_ [_ [_ [_ R]]]]]]]. rewrite T in R. apply R.
Qed.

Lemma blocks_behind H : forall pre b, In b (blocks_from pre H) -> offset pre + 28 <= b_start b.
Proof.
  induction H as [|s H IH]; intros pre b; cbn [blocks_from]; [intros []|]. intros Hin. apply in_app_or in Hin.
  destruct Hin as [Hin|Hin].
  - destruct (toc_raw (sg_toc s)); [|destruct Hin]. destruct Hin as [<-|[]]. cbn. lia.
  - apply IH in Hin. rewrite offset_snoc in Hin. lia.
Qed.
Lemma blocks_ordered H : Forall has_data H -> forall pre j j' b b', (j < j')%nat ->
  nth_error (blocks_from pre H) j = Some b -> nth_error (blocks_from pre H) j' = Some b' -> b_start b + b_len b <= b_start b'.
Proof.
  induction 1 as [|s H Hs Hf IH]; intros pre j j' b b' Lt Hb Hb'; cbn [blocks_from] in *; [now destruct j|].
  unfold has_data in Hs. destruct (toc_raw (sg_toc s)); cbn [app] in *; [|now apply (IH (pre ++ [s]) j j')].
  specialize (Hs eq_refl). destruct j' as [|j']; [lia|]. cbn [nth_error] in Hb'. destruct j as [|j].
  - cbn [nth_error] in Hb. injection Hb as <-. apply nth_error_In, blocks_behind in Hb'. rewrite offset_snoc in Hb'. cbn. lia.
  - cbn [nth_error] in Hb. apply (IH (pre ++ [s]) j j'); auto. lia.
Qed.

(** Location and position there of a sample. *)
Fixpoint place_of (ls : list loc) (i : N) : option (loc * N) :=
  match ls with
  | [] => None
  | l :: r => if i <? l_n l then Some (l, i) else place_of r (i - l_n l)
  end.
Lemma place_some ls : forall i, i < fold_right (fun l a => l_n l + a) 0 ls -> exists l a, place_of ls i = Some (l, a).
Proof.
  induction ls as [|l ls IH]; intros i Hi; cbn [fold_right place_of] in *; [lia|].
  destruct (i <? l_n l) eqn:Q; [eauto|]. apply IH. lia.
Qed.
Lemma place_in ls : forall i l a, place_of ls i = Some (l, a) -> In l ls /\ a < l_n l.
Proof.
  induction ls as [|x ls IH]; intros i l a; cbn [place_of]; [discriminate|]. destruct (i <? l_n x) eqn:Q.
  - intros X. injection X as -> ->. split; [now left|lia].
  - intros X. apply IH in X. destruct X. split; [now right|assumption].
Qed.
Lemma place_sample f t bs ls : Forall (located bs) ls -> forall i l a, place_of ls i = Some (l, a) ->
  exists b, nth_error bs (l_block l) = Some b /\ nth_error (samples_at f t bs ls) (N.to_nat i) = Some (sample f t b (l_chan l) a).
Proof.
  unfold samples_at. induction 1 as [|x ls Hx Hl IH]; intros i l a; cbn [place_of map concat]; [discriminate|].
  destruct (located_samples f t bs x Hx) as [_ Lx]. destruct (i <? l_n x) eqn:Q.
  - intros X. injection X as -> ->. destruct Hx as [b [m [Hb _]]]. exists b. split; [exact Hb|].
    rewrite nth_error_app1 by lia. unfold loc_samples. rewrite Hb. unfold block_samples. rewrite nth_error_map.
    rewrite (nth_error_nth' _ 0%nat) by (rewrite seq_length; lia). rewrite seq_nth by lia. cbn [option_map].
    now rewrite Nat.add_0_l, N2Nat.id.
  - intros X. destruct (IH _ _ _ X) as [b [Hb Hs]]. exists b. split; [exact Hb|]. rewrite nth_error_app2 by lia.
    rewrite <- Hs. f_equal. lia.
Qed.
Lemma place_apart ls : ascending ls -> forall i k l a l' a', i <> k -> place_of ls i = Some (l, a) -> place_of ls k = Some (l', a') ->
  l_block l <> l_block l' \/ (l = l' /\ a <> a').
Proof.
  unfold ascending. induction ls as [|x ls IH]; intros Asc i k l a l' a' Ne; cbn [place_of]; [discriminate|].
  cbn [map] in Asc. inversion Asc as [|y z Asc' Hx]; subst y z. rewrite Forall_map, Forall_forall in Hx.
  destruct (i <? l_n x) eqn:Q, (k <? l_n x) eqn:Q'; intros X Y.
  - injection X as -> ->. injection Y as -> ->. right. auto.
  - injection X as -> ->. apply place_in in Y. specialize (Hx _ (proj1 Y)). left. lia.
  - injection Y as -> ->. apply place_in in X. specialize (Hx _ (proj1 X)). left. lia.
  - eapply (IH Asc' (i - l_n x) (k - l_n x)); eauto. lia.
Qed.

(** ** A file that tells two samples apart *)
Lemma slice_app_r (a b : list byte) x n : lenN a <= x -> slice (a ++ b) x n = slice b (x - lenN a) n.
Proof.
  intros L. unfold slice, lenN in *. rewrite skipn_app. rewrite (skipn_all2 a) by lia. cbn [app]. repeat f_equal. lia.
Qed.
Lemma slice_app_l (a b : list byte) x n : x + n <= lenN a -> slice (a ++ b) x n = slice a x n.
Proof.
  intros L. unfold slice, lenN in *. rewrite skipn_app, firstn_app, skipn_length.
  replace (N.to_nat n - (length a - N.to_nat x))%nat with 0%nat by lia. cbn [firstn]. now rewrite app_nil_r.
Qed.
Lemma slice_repeat c m x n : x + n <= N.of_nat m -> slice (repeat c m) x n = repeat c (N.to_nat n).
Proof.
  intros L. unfold slice.
  assert (S1 : forall k j, skipn j (repeat c k) = repeat c (k - j)).
  { induction k as [|k IH]; intros [|j]; cbn [skipn repeat Nat.sub]; auto. }
  assert (F1 : forall k j, (j <= k)%nat -> firstn j (repeat c k) = repeat c j).
  { induction k as [|k IH]; intros [|j] Lj; cbn [firstn repeat]; try lia; auto. rewrite IH by lia. reflexivity. }
  rewrite S1. apply F1. lia.
Qed.
Definition spot (len a w : N) : list byte :=
  repeat x00 (N.to_nat a) ++ repeat x01 (N.to_nat w) ++ repeat x00 (N.to_nat (len - a - w)).
Lemma spot_length len a w : a + w <= len -> lenN (spot len a w) = len.
Proof. intros L. unfold spot, lenN. rewrite !app_length, !repeat_length. lia. Qed.
Lemma spot_there len a w : slice (spot len a w) a w = repeat x01 (N.to_nat w).
Proof.
  unfold spot. rewrite slice_app_r by (unfold lenN; rewrite repeat_length; lia).
  rewrite slice_app_l by (unfold lenN; rewrite !repeat_length; lia). apply slice_repeat. unfold lenN. rewrite repeat_length. lia.
Qed.
Lemma spot_elsewhere len a w x n : a + w <= len -> x + n <= len -> x + n <= a \/ a + w <= x -> slice (spot len a w) x n = repeat x00 (N.to_nat n).
Proof.
  intros L Lx [K|K]; unfold spot.
  - rewrite slice_app_l by (unfold lenN; rewrite repeat_length; lia). apply slice_repeat. lia.
  - rewrite slice_app_r by (unfold lenN; rewrite repeat_length; lia).
    rewrite slice_app_r by (unfold lenN; rewrite !repeat_length; lia). apply slice_repeat. unfold lenN. rewrite !repeat_length. lia.
Qed.
Lemma elem_apart t d d' e e' : fixed t -> In d (stored_as t) -> In d' (stored_as t) ->
  elem e t (repeat x01 (N.to_nat (width d))) <> elem e' t (repeat x00 (N.to_nat (width d'))).
Proof.
  intros [F1 [F2 F3]] Hd Hd'. destruct t; try congruence; cbn [stored_as In] in Hd, Hd';
    repeat (destruct Hd as [<-|Hd]; [|try contradiction]); repeat (destruct Hd' as [<-|Hd']; [|try contradiction]);
    destruct e, e'; vm_compute; discriminate.
Qed.

Lemma told_apart E H F t p i k : session E H F -> fixed t -> mentioned (all_objs H) p -> stored (tf_bytes F) t H p ->
  i <> k -> i < length_after H p -> k < length_after H p ->
  exists f, length f = length (tf_bytes F)
    /\ nth_error (samples_after f t H p) (N.to_nat i) <> nth_error (samples_after f t H p) (N.to_nat k).
Proof.
  intros Se Fx M St Ne Li Lk. destruct (session_locs E H F p Se M) as [_ Asc].
  unfold length_after in Li, Lk. rewrite <- (locs_sum p H []) in Li, Lk. fold (locs_after H p) in Li, Lk.
  destruct (place_some _ _ Li) as [l [a Pi]]. destruct (place_some _ _ Lk) as [l' [a' Pk]].
  pose proof (place_apart _ Asc _ _ _ _ _ _ Ne Pi Pk) as Ap.
  destruct (place_in _ _ _ _ Pi) as [Hl La]. destruct (place_in _ _ _ _ Pk) as [Hl' La'].
  unfold stored in St. rewrite Forall_forall in St.
  destruct (St l Hl) as [b [m [Hb [Hw [Hm Ty]]]]]. destruct (St l' Hl') as [b' [m' [Hb' [Hw' [Hm' Ty']]]]].
  pose proof (locs_located H p) as Lo. assert (Lo' := Lo). rewrite Forall_forall in Lo'.
  destruct (Lo' l Hl) as [b1 [m1 [Q1 [Q2 Ln]]]]. rewrite Hb in Q1. injection Q1 as <-. rewrite Hm in Q2. injection Q2 as <-.
  destruct (Lo' l' Hl') as [b1 [m1 [Q1 [Q2 Ln']]]]. rewrite Hb' in Q1. injection Q1 as <-. rewrite Hm' in Q2. injection Q2 as <-.
  destruct (C35_inside _ b (l_chan l) a m Hw Hm ltac:(lia)) as [I1 [I2 I3]].
  destruct (C35_inside _ b' (l_chan l') a' m' Hw' Hm' ltac:(lia)) as [J1 [J2 J3]].
  set (x := sample_addr b (l_chan l) a) in *. set (y := sample_addr b' (l_chan l') a') in *.
  assert (Dj : y + width (rm_type m') <= x \/ x + width (rm_type m) <= y).
  { destruct Ap as [Nb|[-> Na]].
    - pose proof (session_data E H F Se) as Hd. destruct (Nat.lt_trichotomy (l_block l) (l_block l')) as [K|[K|K]]; [|congruence|].
      + pose proof (blocks_ordered H Hd [] _ _ _ _ K Hb Hb'). right. lia.
      + pose proof (blocks_ordered H Hd [] _ _ _ _ K Hb' Hb). left. lia.
    - rewrite Hb in Hb'. injection Hb' as <-. rewrite Hm in Hm'. injection Hm' as <-.
      destruct (C35_disjoint _ b (l_chan l') a m (l_chan l') a' m Hw Hm Hm ltac:(congruence)) as [K|K]; fold x y in K; [right|left]; exact K. }
  exists (spot (lenN (tf_bytes F)) x (width (rm_type m))). split.
  { pose proof (spot_length (lenN (tf_bytes F)) x (width (rm_type m)) I3) as L. unfold lenN at 1 3 in L. lia. }
  unfold samples_after.
  destruct (place_sample (spot (lenN (tf_bytes F)) x (width (rm_type m))) t _ _ Lo _ _ _ Pi) as [b2 [B2 ->]].
  destruct (place_sample (spot (lenN (tf_bytes F)) x (width (rm_type m))) t _ _ Lo _ _ _ Pk) as [b3 [B3 ->]].
  rewrite Hb in B2. injection B2 as <-. rewrite Hb' in B3. injection B3 as <-.
  unfold sample. rewrite Hm, Hm'. fold x y. rewrite spot_there, spot_elsewhere by assumption.
  intros X. injection X as X. revert X. now apply elem_apart.
Qed.

Lemma another t (x : carrier t) : fixed t -> exists y, y <> x.
Proof.
  intros [F1 [F2 F3]]. destruct t; try congruence; cbn [carrier] in *;
  lazymatch type of x with
  | bool => exists (negb x); now destruct x
  | Z => exists (x + 1)%Z; lia
  | N => exists (x + 1); lia
  | (N * N)%type => exists (fst x + 1, snd x); destruct x as [u v]; cbn [fst snd]; intros Q; injection Q; lia
  end.
Qed.

(** ** Sources can be told apart *)
Definition within (total : N) (src : list (option N)) : Prop := forall i, In (Some i) src -> i < total.

Lemma filled_exists {V} src (o xs : list V) : length o = length src -> within (lenN xs) src -> exists o', filled_by src o xs o'.
Proof.
  revert o. induction src as [|s src IH]; intros [|x o] L W; try discriminate.
  - exists []. repeat split. intros [|a] s; discriminate.
  - destruct (IH o) as [o' [A [B C]]]; [cbn [length] in L; lia|intros i Hi; apply W; now right|].
    assert (Y : exists y, match s with Some i => nth_error xs (N.to_nat i) | None => Some x end = Some y).
    { destruct s as [i|]; [|eauto]. specialize (W i (or_introl eq_refl)). destruct (nth_error xs (N.to_nat i)) eqn:Q; [eauto|].
      apply nth_error_None in Q. unfold lenN in W. lia. }
    destruct Y as [y Hy]. exists (y :: o'). split; [exact L|]. split; [cbn [length]; lia|].
    intros [|a] s' Hs; cbn [nth_error] in *; [injection Hs as <-; destruct s; auto|]. now apply C.
Qed.
Lemma filled_det {V} src (o xs o1 o2 : list V) : filled_by src o xs o1 -> filled_by src o xs o2 -> o1 = o2.
Proof.
  intros [A [B C]] [_ [B' C']]. apply nth_ext_error. intros a. destruct (nth_error src a) as [s|] eqn:Q.
  - now rewrite (C a s Q), (C' a s Q).
  - apply nth_error_None in Q. rewrite (proj2 (nth_error_None o1 a)), (proj2 (nth_error_None o2 a)) by lia. reflexivity.
Qed.

Lemma sources_told E H F t p src1 src2 : session E H F -> fixed t -> mentioned (all_objs H) p -> stored (tf_bytes F) t H p ->
  length src1 = length src2 -> within (length_after H p) src1 -> within (length_after H p) src2 -> src1 <> src2 ->
  exists f o, length f = length (tf_bytes F) /\ length o = length src1
    /\ forall o1 o2, filled_by src1 o (samples_after f t H p) o1 -> filled_by src2 o (samples_after f t H p) o2 -> o1 <> o2.
Proof.
  intros Se Fx M St L W1 W2 Ne.
  assert (Ls : forall f, lenN (samples_after f t H p) = length_after H p).
  { intros f. rewrite samples_count. unfold length_after. apply (locs_sum p H []). }
  assert (D : exists a s1 s2, nth_error src1 a = Some s1 /\ nth_error src2 a = Some s2 /\ s1 <> s2).
  { clear -L Ne. revert src2 L Ne. induction src1 as [|s1 src1 IH]; intros [|s2 src2] L Ne; try discriminate; [congruence|].
    assert (De : {s1 = s2} + {s1 <> s2}) by (decide equality; apply N.eq_dec).
    destruct De as [->|De]; [|exists 0%nat, s1, s2; auto]. destruct (IH src2) as [a X]; [cbn [length] in L; lia|congruence|].
    exists (S a). exact X. }
  destruct D as [a [s1 [s2 [A1 [A2 Ds]]]]].
  assert (dflt : exists d : carrier t, True).
  { destruct Fx as [F1 [F2 F3]]. destruct t; try congruence; cbn [carrier];
    lazymatch goal with |- exists _ : ?T, _ => lazymatch T with bool => exists true | Z => exists 0%Z | N => exists 0 | _ => exists (0, 0) end end; exact Logic.I. }
  destruct dflt as [d _].
  pose proof (nth_some_lt _ _ _ A1) as La.
  assert (Same : forall i, i < length_after H p -> exists o x, length o = length src1 /\ nth_error o a = Some x
     /\ nth_error (samples_after (tf_bytes F) t H p) (N.to_nat i) <> Some x).
  { intros i Hi. destruct (nth_error (samples_after (tf_bytes F) t H p) (N.to_nat i)) as [v|] eqn:Q.
    - destruct (another t v Fx) as [y Hy]. exists (repeat y (length src1)), y. rewrite repeat_length, nth_repeat by exact La.
      split; [reflexivity|]. split; [reflexivity|]. intros X. injection X. congruence.
    - exists (repeat d (length src1)), d. rewrite repeat_length, nth_repeat by exact La. repeat split; congruence. }
  destruct s1 as [i|], s2 as [k|]; [| | |congruence].
  - destruct (told_apart E H F t p i k Se Fx M St) as [f [Lf Nf]]; [congruence|apply W1; eapply nth_error_In; eauto|apply W2; eapply nth_error_In; eauto|].
    exists f, (repeat d (length src1)). split; [exact Lf|]. split; [apply repeat_length|].
    intros o1 o2 [_ [_ C1]] [_ [_ C2]] <-. specialize (C1 a _ A1). specialize (C2 a _ A2). cbn in C1, C2. congruence.
  - destruct (Same i) as [o [x [Lo [Ox Nx]]]]; [apply W1; eapply nth_error_In; eauto|]. exists (tf_bytes F), o. split; [reflexivity|]. split; [exact Lo|].
    intros o1 o2 [_ [_ C1]] [_ [_ C2]] <-. specialize (C1 a _ A1). specialize (C2 a _ A2). cbn in C1, C2. congruence.
  - destruct (Same k) as [o [x [Lo [Ox Nx]]]]; [apply W2; eapply nth_error_In; eauto|]. exists (tf_bytes F), o. split; [reflexivity|]. split; [exact Lo|].
    intros o1 o2 [_ [_ C1]] [_ [_ C2]] <-. specialize (C1 a _ A1). specialize (C2 a _ A2). cbn in C1, C2. congruence.
Qed.
