(** * Contiguous blocks whose channels have different numbers of values *)
From Coq Require Import Sorting.Sorted.
From Verif Require Import Base Lib DataTypes MetaData DataBlock Index RawData ChannelReader TdmsFile
  SpecIndex SpecSession SpecRead SpecUneven Block_proofs Request_proofs Plan_proofs Read_proofs.

Section Loop.
Context (E : env) (f : list byte) (t : sty) (e : endian).
Hypothesis (Fx : sized t) (Ad : addressable E f).
Local Notation V := (carrier t).
Local Notation sz := (size_bytes t).

(** Length and room of the last entry that is read. *)
Fixpoint last2 (d : option (N * nat)) (es : list (entry V)) : option (N * nat) :=
  match es with
  | [] => d
  | x :: r => last2 (match en_plan x with PRead _ _ rm _ => Some (en_len x, rm) | PSkip _ => d end) r
  end.
Definition lim2 (d : option (N * nat)) (m : N) (s : N -> N) : N :=
  match d with Some (n, r) => N.min (N.of_nat r) (m * n - s n) | None => 0 end.

Lemma last2_room s es : (forall x, In x es -> forall o g r s', en_plan x = PRead o g r s' -> s' = s) ->
  forall d d', (match d' with Some (n, r) => d = Some (n, r, s) | None => d = None end) ->
  match last2 d' es with Some (n, r) => last_room t d es = Some (n, r, s) | None => last_room t d es = None end.
Proof.
  induction es as [|x es IH]; intros Hs d d' Hd; cbn [last2 last_room]; [destruct d'; exact Hd|].
  apply IH; auto.
  - intros y Hy. apply Hs. now right.
  - destruct (en_plan x) eqn:P; [exact Hd|]. now rewrite (Hs x (or_introl eq_refl) _ _ _ _ P).
Qed.
Lemma last2_exts step D k es : forall off es' d, (forall o x, In x es -> is_read t x = true -> length (D o x) = k (en_len x)) ->
  exts t step D off es es' ->
  last2 (option_map (fun nr => (fst nr, (snd nr - k (fst nr))%nat)) d) es'
  = option_map (fun nr => (fst nr, (snd nr - k (fst nr))%nat)) (last2 d es).
Proof.
  induction es as [|x es IH]; intros off [|x' es'] d HD H; try contradiction; [reflexivity|].
  destruct H as [A B]. cbn [last2].
  assert (HD' : forall o y, In y es -> is_read t y = true -> length (D o y) = k (en_len y)) by (intros; apply HD; [now right|assumption]).
  destruct A as [L A]. unfold is_read in HD. specialize (HD off x (or_introl eq_refl)).
  destruct (en_plan x) as [b|o g r s].
  - rewrite A. eapply IH; eauto.
  - destruct A as [s' A]. rewrite A, L. rewrite HD by reflexivity.
    change (Some (en_len x, (r - k (en_len x))%nat)) with (option_map (fun nr : N * nat => (fst nr, (snd nr - k (fst nr))%nat)) (Some (en_len x, r))).
    eapply IH; eauto.
Qed.
Lemma last2_skip s (es : list (entry V)) : forall d, last2 d (set_all_skips s es) = last2 d es.
Proof.
  unfold set_all_skips. induction es as [|x es IH]; intros d; cbn [map last2]; [reflexivity|].
  rewrite IH. unfold set_skip. destruct (en_plan x) eqn:P; cbn [en_plan]; [now rewrite P|reflexivity].
Qed.

Lemma contig_loop_gen step c q rm nr :
  (forall idx es, nreads t es = nr -> step idx es =
     if idx <? q then None else Some (set_all_skips (if idx =? q then rm else 0) es)) ->
  forall m idx es len pos,
  nreads t es = nr -> Forall (good_entry t) es -> total t es = c -> c < 2 ^ 63 ->
  pos + N.of_nat m * c <= lenN f ->
  let s := fun n => if idx <=? q then (q - idx) * n + N.min rm n else 0 in
  exists es', contig_loop E f t e step m idx es len pos = (es', Ok (len + lim2 (last2 None es) (N.of_nat m) s))
    /\ exts t (esz t) (fun off x => skipn (N.to_nat (s (en_len x))) (col f t e pos c (en_len x) m off x)) 0 es es'.
Proof.
  intros Hst. induction m as [|m IH]; intros idx es len pos Hnr G Ht Hc H s; cbn [contig_loop].
  - exists es. split.
    + do 2 f_equal. unfold lim2. destruct (last2 None es) as [[n r]|]; lia.
    + eapply exts_ext; [|apply exts_nil]. intros o x _. cbv beta. unfold col. cbn. now rewrite skipn_nil.
  - rewrite Hst by exact Hnr. destruct (idx <? q) eqn:Q.
    + unfold block_size. rewrite block_size_ok by (auto; lia). cbn [bind].
      replace (0 + total t es) with c by lia. rewrite as_i64_small by lia.
      rewrite (seek_inside E f Ad) by lia. rewrite N2Z.id.
      destruct (IH (idx + 1) es len (pos + c) Hnr G Ht Hc ltac:(lia)) as [es' [R X]].
      exists es'. rewrite R.
      set (s' := fun n => if idx + 1 <=? q then (q - (idx + 1)) * n + N.min rm n else 0) in *.
      assert (Es : forall n, s n = n + s' n).
      { intros n. unfold s, s'. replace (idx <=? q) with true by lia. replace (idx + 1 <=? q) with true by lia.
        replace (q - idx) with (1 + (q - (idx + 1))) by lia. lia. }
      assert (Ev : forall n, (if idx + 1 <=? q then (q - (idx + 1)) * n + N.min rm n else 0) = s' n) by reflexivity.
      clearbody s s'. split.
      * do 2 f_equal. f_equal. unfold lim2. destruct (last2 None es) as [[n r]|]; [|reflexivity]. rewrite Es. f_equal. lia.
      * eapply exts_ext; [|exact X]. intros o x _. cbv beta. rewrite col_S, skipn_app, Es.
        rewrite (skipn_all2 (run f t e _ _)) by (rewrite run_length; lia). rewrite run_length. cbn [app]. f_equal. rewrite Ev. lia.
    + set (sk := if idx =? q then rm else 0).
      assert (Es : forall n, s n = N.min sk n).
      { intros n. unfold s, sk. destruct (idx =? q) eqn:K.
        - replace (idx <=? q) with true by lia. replace (q - idx) with 0 by lia. lia.
        - replace (idx <=? q) with false by lia. lia. }
      set (es1 := set_all_skips sk es).
      pose proof (exts_skip t (esz t) sk es 0) as X1. fold es1 in X1.
      assert (G1 : Forall (good_entry t) es1) by (eapply exts_forall; [|exact X1|exact G]; intros vs x x' A; apply ext_wd in A; tauto).
      assert (T1 : total t es1 = c) by (rewrite (exts_total _ _ _ _ _ X1); exact Ht).
      destruct (read_sub_block_ok E f t e Fx Ad pos es1 0 0 None pos ltac:(lia) eq_refl G1 ltac:(lia)) as [es2 [R2 X2]].
      rewrite R2. rewrite T1.
      assert (Hnr2 : nreads t es2 = nr).
      { rewrite (exts_nreads _ _ _ _ _ _ X2), (exts_nreads _ _ _ _ _ _ X1). exact Hnr. }
      assert (G2 : Forall (good_entry t) es2) by (eapply exts_forall; [|exact X2|exact G1]; intros vs x x' A; apply ext_wd in A; tauto).
      assert (T2 : total t es2 = c) by (rewrite (exts_total _ _ _ _ _ X2); exact T1).
      destruct (IH (idx + 1) es2 (len + count_of (last_room t None es1) 0) (pos + c) Hnr2 G2 T2 Hc ltac:(lia)) as [es' [R X]].
      exists es'. rewrite R.
      set (s' := fun n => if idx + 1 <=? q then (q - (idx + 1)) * n + N.min rm n else 0) in *.
      assert (Es' : forall n, s' n = 0) by (intros n; unfold s'; replace (idx + 1 <=? q) with false by lia; reflexivity).
      assert (Ev : forall n, (if idx + 1 <=? q then (q - (idx + 1)) * n + N.min rm n else 0) = s' n) by reflexivity.
      clearbody s' s.
      assert (Dl : forall o x, In x es1 -> is_read t x = true -> length (sub_vals f t e pos o x) = N.to_nat (en_len x - sk)).
      { intros o x Hx Hr. unfold sub_vals, is_read in *. destruct (en_plan x) as [b|o' g r s0] eqn:P; [discriminate|].
        rewrite (set_all_entry t sk es x Hx _ _ _ _ P). rewrite skipn_length, run_length. lia. }
      pose proof (last2_exts (esz t) (sub_vals f t e pos) (fun n => N.to_nat (n - sk)) es1 0 es2 None Dl X2) as LR.
      cbn [option_map] in LR.
      pose proof (last2_room sk es1 (fun x Hx => set_all_entry t sk es x Hx) None None eq_refl) as LQ.
      rewrite (last2_skip sk es None : last2 None es1 = _) in *.
      split.
      * do 2 f_equal. rewrite LR. destruct (last2 None es) as [[n r]|]; cbn [option_map lim2 fst snd]; rewrite LQ; cbn [count_of].
        -- rewrite Es, Es'. lia.
        -- lia.
      * assert (X2' : exts t (esz t) (fun o x => skipn (N.to_nat sk) (run f t e (pos + o) (N.to_nat (en_len x)))) 0 es1 es2).
        { eapply exts_ext_read; [|exact X2]. intros o x Hx Hr. unfold sub_vals, is_read in *.
          destruct (en_plan x) as [b|o' g r s0] eqn:P; [discriminate|].
          now rewrite (set_all_entry t sk es x Hx _ _ _ _ P). }
        assert (X12 : exts t (esz t) (fun o x => [] ++ skipn (N.to_nat sk) (run f t e (pos + o) (N.to_nat (en_len x)))) 0 es es2).
        { eapply exts_app; [apply ext_len_stable| |exact X1|exact X2']. intros vs x x' off [A _]. now rewrite A. }
        eapply exts_ext. 2:{ eapply exts_app; [apply ext_len_stable| |exact X12|exact X]. intros vs x x' off [A _]. now rewrite A. }
        intros o x Hx. cbv beta. rewrite col_S. cbn [app]. rewrite Es, Ev, Es'. cbn [N.to_nat skipn].
        rewrite skipn_app, run_length. replace (N.to_nat (N.min sk (en_len x)) - N.to_nat (en_len x))%nat with 0%nat by lia.
        cbn [skipn]. f_equal. destruct (N.le_gt_cases sk (en_len x)) as [Le|Gt].
        -- f_equal. lia.
        -- rewrite !skipn_all2 by (rewrite run_length; lia). reflexivity.
Qed.

Lemma total_pos1 x0 es : 0 < en_len x0 -> good_entry t x0 -> 0 < total t (x0 :: es).
Proof.
  intros Hn G. unfold total. cbn [fold_right]. unfold esz, wd, good_entry in *. pose proof (size_bytes_pos t).
  destruct (en_plan x0); nia.
Qed.

Definition eff (n0 s n : N) : N := (s / n0) * n + N.min (s mod n0) n.

Lemma contig_from_gen start blen es s n0 m : (exists x0 r, es = x0 :: r /\ en_len x0 = n0) -> 0 < n0 -> Forall (good_entry t) es ->
  blen / total t es = N.of_nat m -> 0 < N.of_nat m -> start + N.of_nat m * total t es <= lenN f ->
  exists es', contig_read_from E f t e start blen es s = (es', Ok (lim2 (last2 None es) (N.of_nat m) (eff n0 s)))
    /\ exts t (esz t) (fun off x => skipn (N.to_nat (eff n0 s (en_len x))) (col f t e start (total t es) (en_len x) m off x)) 0 es es'.
Proof.
  intros [x0 [es0 [Ees Hx]]] Hn G Hb Hm H. destruct Ad as [A1 A2].
  assert (Tp : 0 < total t es) by (rewrite Ees in *; apply total_pos1; [lia|now inversion G]).
  assert (Tl : total t es <= N.of_nat m * total t es) by nia.
  unfold contig_read_from, seek_to. replace (start <=? seek_max E) with true by lia. cbn [bind].
  unfold block_size. rewrite block_size_ok by (auto; lia). cbn [bind].
  unfold udiv at 1. replace (0 + total t es =? 0) with false by lia. cbn [bind].
  replace (match es with [] => Panic PIndex
     | x :: _ => q <- udiv s (en_len x);; Ok (start, blen / (0 + total t es), q, s mod en_len x) end)
    with (Ok (start, N.of_nat m, s / n0, s mod n0)).
  2:{ rewrite Ees at 1. rewrite Hx. unfold udiv. replace (n0 =? 0) with false by lia. cbn [bind]. now rewrite N.add_0_l, Hb. }
  rewrite Nat2N.id.
  destruct (contig_loop_gen (fun idx es => if idx <? s / n0 then None
      else if idx =? s / n0 then Some (set_all_skips (s mod n0) es) else Some (set_all_skips 0 es))
      (total t es) (s / n0) (s mod n0) (nreads t es)
      ltac:(intros idx ys _; cbv beta; destruct (idx <? s / n0); [reflexivity|]; destruct (idx =? s / n0); reflexivity)
      m 0 es 0 start eq_refl G eq_refl ltac:(lia) ltac:(lia)) as [es' [R X]].
  assert (Es : forall n, (if 0 <=? s / n0 then (s / n0 - 0) * n + N.min (s mod n0) n else 0) = eff n0 s n).
  { intros n. unfold eff. assert (Q0 : (0 <=? s / n0) = true) by (apply N.leb_le, N.le_0_l). now rewrite Q0, N.sub_0_r. }
  exists es'. rewrite R. split.
  - do 2 f_equal. rewrite N.add_0_l. unfold lim2. destruct (last2 None es) as [[n r]|]; [|reflexivity]. now rewrite Es.
  - eapply exts_ext; [|exact X]. intros o x _. cbv beta. now rewrite Es.
Qed.

Lemma last2_none es : nreads t es = 0%nat -> last2 None es = None.
Proof.
  unfold nreads. induction es as [|x es IH]; [reflexivity|]. cbn [filter last2].
  destruct (is_read t x) eqn:Q; unfold is_read in Q; destruct (en_plan x); try discriminate. exact IH.
Qed.

Lemma contig_skips_gen start blen es s n0 m : (exists x0 r, es = x0 :: r /\ en_len x0 = n0) -> 0 < n0 -> Forall (good_entry t) es ->
  blen / total t es = N.of_nat m -> 0 < N.of_nat m -> start + N.of_nat m * total t es <= lenN f ->
  exists es', contig_read_skips E f t e start blen es (repeat s (nreads t es)) = (es', Ok (lim2 (last2 None es) (N.of_nat m) (eff n0 s)))
    /\ exts t (esz t) (fun off x => skipn (N.to_nat (eff n0 s (en_len x))) (col f t e start (total t es) (en_len x) m off x)) 0 es es'.
Proof.
  intros [x0 [es0 [Ees Hx]]] Hn G Hb Hm H. destruct Ad as [A1 A2].
  assert (Tp : 0 < total t es) by (rewrite Ees in *; apply total_pos1; [lia|now inversion G]).
  assert (Tl : total t es <= N.of_nat m * total t es) by nia.
  unfold contig_read_skips, seek_to. replace (start <=? seek_max E) with true by lia. cbn [bind].
  unfold block_size. rewrite block_size_ok by (auto; lia). cbn [bind].
  unfold udiv at 1. replace (0 + total t es =? 0) with false by lia. cbn [bind]. set (k := nreads t es) in *.
  replace (match es with [] => Panic PIndex
     | x :: _ => l <- div_skips (en_len x) (repeat s k);; Ok (start, blen / (0 + total t es), l) end)
    with (Ok (start, N.of_nat m, repeat (s / n0, s mod n0) k)).
  2:{ rewrite Ees at 1. rewrite Hx. rewrite div_skips_repeat by exact Hn. cbn [bind]. now rewrite N.add_0_l, Hb. }
  rewrite Nat2N.id.
  assert (Es : forall n, (if 0 <=? s / n0 then (s / n0 - 0) * n + N.min (s mod n0) n else 0) = eff n0 s n).
  { intros n. unfold eff. assert (Q0 : (0 <=? s / n0) = true) by (apply N.leb_le, N.le_0_l). now rewrite Q0, N.sub_0_r. }
  destruct (Nat.eq_dec k 0) as [K0|K0].
  - rewrite K0. cbn [repeat].
    destruct (contig_loop_gen (fun idx es => if forallb (fun p => fst p <=? idx) ([] : list (N * N))
        then Some (zip_skips (map (skip_for idx) []) es) else None)
        (total t es) 0 0 0%nat
        ltac:(intros idx ys Hy; cbv beta; cbn [forallb map]; replace (idx <? 0) with false by lia;
              change (@nil N) with (repeat (if idx =? 0 then 0 else 0) 0); rewrite <- Hy, zip_repeat; reflexivity)
        m 0 es 0 start K0 G eq_refl ltac:(lia) ltac:(lia)) as [es' [R X]].
    exists es'. rewrite R. split.
    + rewrite last2_none by exact K0. reflexivity.
    + eapply nreads_0; [exact K0|exact X].
  - destruct (contig_loop_gen (fun idx es => if forallb (fun p => fst p <=? idx) (repeat (s / n0, s mod n0) k)
        then Some (zip_skips (map (skip_for idx) (repeat (s / n0, s mod n0) k)) es) else None)
        (total t es) (s / n0) (s mod n0) k) with (m := m) (idx := 0) (es := es) (len := 0) (pos := start)
        as [es' [R X]]; auto; try lia.
    + intros idx ys Hy. cbv beta. rewrite map_repeat'. unfold skip_for. cbn [fst snd].
      assert (Zr : forall v, zip_skips (repeat v k) ys = set_all_skips v ys) by (intros v; rewrite <- Hy; apply zip_repeat).
      rewrite Zr.
      assert (Fb : forallb (fun p : N * N => fst p <=? idx) (repeat (s / n0, s mod n0) k) = (s / n0 <=? idx)).
      { destruct k as [|k']; [congruence|]. clear. induction k' as [|k' IH].
        - cbn [repeat forallb fst]. apply andb_true_r.
        - cbn [repeat forallb fst] in *. rewrite IH. apply andb_diag. }
      rewrite Fb. destruct (idx <? s / n0) eqn:Q.
      * now replace (s / n0 <=? idx) with false by lia.
      * now replace (s / n0 <=? idx) with true by lia.
    + exists es'. rewrite R. split.
      * do 2 f_equal. rewrite N.add_0_l. unfold lim2. destruct (last2 None es) as [[n r]|]; [|reflexivity]. now rewrite Es.
      * eapply exts_ext; [|exact X]. intros o x _. cbv beta. now rewrite Es.
Qed.
End Loop.

Section Block.
Context (E : env) (f : list byte) (t : sty).
Hypothesis (Fx : fixed t) (Ad : addressable E f).
Local Notation V := (carrier t).
Local Notation sz := (size_bytes t).

Lemma exts_outputs_gen step (D : N -> entry V -> list V) (R : req -> list V) chans reqs es' :
  NoDup (map rq_chan reqs) -> Forall (valid_req t chans) reqs ->
  exts t step D 0 (entries t chans reqs) es' ->
  (forall q x, In q reqs -> nth_error (entries t chans reqs) (rq_chan q) = Some x ->
     D (fold_right (fun y a => step y + a) 0 (firstn (rq_chan q) (entries t chans reqs))) x = R q) ->
  outputs reqs es' = map (fun q => firstn (rq_room q) (R q)) reqs.
Proof.
  intros ND Hv X HR. unfold outputs. apply map_seq. intros o q Hq. cbn [Nat.add].
  assert (Vq : valid_req t chans q) by (rewrite Forall_forall in Hv; apply Hv; eapply nth_error_In; eauto).
  destruct (entries_req t chans reqs o q ND Hq Vq) as [x [Hx Px]].
  destruct (exts_nth _ _ _ _ _ _ _ _ X Hx) as [x' [Hx' [_ A]]]. rewrite Px in A. destruct A as [s' A].
  rewrite N.add_0_l, (HR q x (nth_error_In _ _ Hq) Hx) in A. cbn [app] in A.
  eapply harvest_unique; [exact Hx'|exact A|].
  intros j y g r s Hj Py.
  assert (Lj : exists y0, nth_error (entries t chans reqs) j = Some y0).
  { destruct (nth_error (entries t chans reqs) j) eqn:K; [eauto|]. apply nth_error_None in K.
    rewrite <- (exts_length _ _ _ _ _ _ X) in K. apply nth_error_None in K. congruence. }
  destruct Lj as [y0 Hy0]. destruct (exts_nth _ _ _ _ _ _ _ _ X Hy0) as [y1 [Hy1 [_ B]]].
  rewrite Hj in Hy1. injection Hy1 as <-.
  destruct (entries_at t chans reqs j y0 ND Hy0) as [m [_ [_ [[o' [q' [Hq' [Hj' P']]]]|[b P']]]]].
  - rewrite P' in B. destruct B as [s2 B]. rewrite Py in B. injection B as -> _ _ _. congruence.
  - rewrite P' in B. congruence.
Qed.

Lemma last2_some es : forall d n r, last2 t d es = Some (n, r) ->
  (exists i x o g s, nth_error es i = Some x /\ en_plan x = PRead o g r s /\ en_len x = n) \/ d = Some (n, r).
Proof.
  induction es as [|x es IH]; intros d n r H; cbn [last2] in H; [now right|].
  apply IH in H. destruct H as [[i [y [o [g [s [Hi Py]]]]]]|H].
  - left. exists (S i), y, o, g, s. auto.
  - destruct (en_plan x) as [b|o g r' s] eqn:P; [now right|]. left. injection H as <- ->.
    exists 0%nat, x, o, g, s. auto.
Qed.
Lemma last2_stays es : forall d, d <> None -> last2 t d es <> None.
Proof. induction es as [|x es IH]; intros d H; cbn [last2]; [exact H|]. apply IH. now destruct (en_plan x). Qed.
Lemma last2_no es : last2 t None es = None -> nreads t es = 0%nat.
Proof.
  unfold nreads. induction es as [|x es IH]; intros H; [reflexivity|]. cbn [last2 filter] in *.
  destruct (is_read t x) eqn:R; unfold is_read in R; destruct (en_plan x); try discriminate; auto.
  exfalso. now apply (last2_stays es) in H.
Qed.

(** The samples a request of a contiguous block receives. *)
Definition offered (b : dblock) (s : N) (q : req) : list V :=
  match nth_error (b_chans b) (rq_chan q) with
  | Some m => skipn (N.to_nat (passed_over b (rq_chan q) s)) (block_samples f t b (rq_chan q) (rm_n m * whole_chunks b))
  | None => []
  end.

(** A contiguous block whose channels have any numbers of values. *)
Lemma loose_contig b reqs s : b_layout b = Contigious -> loose_block f b ->
  Forall (valid_req t (b_chans b)) reqs -> NoDup (map rq_chan reqs) ->
  let outs := map (fun q => firstn (rq_room q) (offered b s q)) reqs in
  exists k, (reqs = [] -> k = 0) /\ (reqs <> [] -> exists q, In q reqs /\ k = N.min (N.of_nat (rq_room q)) (lenN (offered b s q)))
    /\ (s = 0 -> block_read E f t b reqs = (outs, Ok k))
    /\ (Forall (fun q => rq_skip q = s) reqs -> block_read_skips E f t b reqs = (outs, Ok k)).
Proof.
  intros Lay Lb Hv ND outs. unfold loose_block in Lb. rewrite Lay in Lb.
  destruct Lb as [m0 [ms [c [Eb [Hn [Hc [Hw [Hb He]]]]]]]].
  set (n0 := rm_n m0) in *.
  set (es := entries t (b_chans b) reqs).
  assert (F2 : Forall2 (rel t) es (b_chans b)) by (apply set_readable_rel; [exact Fx|now apply base_rel|exact Hv]).
  pose proof (rel_good _ _ _ F2) as G.
  assert (Hes : exists x0 r, es = x0 :: r /\ en_len x0 = n0).
  { rewrite Eb in F2. inversion F2 as [|x0 m' r ms' [R _] F2' Q1 Q2]; subst. eauto. }
  pose proof (nreads_entries t (b_chans b) reqs ND Hv) as Nr. fold es in Nr.
  assert (Bp : build_record_plan t (b_chans b) reqs = Ok es).
  { unfold build_record_plan. rewrite validate_ok by exact Hv. reflexivity. }
  assert (Sk : Forall (fun q => rq_skip q = s) reqs -> map rq_skip reqs = repeat s (nreads t es)).
  { intros Q. rewrite Nr. clear -Q. induction Q as [|q reqs Hq Q IH]; cbn [map length repeat]; [reflexivity|]. now rewrite Hq, IH. }
  assert (Tt : total t es = sub_bytes (b_chans b)) by now apply rel_total.
  assert (Tp : 0 < sub_bytes (b_chans b)).
  { rewrite Eb in *. unfold sub_bytes. cbn [fold_right]. inversion Hw; subst. fold n0. nia. }
  assert (Wc : whole_chunks b = c) by now apply whole_chunks_of.
  unfold chunks in Hb. rewrite Lay in Hb.
  assert (Hlen : b_len b / total t es = N.of_nat (N.to_nat c)) by (rewrite Tt, N2Nat.id; exact Hb).
  assert (Hin : b_start b + N.of_nat (N.to_nat c) * total t es <= lenN f) by (rewrite Tt, N2Nat.id; exact He).
  assert (Po : forall i m, nth_error (b_chans b) i = Some m -> passed_over b i s = eff n0 s (rm_n m)).
  { intros i m Hm. unfold passed_over, eff. rewrite Lay, Hm, Eb. reflexivity. }
  assert (Lo : forall q m, nth_error (b_chans b) (rq_chan q) = Some m ->
            lenN (offered b s q) = c * rm_n m - eff n0 s (rm_n m)).
  { intros q m Hm. unfold offered. rewrite Hm, (Po _ _ Hm), Wc. unfold lenN. rewrite skipn_length, block_samples_length. lia. }
  exists (lim2 (last2 t None es) (N.of_nat (N.to_nat c)) (eff n0 s)). rewrite N2Nat.id.
  split; [|split].
  - intros ->. rewrite last2_none; [reflexivity|]. exact Nr.
  - intros Hne. destruct (last2 t None es) as [[n r]|] eqn:L2.
    2:{ apply last2_no in L2. rewrite Nr in L2. destruct reqs; [congruence|discriminate]. }
    apply last2_some in L2. destruct L2 as [[i [x [o [g [s' [Hi [Px Lx]]]]]]]|L2]; [|discriminate].
    destruct (entries_at t (b_chans b) reqs i x ND Hi) as [m [Hm [Ln [[o' [q [Hq [Hj P']]]]|[b' P']]]]]; [|congruence].
    rewrite Px in P'. injection P' as -> _ -> _. exists q. split; [eapply nth_error_In; eauto|].
    rewrite <- Hj in Hm. rewrite (Lo q m Hm). cbn [lim2]. now rewrite <- Ln, Lx.
  - assert (Out : forall es', exts t (esz t) (fun off x => skipn (N.to_nat (eff n0 s (en_len x)))
                 (col f t (b_order b) (b_start b) (total t es) (en_len x) (N.to_nat c) off x)) 0 es es' ->
              outputs reqs es' = outs).
    { intros es' X. apply (exts_outputs_gen (esz t) _ (offered b s) (b_chans b) reqs es' ND Hv X).
      intros q x Hq Hx. cbv beta.
      destruct (entries_at t (b_chans b) reqs _ x ND Hx) as [m [Hm [Ln _]]].
      unfold offered. rewrite Hm, (Po _ _ Hm), Wc, Ln. f_equal.
      change (fold_right (fun y a => esz t y + a) 0 (firstn (rq_chan q) (entries t (b_chans b) reqs)))
        with (total t (firstn (rq_chan q) es)).
      rewrite (rel_total _ _ _ (rel_firstn _ _ _ F2 (rq_chan q))), Tt.
      destruct (N.eq_dec (rm_n m) 0) as [Z|Z].
      - rewrite Z. unfold block_samples. replace (N.to_nat (0 * c)) with 0%nat by lia. cbn [seq map]. unfold col.
        clear. induction (seq 0 (N.to_nat c)) as [|j l IH]; [reflexivity|]. cbn [concat map]. rewrite IH. reflexivity.
      - change (col f t (b_order b) (b_start b) (sub_bytes (b_chans b)) (rm_n m) (N.to_nat c) (sub_bytes (firstn (rq_chan q) (b_chans b))) x)
          with (col f t (b_order b) (b_start b) (sub_bytes (b_chans b)) (rm_n m) (N.to_nat c) (sub_bytes (firstn (rq_chan q) (b_chans b))) (mkEntry 0 (PSkip 0))).
        rewrite col_samples by lia. unfold block_samples.
        replace (N.to_nat (rm_n m * c)) with (N.to_nat c * N.to_nat (rm_n m))%nat by lia.
        apply map_ext. intros k. unfold sample, sample_addr, at_. rewrite Lay, Hm.
        rewrite Forall_forall in Hv. destruct (Hv q Hq) as [m' [Hm' Su]]. rewrite Hm in Hm'. injection Hm' as <-.
        destruct (width_sty t (rm_type m) Fx Su) as [<- _]. reflexivity. }
    unfold block_read, block_read_skips. rewrite Bp, Lay. split.
    + intros Z. destruct (contig_from_gen E f t (b_order b) Fx Ad (b_start b) (b_len b) es s n0 (N.to_nat c)) as [es' [R X]]; auto; try lia.
      rewrite Z in R. rewrite R, N2Nat.id, (Out es' X), <- Z. reflexivity.
    + intros Q. rewrite (Sk Q).
      destruct (contig_skips_gen E f t (b_order b) Fx Ad (b_start b) (b_len b) es s n0 (N.to_nat c)) as [es' [R X]]; auto; try lia.
      rewrite R, N2Nat.id, (Out es' X). reflexivity.
Qed.

(** One request of any loosely stored block. *)
Lemma loose_single b ci room s m : loose_block f b ->
  nth_error (b_chans b) ci = Some m -> supports t (rm_type m) = true -> s <= rm_n m * whole_chunks b ->
  let q := mkReq ci room s in
  let r := ([firstn room (offered b s q)], Ok (N.min (N.of_nat room) (lenN (offered b s q)))) in
  (s = 0 -> block_read E f t b [q] = r) /\ block_read_skips E f t b [q] = r.
Proof.
  intros Lb Hm Su Hs q r.
  assert (Hv : Forall (valid_req t (b_chans b)) [q]) by (constructor; [exists m; auto|constructor]).
  assert (ND : NoDup (map rq_chan [q])) by (cbn [map]; constructor; [intros []|constructor]).
  destruct (b_layout b) eqn:Lay.
  - unfold loose_block in Lb. rewrite Lay in Lb. destruct Lb as [n [c [Hn [Hc [Hne [Hu [Hb He]]]]]]].
    assert (Wc : whole_chunks b = c).
    { apply whole_chunks_of; [eapply Forall_impl; [|exact Hu]; cbv beta; tauto|apply (sub_bytes_pos n); assumption|exact Hb]. }
    assert (Nm : rm_n m = n) by (rewrite Forall_forall in Hu; apply (Hu m); eapply nth_error_In; eauto).
    rewrite Wc, Nm in Hs.
    destruct (block_ok E f t b [q] s n c Fx Ad Hn Hc Hne Hu Hb He Hv ND ltac:(lia)) as [k [Ck [_ [R0 Rs]]]].
    assert (Of : offered b s q = skipn (N.to_nat s) (block_samples f t b (rq_chan q) (c * n))).
    { unfold offered, q. cbn [rq_chan]. rewrite Hm, Wc, Nm. unfold passed_over. rewrite Lay. do 2 f_equal. lia. }
    assert (Kk : k = N.min (N.of_nat room) (lenN (offered b s q))).
    { rewrite Of. destruct Ck as [_ Ck]. specialize (Ck ltac:(discriminate)). rewrite Lay in Ck.
      destruct Ck as [q' [[<-|[]] [_ ->]]]. cbn [rq_room q]. f_equal. unfold lenN. rewrite skipn_length, block_samples_length. lia. }
    unfold r. rewrite Of in *. rewrite <- Kk. split; [exact R0|]. apply Rs. now constructor.
  - destruct (loose_contig b [q] s Lay Lb Hv ND) as [k [_ [Kk [R0 Rs]]]].
    destruct (Kk ltac:(discriminate)) as [q' [[<-|[]] ->]].
    split; [exact R0|]. apply Rs. now constructor.
Qed.

(** No request. *)
Lemma loose_none b : loose_block f b -> block_read E f t b [] = ([], Ok 0) /\ block_read_skips E f t b [] = ([], Ok 0).
Proof.
  intros Lb. destruct (b_layout b) eqn:Lay.
  - unfold loose_block in Lb. rewrite Lay in Lb. destruct Lb as [n [c [Hn [Hc [Hne [Hu [Hb He]]]]]]].
    destruct (block_ok E f t b [] 0 n c Fx Ad Hn Hc Hne Hu Hb He ltac:(constructor) ltac:(constructor) ltac:(lia))
      as [k [[Ck _] [_ [R0 Rs]]]].
    rewrite (Ck eq_refl) in *. split; [now apply R0|]. now apply Rs.
  - destruct (loose_contig b [] 0 Lay Lb ltac:(constructor) ltac:(constructor)) as [k [Kk [_ [R0 Rs]]]].
    rewrite (Kk eq_refl) in *. split; [now apply R0|]. now apply Rs.
Qed.
End Block.

Section Single.
Context (E : env) (f : list byte) (t : sty) (ix : index).
Hypothesis (Fx : fixed t) (Ad : addressable E f).
Local Notation V := (carrier t).
Local Notation bs := (ix_blocks ix).

(** What a planned entry delivers. *)
Definition dsamp (x : nat * nat * N) : list V :=
  let '(j, i, s) := x in
  match nth_error bs j with Some b => offered f t b s (mkReq i 0 s) | None => [] end.

Definition loose_plan (plan : list blockread) : Prop :=
  Forall (fun br => exists b ci s m, br_chans br = [Some (ci, s)] /\ nth_error bs (br_block br) = Some b
     /\ loose_block f b /\ nth_error (b_chans b) ci = Some m /\ supports t (rm_type m) = true
     /\ s <= rm_n m * whole_chunks b) plan.

Lemma execute_single (o0 D : list V) : forall plan r, loose_plan plan ->
  (r <= length o0)%nat -> (r <= length D)%nat ->
  skipn r D = concat (map dsamp (planned 0 plan)) ->
  execute E f t ix plan [mkPr (N.of_nat r) (lenN o0)] [overlay o0 (firstn r D)]
  = ([overlay o0 (firstn (length o0) D)], Ok tt).
Proof.
  induction plan as [|br plan IH]; intros r Lp Ho Hd Hs.
  - cbn [execute]. do 2 f_equal. f_equal. cbn [planned flat_map map concat] in Hs.
    apply (f_equal (@length _)) in Hs. rewrite skipn_length in Hs. cbn [length] in Hs.
    rewrite !firstn_all2 by lia. reflexivity.
  - inversion Lp as [|y l [b [ci [s [m [Ec [Hb [Lb [Hm [Su Hle]]]]]]]]] Lp']; subst y l.
    unfold planned in Hs. cbn [flat_map] in Hs. fold (planned 0 plan) in Hs. rewrite Ec in Hs.
    cbn [nth_error app map concat] in Hs. unfold dsamp at 1 in Hs. rewrite Hb in Hs.
    cbn [execute]. unfold get_data_block. rewrite Hb, Ec. cbn [block_requests any_skip existsb store advance].
    unfold complete. cbn [pr_read pr_target].
    destruct (lenN o0 <=? N.of_nat r) eqn:C.
    + (* nothing left to read *)
      assert (r = length o0) by (unfold lenN in C; lia). subst r.
      destruct (loose_none E f t Fx Ad b Lb) as [R1 R2].
      rewrite R1, R2. replace (if (0 <? s) || false then ([] : list (list V), Ok 0) else ([], Ok 0)) with ([] : list (list V), Ok 0)
        by now destruct ((0 <? s) || false).
      cbn [store advance]. unfold complete. cbn [pr_read pr_target]. rewrite ?C.
      cbn [forallb pr_read pr_target]. rewrite N.add_0_r, ?C. reflexivity.
    + set (room := N.to_nat (lenN o0 - N.of_nat r)).
      destruct (loose_single E f t Fx Ad b ci room s m Lb Hm Su Hle) as [R1 R2].
      change (offered f t b s (mkReq ci room s)) with (offered f t b s (mkReq ci 0 s)) in R1, R2.
      set (off := offered f t b s (mkReq ci 0 s)) in *.
      set (k := N.min (N.of_nat room) (lenN off)) in *.
      assert (Rd : (if (0 <? s) || false then block_read_skips E f t b [mkReq ci room s] else block_read E f t b [mkReq ci room s])
                   = ([firstn room off], Ok k)).
      { destruct (0 <? s) eqn:Q; cbn [orb]; [exact R2|]. apply R1. lia. }
      rewrite Rd. cbn [store advance]. unfold complete. cbn [pr_read pr_target]. rewrite ?C.
      cbn [forallb]. unfold complete. cbn [pr_read pr_target]. rewrite andb_true_r.
      assert (LD : length D = (r + (length off + length (concat (map dsamp (planned 0 plan)))))%nat).
      { apply (f_equal (@length _)) in Hs. rewrite skipn_length, app_length in Hs. lia. }
      assert (Go : firstn room off = firstn (Nat.min room (length off)) (skipn r D)).
      { rewrite Hs, firstn_app. replace (Nat.min room (length off) - length off)%nat with 0%nat by lia.
        cbn [firstn]. rewrite app_nil_r. destruct (Nat.le_gt_cases room (length off)).
        - f_equal. lia.
        - rewrite !firstn_all2 by lia. reflexivity. }
      assert (Rm : room = (length o0 - r)%nat) by (unfold room, lenN; lia).
      assert (Ek : N.to_nat k = Nat.min room (length off)) by (unfold k, lenN; lia).
      rewrite Go, overlay_splice by lia.
      destruct (lenN o0 <=? N.of_nat r + k) eqn:Q.
      * unfold lenN in Q. do 2 f_equal. f_equal. f_equal. lia.
      * replace (N.of_nat r + k) with (N.of_nat (r + Nat.min room (length off))) by lia.
        unfold lenN in Q. apply IH; auto; try lia.
        rewrite <- skipn_skipn, Hs. replace (Nat.min room (length off)) with (length off) by lia.
        apply skipn_app_exact.
Qed.
End Single.
