(** * Requests with skips of their own *)
From Verif Require Import Base Lib DataTypes MetaData DataBlock Index RawData SpecIndex SpecRead SpecMulti
  Block_proofs Request_proofs Skips_proofs.

Lemma filter_split {A} (p : A -> bool) (l : list A) : (length (filter p l) + length (filter (fun x => negb (p x)) l) = length l)%nat.
Proof. induction l as [|x l IH]; [reflexivity|]. cbn [filter length]. destruct (p x); cbn [negb length]; lia. Qed.

Section Ranks.
Context (reqs : list req).
Hypothesis (ND : NoDup (map rq_chan reqs)).

Definition others (q : req) : list req := filter (fun q' => negb (Nat.ltb (rq_chan q') (rq_chan q))) reqs.
Lemma rank_others q : (rank reqs q + length (others q) = length reqs)%nat.
Proof. unfold rank, others. apply filter_split. Qed.
Lemma chan_inj q q' : In q reqs -> In q' reqs -> rq_chan q = rq_chan q' -> q = q'.
Proof.
  intros H H' Eq. apply In_nth_error in H, H'. destruct H as [i Hi], H' as [j Hj].
  assert (i = j).
  { apply (proj1 (NoDup_nth_error (map rq_chan reqs)) ND).
    - rewrite map_length. apply nth_error_Some. congruence.
    - rewrite !nth_error_map, Hi, Hj. cbn [option_map]. congruence. }
  congruence.
Qed.
Lemma last_rank q : In q reqs -> (forall q', In q' reqs -> (rq_chan q' <= rq_chan q)%nat) -> S (rank reqs q) = length reqs.
Proof.
  intros Hq Hmax. pose proof (rank_others q) as R.
  assert (Ho : forall x, In x (others q) -> x = q).
  { intros x Hx. unfold others in Hx. apply filter_In in Hx. destruct Hx as [Hx Lx]. apply chan_inj; auto.
    specialize (Hmax x Hx). apply negb_true_iff, Nat.ltb_ge in Lx. lia. }
  assert (Hin : In q (others q)) by (apply filter_In; split; [exact Hq|]; rewrite Nat.ltb_irrefl; reflexivity).
  assert (N1 : NoDup (others q)) by (apply NoDup_filter; eapply NoDup_map_inv; exact ND).
  destruct (others q) as [|a [|b l]] eqn:Eo; [contradiction|cbn [length] in R; lia|exfalso].
  inversion N1 as [|y z Hni _]; subst. apply Hni. rewrite (Ho a), (Ho b) by (cbn [In]; auto). now left.
Qed.
Lemma last_rank_max q : In q reqs -> S (rank reqs q) = length reqs -> forall q', In q' reqs -> (rq_chan q <= rq_chan q')%nat -> q' = q.
Proof.
  intros Hq Hr q' Hq' Le. pose proof (rank_others q) as R.
  assert (Hin : In q (others q)) by (apply filter_In; split; [exact Hq|]; rewrite Nat.ltb_irrefl; reflexivity).
  assert (Hin' : In q' (others q)) by (apply filter_In; split; [exact Hq'|]; apply negb_true_iff, Nat.ltb_ge; exact Le).
  destruct (others q) as [|a [|b l]] eqn:Eo; cbn [length] in R; try lia; cbn [In] in *.
  destruct Hin as [<-|[]], Hin' as [<-|[]]. reflexivity.
Qed.
Lemma last_request_is q : In q reqs -> (forall q', In q' reqs -> (rq_chan q' <= rq_chan q)%nat) -> last_request reqs = Some q.
Proof.
  intros Hq Hmax. unfold last_request. destruct (find _ reqs) as [q'|] eqn:Fd.
  - apply find_some in Fd. destruct Fd as [Hq' R]. apply Nat.eqb_eq in R. f_equal. symmetry.
    apply (last_rank_max q' Hq' R q Hq). auto.
  - pose proof (find_none _ _ Fd q Hq) as K. cbv beta in K. rewrite (last_rank q Hq Hmax), Nat.eqb_refl in K. discriminate.
Qed.
End Ranks.

Section SkipReq.
Context (E : env) (f : list byte) (t : sty).
Hypothesis (Fx : fixed t) (Ad : addressable E f).
Local Notation V := (carrier t).

(** Reads among the first [j] entries. *)
Lemma firstn_set_plan (p : plan V) (es : list (entry V)) : forall j i,
  firstn j (set_plan i p es) = if Nat.ltb i j then set_plan i p (firstn j es) else firstn j es.
Proof.
  induction es as [|x es IH]; intros j i.
  - rewrite !firstn_nil. assert (Z : set_plan i p ([] : list (entry V)) = []) by (destruct i; reflexivity).
    rewrite Z, firstn_nil. now destruct (Nat.ltb i j).
  - destruct j as [|j].
    + cbn [firstn]. destruct i; reflexivity.
    + destruct i as [|i]; [reflexivity|]. cbn [set_plan firstn]. rewrite IH.
      replace (Nat.ltb (S i) (S j)) with (Nat.ltb i j) by reflexivity. now destruct (Nat.ltb i j).
Qed.
Lemma nth_firstn {A} (l : list A) : forall i j, (i < j)%nat -> nth_error (firstn j l) i = nth_error l i.
Proof.
  induction l as [|x l IH]; intros i j H; [now rewrite firstn_nil|]. destruct j as [|j]; [lia|].
  destruct i as [|i]; cbn [firstn nth_error]; [reflexivity|]. apply IH. lia.
Qed.
Lemma nreads_first j reqs : forall oid (es : list (entry V)), NoDup (map rq_chan reqs) ->
  Forall (fun q => exists x b, nth_error es (rq_chan q) = Some x /\ en_plan x = PSkip b) reqs ->
  nreads t (firstn j (set_readable oid reqs es)) =
  (length (filter (fun q => Nat.ltb (rq_chan q) j) reqs) + nreads t (firstn j es))%nat.
Proof.
  induction reqs as [|q reqs IH]; intros oid es ND H; cbn [set_readable filter]; [reflexivity|].
  cbn [map] in ND. inversion ND as [|y l Hn ND']; subst. inversion H as [|y l [x [b [Hx Px]]] H']; subst.
  rewrite IH; [|exact ND'|].
  - rewrite firstn_set_plan. destruct (Nat.ltb (rq_chan q) j) eqn:K; [|reflexivity]. cbn [length].
    apply Nat.ltb_lt in K.
    erewrite nreads_set_plan; [|rewrite nth_firstn by exact K; exact Hx|exact Px|eauto]. lia.
  - rewrite Forall_forall in *. intros q' Hq'. destruct (H' q' Hq') as [x' [b' [Hx' Px']]].
    exists x', b'. rewrite nth_set_plan. destruct (Nat.eqb (rq_chan q) (rq_chan q')) eqn:K; [|auto].
    apply Nat.eqb_eq in K. exfalso. apply Hn. rewrite K. now apply in_map.
Qed.
Lemma nreads_base chans j : nreads t (firstn j (base_record (V := V) chans)) = 0%nat.
Proof.
  unfold nreads, base_record. revert j. induction chans as [|m chans IH]; intros [|j]; try reflexivity. apply IH.
Qed.
Lemma rank_entries chans reqs q : NoDup (map rq_chan reqs) -> Forall (valid_req t chans) reqs ->
  nreads t (firstn (rq_chan q) (entries t chans reqs)) = rank reqs q.
Proof.
  intros ND Hv. unfold entries. rewrite nreads_first; [|exact ND|].
  - rewrite nreads_base, Nat.add_0_r. reflexivity.
  - eapply Forall_impl; [|exact Hv]. intros q' [m [Hm _]]. unfold base_record. rewrite nth_error_map, Hm.
    cbn [option_map]. eexists _, _. split; reflexivity.
Qed.
Lemma oids_nth (es : list (entry V)) : forall k o, nth_error (oids t es) k = Some o ->
  exists j x g r s, nth_error es j = Some x /\ en_plan x = PRead o g r s /\ nreads t (firstn j es) = k.
Proof.
  unfold oids, nreads. induction es as [|x es IH]; intros k o H; [destruct k; discriminate|]. cbn [flat_map] in H.
  destruct (en_plan x) as [b|o' g r s] eqn:P; cbn [app] in H.
  - destruct (IH k o H) as [j [y [g [r [s [Hj [Py Nk]]]]]]]. exists (S j), y, g, r, s. split; [exact Hj|]. split; [exact Py|].
    cbn [firstn filter]. unfold is_read at 1. now rewrite P.
  - destruct k as [|k]; cbn [nth_error] in H.
    + injection H as <-. exists 0%nat, x, g, r, s. auto.
    + destruct (IH k o H) as [j [y [g' [r' [s' [Hj [Py Nk]]]]]]]. exists (S j), y, g', r', s'. split; [exact Hj|]. split; [exact Py|].
      cbn [firstn filter]. unfold is_read at 1. rewrite P. cbn [length]. now rewrite Nk.
Qed.

(** The skip given to request number [o]. *)
Definition sg (reqs : list req) (o : nat) : N := match nth_error reqs o with Some q => skip_given reqs q | None => 0 end.

Lemma sg_skips chans reqs : NoDup (map rq_chan reqs) -> Forall (valid_req t chans) reqs ->
  map (sg reqs) (oids t (entries t chans reqs)) = map rq_skip reqs.
Proof.
  intros ND Hv. pose proof (nreads_entries t chans reqs ND Hv) as Nr.
  assert (L : length (oids t (entries t chans reqs)) = length reqs) by (rewrite oids_length; exact Nr).
  apply nth_ext with (d := 0) (d' := 0); rewrite !map_length; [exact L|].
  intros k Hk. destruct (nth_error (oids t (entries t chans reqs)) k) as [o|] eqn:Ko; [|apply nth_error_None in Ko; lia].
  erewrite (nth_indep _ 0) by (rewrite map_length; exact Hk). rewrite map_nth.
  rewrite (nth_error_nth _ _ 0%nat Ko).
  destruct (oids_nth _ k o Ko) as [j [x [g [r [s [Hj [Px Nk]]]]]]].
  destruct (entries_at t chans reqs j x ND Hj) as [m [_ [_ [[o' [q [Hq [Hc P']]]]|[b P']]]]]; [|congruence].
  rewrite Px in P'. injection P' as -> _ _ _. unfold sg. rewrite Hq. unfold skip_given.
  rewrite <- (rank_entries chans reqs q ND Hv), Hc, Nk. reflexivity.
Qed.

Lemma furthest_in n skips s : In s skips -> s / n <= furthest n skips.
Proof.
  unfold furthest. induction skips as [|x skips IH]; [contradiction|]. cbn [fold_right].
  intros [->|H]; [lia|]. specialize (IH H). lia.
Qed.
Lemma first_chunk_furthest n reqs : first_chunk n reqs = furthest n (map rq_skip reqs).
Proof. unfold first_chunk, furthest. induction reqs as [|q reqs IH]; [reflexivity|]. cbn [map fold_right]. now rewrite IH. Qed.
Lemma skip_given_in reqs q : skip_given reqs q = 0 \/ In (skip_given reqs q) (map rq_skip reqs).
Proof.
  unfold skip_given. destruct (Nat.lt_ge_cases (rank reqs q) (length (map rq_skip reqs))).
  - right. now apply nth_In.
  - left. now apply nth_overflow.
Qed.
Lemma sg_furthest n reqs o : 0 < n -> sg reqs o / n <= furthest n (map rq_skip reqs).
Proof.
  intros Hn. assert (Z : 0 / n <= furthest n (map rq_skip reqs)) by (rewrite N.div_0_l by lia; lia).
  unfold sg. destruct (nth_error reqs o) as [q|]; [|exact Z].
  destruct (skip_given_in reqs q) as [->|Hin]; [exact Z|now apply furthest_in].
Qed.
Lemma least_min reqs : least_skip reqs = min_or_0 (map rq_skip reqs).
Proof.
  unfold least_skip, min_or_0. destruct reqs as [|q reqs]; [reflexivity|]. cbn [map].
  generalize (rq_skip q) as a. induction reqs as [|x reqs IH]; intros a; [reflexivity|]. cbn [fold_right map fold_left].
  rewrite IH. clear. generalize (map rq_skip reqs) as l. intros l. revert a. generalize (rq_skip x) as b.
  assert (A : forall l a b, N.min b (fold_left N.min l a) = fold_left N.min l (N.min a b)).
  { clear. induction l as [|c l IH]; intros a b; cbn [fold_left]; [lia|]. rewrite IH. f_equal. lia. }
  intros b a. apply A.
Qed.

Lemma last_read_some (es : list (entry V)) : forall d o r, last_read t d es = Some (o, r) ->
  (exists i x g s, nth_error es i = Some x /\ en_plan x = PRead o g r s
     /\ forall j y, nth_error es j = Some y -> is_read t y = true -> (j <= i)%nat)
  \/ (d = Some (o, r) /\ forall j y, nth_error es j = Some y -> is_read t y = false).
Proof.
  induction es as [|x es IH]; intros d o r H; cbn [last_read] in H.
  - right. split; [exact H|]. intros [|j]; discriminate.
  - apply IH in H. destruct H as [[i [y [g [s [Hi [Py U]]]]]]|[Hd U]].
    + left. exists (S i), y, g, s. split; [exact Hi|]. split; [exact Py|].
      intros [|j] z Hz Rz; [lia|]. cbn [nth_error] in Hz. specialize (U j z Hz Rz). lia.
    + destruct (en_plan x) as [b|o' g r' s] eqn:P.
      * right. split; [exact Hd|]. intros [|j] y Hy; cbn [nth_error] in Hy; [|eauto].
        injection Hy as <-. unfold is_read. now rewrite P.
      * left. injection Hd as -> ->. exists 0%nat, x, g, s. do 2 (split; [auto|]).
        intros [|j] y Hy Ry; [lia|]. cbn [nth_error] in Hy. rewrite (U j y Hy) in Ry. discriminate.
Qed.
Lemma last_read_stays (es : list (entry V)) : forall p, exists p', last_read t (Some p) es = Some p'.
Proof. induction es as [|x es IH]; intros p; cbn [last_read]; [eauto|]. destruct (en_plan x); apply IH. Qed.
Lemma last_read_no (es : list (entry V)) : last_read t None es = None -> nreads t es = 0%nat.
Proof.
  unfold nreads. induction es as [|x es IH]; intros H; [reflexivity|]. cbn [last_read filter] in *.
  destruct (is_read t x) eqn:R; unfold is_read in R; destruct (en_plan x); try discriminate; auto.
  destruct (last_read_stays es (oid, room)) as [r' K]. congruence.
Qed.
Lemma last_read_request chans reqs : NoDup (map rq_chan reqs) -> Forall (valid_req t chans) reqs ->
  match last_request reqs with
  | Some q => exists o, nth_error reqs o = Some q /\ last_read t None (entries t chans reqs) = Some (o, rq_room q)
  | None => last_read t None (entries t chans reqs) = None
  end.
Proof.
  intros ND Hv. pose proof (nreads_entries t chans reqs ND Hv) as Nr.
  destruct (last_read t None (entries t chans reqs)) as [[o r]|] eqn:L.
  - apply last_read_some in L. destruct L as [[i [x [g [s [Hi [Px U]]]]]]|[L _]]; [|discriminate].
    destruct (entries_at t chans reqs i x ND Hi) as [m [_ [_ [[o' [q [Hq [Hj P']]]]|[b P']]]]]; [|congruence].
    rewrite Px in P'. injection P' as -> _ -> _.
    rewrite (last_request_is reqs ND q (nth_error_In _ _ Hq)); [eauto|].
    intros q' Hq'. apply In_nth_error in Hq'. destruct Hq' as [o2 Hq'].
    assert (Vq : valid_req t chans q') by (rewrite Forall_forall in Hv; apply Hv; eapply nth_error_In; eauto).
    destruct (entries_req t chans reqs o2 q' ND Hq' Vq) as [y [Hy Py]].
    rewrite Hj. apply (U _ y Hy). unfold is_read. now rewrite Py.
  - apply last_read_no in L. rewrite Nr in L. destruct reqs; [|discriminate]. reflexivity.
Qed.

Lemma want_entries chans reqs u : NoDup (map rq_chan reqs) -> Forall (valid_req t chans) reqs ->
  want_by t (sg reqs) (entries t chans reqs) u = wanted reqs u.
Proof.
  intros ND Hv. apply eq_true_iff_eq. unfold want_by, wanted. rewrite !existsb_exists. split.
  - intros [x [Hx W]]. apply In_nth_error in Hx. destruct Hx as [j Hj].
    destruct (entries_at t chans reqs j x ND Hj) as [m [_ [_ [[o [q [Hq [_ P]]]]|[b P]]]]]; rewrite P in W; [|discriminate].
    exists q. split; [eapply nth_error_In; eauto|]. unfold sg in W. rewrite Hq in W. exact W.
  - intros [q [Hq W]]. pose proof Hq as Hq0. apply In_nth_error in Hq. destruct Hq as [o Hq].
    rewrite Forall_forall in Hv. destruct (entries_req t chans reqs o q ND Hq (Hv q Hq0)) as [x [Hx Px]].
    exists x. split; [eapply nth_error_In; eauto|]. rewrite Px. unfold sg. rewrite Hq. exact W.
Qed.

Lemma outputs_by step D G chans reqs es' : NoDup (map rq_chan reqs) -> Forall (valid_req t chans) reqs ->
  exts t step D 0 (entries t chans reqs) es' ->
  (forall o q x, nth_error reqs o = Some q -> en_plan x = PRead o ([] : list V) (rq_room q) 0 ->
     D (fold_right (fun y a => step y + a) 0 (firstn (rq_chan q) (entries t chans reqs))) x = G q) ->
  outputs reqs es' = map (fun q => firstn (rq_room q) (G q)) reqs.
Proof.
  intros ND Hv X HG. unfold outputs. apply map_seq. intros o q Hq. cbn [Nat.add].
  assert (Vq : valid_req t chans q) by (rewrite Forall_forall in Hv; apply Hv; eapply nth_error_In; eauto).
  destruct (entries_req t chans reqs o q ND Hq Vq) as [x [Hx Px]].
  destruct (exts_nth t _ _ _ _ _ _ _ X Hx) as [x' [Hx' [_ A]]]. rewrite Px in A. destruct A as [s' A].
  rewrite N.add_0_l, (HG o q x Hq Px) in A.
  eapply harvest_unique; [exact Hx'|exact A|].
  intros j y g r s Hj Py.
  assert (Lj : exists y0, nth_error (entries t chans reqs) j = Some y0).
  { destruct (nth_error (entries t chans reqs) j) eqn:K; [eauto|]. apply nth_error_None in K.
    rewrite <- (exts_length _ _ _ _ _ _ X) in K. apply nth_error_None in K. congruence. }
  destruct Lj as [y0 Hy0]. destruct (exts_nth t _ _ _ _ _ _ _ X Hy0) as [y1 [Hy1 [_ B]]].
  rewrite Hj in Hy1. injection Hy1 as <-.
  destruct (entries_at t chans reqs j y0 ND Hy0) as [m [_ [_ [[o' [q' [Hq' [Hj' P']]]]|[b P']]]]].
  - rewrite P' in B. destruct B as [s2 B]. rewrite Py in B. injection B as -> _ _ _. congruence.
  - rewrite P' in B. congruence.
Qed.

Lemma skip_given_zero reqs q : Forall (fun q => rq_skip q = 0) reqs -> skip_given reqs q = 0.
Proof.
  intros Z. destruct (skip_given_in reqs q) as [|Hin]; [assumption|]. apply in_map_iff in Hin.
  destruct Hin as [q' [<- Hq']]. rewrite Forall_forall in Z. now apply Z.
Qed.
Lemma first_chunk_zero n reqs : 0 < n -> Forall (fun q => rq_skip q = 0) reqs -> first_chunk n reqs = 0.
Proof.
  intros Hn. unfold first_chunk. induction 1 as [|q reqs Hq Z IH]; [reflexivity|]. cbn [fold_right].
  rewrite IH, Hq, N.div_0_l by lia. reflexivity.
Qed.

Lemma block_skips_exact b reqs n c :
  0 < n -> 0 < c -> b_chans b <> [] ->
  Forall (fun m => rm_n m = n /\ 0 < width (rm_type m)) (b_chans b) ->
  chunks b c -> b_start b + c * sub_bytes (b_chans b) <= lenN f ->
  Forall (valid_req t (b_chans b)) reqs -> NoDup (map rq_chan reqs) -> Forall (fun q => rq_skip q <= c * n) reqs ->
  let outs := map (fun q => got_of (b_layout b) n (c * n) reqs q (block_samples f t b (rq_chan q) (c * n))) reqs in
  let k := count_of_block (b_layout b) n (c * n) reqs in
  block_read_skips E f t b reqs = (outs, Ok k)
  /\ (Forall (fun q => rq_skip q = 0) reqs -> block_read E f t b reqs = (outs, Ok k)).
Proof.
  intros Hn Hc Hne Hu Hb He Hv ND Hs outs k.
  assert (Hun : Forall (fun m => rm_n m = n) (b_chans b)) by (eapply Forall_impl; [|exact Hu]; cbv beta; tauto).
  assert (Hw : Forall (fun m => 0 < width (rm_type m)) (b_chans b)) by (eapply Forall_impl; [|exact Hu]; cbv beta; tauto).
  set (es := entries t (b_chans b) reqs).
  assert (F2 : Forall2 (rel t) es (b_chans b)) by (apply set_readable_rel; [exact Fx|now apply base_rel|exact Hv]).
  pose proof (rel_good t _ _ F2) as G. pose proof (rel_len t n _ _ F2 Hun) as L.
  assert (Hes : es <> []).
  { intros K. rewrite K in F2. inversion F2. congruence. }
  assert (Bp : build_record_plan t (b_chans b) reqs = Ok es).
  { unfold build_record_plan. rewrite validate_ok by exact Hv. reflexivity. }
  pose proof (sg_skips (b_chans b) reqs ND Hv) as Sg. fold es in Sg.
  assert (Szw : forall q, In q reqs -> exists m, nth_error (b_chans b) (rq_chan q) = Some m /\ rm_n m = n /\ width (rm_type m) = size_bytes t).
  { intros q Hq. rewrite Forall_forall in Hv. destruct (Hv q Hq) as [m [Hm Hsu]]. exists m. split; [exact Hm|].
    rewrite Forall_forall in Hun. split; [apply Hun; eapply nth_error_In; eauto|]. symmetry. now apply (width_sty t). }
  pose proof (last_read_request (b_chans b) reqs ND Hv) as Lr. fold es in Lr.
  unfold outs, k, got_of, count_of_block. unfold chunks in Hb. unfold block_read, block_read_skips. rewrite Bp. destruct (b_layout b) eqn:Lay.
  - assert (Rt : rowtotal t es = row_bytes (b_chans b)) by now apply rel_row.
    assert (Hlen : b_len b = N.of_nat (N.to_nat (c * n)) * rowtotal t es).
    { rewrite Hb, (sub_row n) by exact Hun. rewrite Rt, N2Nat.id. lia. }
    assert (Hcn : 0 < c * n) by nia.
    set (es1 := set_by t (sg reqs) es).
    assert (Zs : zip_skips (map rq_skip reqs) es = es1).
    { rewrite <- (map_id (map rq_skip reqs)). rewrite (zip_by t (fun x => x) (sg reqs) es (map rq_skip reqs) Sg). reflexivity. }
    pose proof (exts_set_by t (wd t) (sg reqs) es 0) as X1. fold es1 in X1.
    assert (G1 : Forall (good_entry t) es1)
      by (eapply exts_forall; [|exact X1|exact G]; intros vs x x' A; apply ext_wd in A; tauto).
    assert (R1 : rowtotal t es1 = rowtotal t es) by (eapply exts_rowtotal; exact X1).
    assert (O1 : oids t es1 = oids t es) by (eapply exts_oids; exact X1).
    assert (Mn : min_or_0 (map (sg reqs) (oids t es1)) = least_skip reqs) by now rewrite O1, Sg, least_min.
    assert (Ml : least_skip reqs <= c * n).
    { rewrite least_min. destruct reqs as [|q reqs']; [cbn; lia|].
      transitivity (rq_skip q); [apply min_or_0_le; now left|]. now inversion Hs. }
    assert (Main : exists es', inter_read E f t (b_order b) (b_start b) (b_len b) es1 = (es', Ok (rows_read reqs (c * n)))
        /\ outputs reqs es' = map (fun q => firstn (rq_room q) (skipn (N.to_nat (skip_given reqs q))
             (firstn (N.to_nat (least_skip reqs + rows_read reqs (c * n))) (block_samples f t b (rq_chan q) (c * n))))) reqs).
    { destruct (inter_read_by E f t (b_order b) Fx Ad (b_start b) (b_len b) es1 (sg reqs) (N.to_nat (c * n))) as [es' [R X]]; auto; try lia.
      { unfold es1, set_by. intros K. apply map_eq_nil in K. contradiction. }
      { intros x Hx o g r s P. exact (set_by_entry t (sg reqs) es x Hx o r g s P). }
      rewrite Mn in R, X.
      assert (Wn : forall u, want_by t (sg reqs) es1 u = wanted reqs u).
      { intros u. rewrite <- (want_entries (b_chans b) reqs u ND Hv). fold es. unfold es1, want_by, set_by. clear.
        induction es as [|x es IH]; [reflexivity|]. cbn [map existsb]. rewrite IH. f_equal.
        unfold set_skip. destruct (en_plan x) eqn:P; cbn [en_plan]; [now rewrite P|reflexivity]. }
      rewrite (rows_run_ext _ _ (wanted reqs)) in R, X by (intros; apply Wn).
      rewrite N2Nat.id in R, X.
      exists es'. rewrite R. split; [reflexivity|].
      assert (X' : exts t (wd t) (fun o x => [] ++ skipn (N.to_nat (sg reqs (oid_of t x))) (firstn (N.to_nat (least_skip reqs + rows_read reqs (c * n)))
                     (icol f t (b_order b) (b_start b) (rowtotal t es) (N.to_nat (c * n)) o))) 0 es es').
      { eapply exts_app; [apply wd_stable| |exact X1|].
        - intros vs x x' o A. cbv beta. now rewrite (ext_oid t _ _ _ A).
        - eapply exts_ext; [|exact X]. intros o x _. cbv beta. rewrite R1. do 2 f_equal. unfold rows_read. lia. }
      cbn [app] in X'. eapply (outputs_by (wd t)); [exact ND|exact Hv|exact X'|].
      intros o q x Hq Px. cbv beta. unfold oid_of. rewrite Px. unfold sg. rewrite Hq.
      do 2 f_equal.
      change (fold_right (fun y a => wd t y + a) 0 (firstn (rq_chan q) (entries t (b_chans b) reqs)))
        with (rowtotal t (firstn (rq_chan q) es)).
      rewrite (rel_row t _ _ (rel_firstn t _ _ F2 (rq_chan q))), Rt.
      unfold icol, block_samples. apply map_ext. intros j. unfold sample, sample_addr, at_. rewrite Lay.
      destruct (Szw q (nth_error_In _ _ Hq)) as [m [Hm [_ Wm]]]. now rewrite Hm, Wm. }
    destruct Main as [es' [R O]]. rewrite Zs, R, O. split; [reflexivity|]. intros Z.
    assert (Id : es1 = es).
    { unfold es1, set_by. rewrite <- (map_id es) at 2. apply map_ext_in. intros x Hx. unfold set_skip, oid_of.
      apply In_nth_error in Hx. destruct Hx as [j Hj].
      destruct (entries_at t (b_chans b) reqs j x ND Hj) as [m [_ [_ [[o' [q [Hq [_ P']]]]|[b' P']]]]]; rewrite P'; [|reflexivity].
      unfold sg. rewrite Hq, (skip_given_zero reqs q Z). destruct x as [l p]. cbn [en_len en_plan] in *. congruence. }
    rewrite Id in R. now rewrite R, O.
  - assert (Tt : total t es = sub_bytes (b_chans b)) by now apply rel_total.
    assert (Hlen : b_len b / total t es = N.of_nat (N.to_nat c)) by (rewrite Tt, N2Nat.id; exact Hb).
    assert (Hin : b_start b + N.of_nat (N.to_nat c) * total t es <= lenN f) by (rewrite Tt, N2Nat.id; exact He).
    assert (Fo : forall o q, nth_error reqs o = Some q -> first_of n (furthest n (map rq_skip reqs)) (sg reqs) o = contig_first n reqs q).
    { intros o q Hq. unfold first_of, contig_first, sg. rewrite Hq, first_chunk_furthest. reflexivity. }
    assert (Cnt : lim_by (last_read t None es) (fun o => N.of_nat (N.to_nat c) * n - first_of n (furthest n (map rq_skip reqs)) (sg reqs) o)
                  = match last_request reqs with Some q => N.min (N.of_nat (rq_room q)) (c * n - contig_first n reqs q) | None => 0 end).
    { destruct (last_request reqs) as [q|].
      - destruct Lr as [o [Ho ->]]. cbn [lim_by]. now rewrite (Fo o q Ho), N2Nat.id.
      - now rewrite Lr. }
    assert (Col : forall q, In q reqs ->
       col f t (b_order b) (b_start b) (total t es) n (N.to_nat c)
         (fold_right (fun y a => esz t y + a) 0 (firstn (rq_chan q) (entries t (b_chans b) reqs))) (mkEntry 0 (PSkip 0))
       = block_samples f t b (rq_chan q) (c * n)).
    { intros q Hq.
      change (fold_right (fun y a => esz t y + a) 0 (firstn (rq_chan q) (entries t (b_chans b) reqs)))
        with (total t (firstn (rq_chan q) es)).
      rewrite (rel_total t _ _ (rel_firstn t _ _ F2 (rq_chan q))), Tt, (col_samples f t) by exact Hn.
      unfold block_samples. replace (N.to_nat (c * n)) with (N.to_nat c * N.to_nat n)%nat by lia.
      apply map_ext. intros j. unfold sample, sample_addr, at_. rewrite Lay.
      destruct (Szw q Hq) as [m [Hm [Nm Wm]]]. now rewrite Hm, Wm, Nm. }
    split.
    + destruct (contig_skips_by E f t (b_order b) Fx Ad (b_start b) (b_len b) es (map rq_skip reqs) (sg reqs) n (N.to_nat c))
        as [es' [R X]]; auto; try lia.
      { intros o. now apply sg_furthest. }
      rewrite R, Cnt. f_equal. eapply (outputs_by (esz t)); [exact ND|exact Hv|exact X|].
      intros o q x Hq Px. cbv beta. unfold oid_of. rewrite Px, (Fo o q Hq). f_equal. exact (Col q (nth_error_In _ _ Hq)).
    + intros Z. destruct (contig_zero_by E f t (b_order b) Fx Ad (b_start b) (b_len b) es n (N.to_nat c)) as [es' [R X]]; auto; try lia.
      assert (Cf : forall q, contig_first n reqs q = 0).
      { intros q. unfold contig_first. rewrite (skip_given_zero reqs q Z), (first_chunk_zero n reqs Hn Z).
        rewrite N.mod_0_l by lia. destruct (0 / n =? 0); lia. }
      rewrite R. f_equal.
      * rewrite (outputs_by (esz t) _ (fun q => block_samples f t b (rq_chan q) (c * n)) _ _ _ ND Hv X).
        -- apply map_ext. intros q. rewrite Cf. reflexivity.
        -- intros o q x Hq Px. exact (Col q (nth_error_In _ _ Hq)).
      * f_equal. destruct (last_request reqs) as [q|].
        -- destruct Lr as [o [Ho ->]]. cbn [lim_by]. rewrite Cf, N2Nat.id, N.sub_0_r. reflexivity.
        -- now rewrite Lr.
Qed.
End SkipReq.
