(** * Reading requested channels of one block *)
From Verif Require Import Base Lib DataTypes MetaData DataBlock Index RawData SpecIndex SpecRead Block_proofs.

Lemma nth_set_plan {V} (p : plan V) : forall es i j,
  nth_error (set_plan i p es) j =
  if Nat.eqb i j then option_map (fun x => mkEntry (en_len x) p) (nth_error es j) else nth_error es j.
Proof.
  induction es as [|x es IH]; intros i j.
  - destruct i, j; cbn [set_plan nth_error option_map]; match goal with |- context [Nat.eqb ?a ?b] => destruct (Nat.eqb a b) end; reflexivity.
  - destruct i, j; cbn [set_plan nth_error Nat.eqb]; try reflexivity. apply IH.
Qed.

Lemma map_seq {A B} (F : nat -> B) (G : A -> B) : forall l k,
  (forall o q, nth_error l o = Some q -> F (k + o)%nat = G q) -> map F (seq k (length l)) = map G l.
Proof.
  induction l as [|x l IH]; intros k H; cbn [length seq map]; [reflexivity|]. f_equal.
  - rewrite <- (H 0%nat x eq_refl). f_equal. lia.
  - apply IH. intros o q Hq. rewrite <- (H (S o) q Hq). f_equal. lia.
Qed.

Section Requests.
Context (E : env) (f : list byte) (t : sty).
Local Notation V := (carrier t).
Local Notation sz := (size_bytes t).

(** Entry [x] describes channel [m]. *)
Definition rel (x : entry V) (m : rawmeta) : Prop :=
  en_len x = rm_n m /\ wd t x = width (rm_type m) /\ good_entry t x.

Lemma base_rel chans : Forall (fun m => 0 < width (rm_type m)) chans -> Forall2 rel (base_record chans) chans.
Proof.
  induction chans as [|m chans IH]; intros F; cbn [base_record map]; constructor; inversion F; subst; auto.
  pose proof (width_16 (rm_type m)). unfold rel, wd, good_entry. cbn [en_len en_plan].
  rewrite width_dtype by assumption. rewrite as_i64_small by lia. split; [reflexivity|]. split; lia.
Qed.
Lemma set_plan_rel p es chans : Forall2 rel es chans -> forall i m, nth_error chans i = Some m ->
  width (rm_type m) = sz -> (exists o g r s, p = PRead o g r s) -> Forall2 rel (set_plan i p es) chans.
Proof.
  induction 1 as [|x m es chans R F IH]; intros i m' Hi Hw Hp; [destruct i; discriminate|].
  destruct i as [|i]; cbn [set_plan nth_error] in *; constructor; auto.
  - injection Hi as ->. destruct R as [R1 _]. destruct Hp as [o [g [r [s ->]]]].
    unfold rel, wd, good_entry. cbn [en_len en_plan]. auto.
  - eapply IH; eauto.
Qed.

Definition valid_req (chans : list rawmeta) (q : req) : Prop :=
  exists m, nth_error chans (rq_chan q) = Some m /\ supports t (rm_type m) = true.

Lemma set_readable_rel chans (Fx : fixed t) reqs : forall oid es, Forall2 rel es chans ->
  Forall (valid_req chans) reqs -> Forall2 rel (set_readable oid reqs es) chans.
Proof.
  induction reqs as [|q reqs IH]; intros oid es F Hv; cbn [set_readable]; [exact F|].
  inversion Hv as [|y l [m [Hm Hs]] Hv']; subst. apply IH; [|exact Hv'].
  eapply set_plan_rel; eauto. symmetry. now apply (width_sty t).
Qed.

Lemma validate_ok chans reqs : Forall (valid_req chans) reqs -> validate t reqs chans = Ok tt.
Proof.
  induction 1 as [|q reqs [m [Hm Hs]] F IH]; cbn [validate]; [reflexivity|]. now rewrite Hm, Hs.
Qed.

(** What the entries are. *)
Lemma nth_set_readable reqs : forall oid es, NoDup (map rq_chan reqs) -> forall j,
  match nth_error es j with
  | None => nth_error (set_readable oid reqs es) j = None
  | Some x =>
    (exists o q, nth_error reqs o = Some q /\ rq_chan q = j
       /\ nth_error (set_readable oid reqs es) j = Some (mkEntry (en_len x) (PRead (oid + o) ([] : list V) (rq_room q) 0)))
    \/ (~ In j (map rq_chan reqs) /\ nth_error (set_readable oid reqs es) j = Some x)
  end.
Proof.
  induction reqs as [|q reqs IH]; intros oid es ND j; cbn [set_readable].
  - destruct (nth_error es j); [right|]; auto.
  - cbn [map] in ND. inversion ND as [|y l Hn ND']; subst.
    specialize (IH (S oid) (set_plan (rq_chan q) (PRead oid [] (rq_room q) 0) es) ND' j).
    rewrite nth_set_plan in IH. destruct (Nat.eqb (rq_chan q) j) eqn:K.
    + apply Nat.eqb_eq in K. subst j. destruct (nth_error es (rq_chan q)) as [x|]; cbn [option_map en_len] in IH; [|exact IH].
      left. destruct IH as [[o [q' [Hq [Hj _]]]]|[_ IH]].
      * exfalso. apply Hn. rewrite <- Hj. apply in_map. eapply nth_error_In; eauto.
      * exists 0%nat, q. rewrite Nat.add_0_r. auto.
    + apply Nat.eqb_neq in K. destruct (nth_error es j) as [x|]; [|exact IH].
      destruct IH as [[o [q' [Hq [Hj IH]]]]|[Hni IH]].
      * left. exists (S o), q'. cbn [nth_error]. replace (oid + S o)%nat with (S oid + o)%nat by lia. auto.
      * right. split; [|exact IH]. cbn [map]. intros [X|X]; auto.
Qed.

Definition entries (chans : list rawmeta) (reqs : list req) : list (entry V) := set_readable 0 reqs (base_record chans).

Lemma entries_at chans reqs j x : NoDup (map rq_chan reqs) -> nth_error (entries chans reqs) j = Some x ->
  exists m, nth_error chans j = Some m /\ en_len x = rm_n m
    /\ ((exists o q, nth_error reqs o = Some q /\ rq_chan q = j /\ en_plan x = PRead o [] (rq_room q) 0)
        \/ (exists b, en_plan x = PSkip b)).
Proof.
  intros ND H. pose proof (nth_set_readable reqs 0 (base_record chans) ND j) as K.
  fold (entries chans reqs) in K. unfold base_record in K. rewrite nth_error_map in K.
  destruct (nth_error chans j) as [m|]; cbn [option_map en_len] in K; [|congruence]. exists m. split; [reflexivity|].
  destruct K as [[o [q [Hq [Hj K]]]]|[_ K]]; rewrite K in H; injection H as <-; cbn [en_len en_plan]; split; auto.
  - left. exists o, q. auto.
  - right. eexists. reflexivity.
Qed.
Lemma entries_req chans reqs o q : NoDup (map rq_chan reqs) -> nth_error reqs o = Some q ->
  valid_req chans q ->
  exists x, nth_error (entries chans reqs) (rq_chan q) = Some x /\ en_plan x = PRead o [] (rq_room q) 0.
Proof.
  intros ND Hq [m [Hm _]]. pose proof (nth_set_readable reqs 0 (base_record chans) ND (rq_chan q)) as K.
  fold (entries chans reqs) in K. unfold base_record in K. rewrite nth_error_map, Hm in K. cbn [option_map en_len] in K.
  destruct K as [[o' [q' [Hq' [Hj K]]]]|[K _]].
  - eexists. split; [exact K|]. cbn [en_plan].
    assert (o' = o).
    { assert (A : nth_error (map rq_chan reqs) o' = nth_error (map rq_chan reqs) o)
        by (rewrite !nth_error_map, Hq, Hq'; cbn [option_map]; congruence).
      apply (proj1 (NoDup_nth_error (map rq_chan reqs)) ND) in A; [exact A|].
      rewrite map_length. apply nth_error_Some. congruence. }
    subst o'. cbn [Nat.add]. congruence.
  - exfalso. apply K. apply in_map. eapply nth_error_In; eauto.
Qed.

(** Harvesting. *)
Lemma harvest_unique o (es : list (entry V)) : forall i x g r s, nth_error es i = Some x -> en_plan x = PRead o g r s ->
  (forall j y g r s, nth_error es j = Some y -> en_plan y = PRead o g r s -> j = i) -> harvest o es = g.
Proof.
  induction es as [|y es IH]; intros i x g r s Hi Hp U; [destruct i; discriminate|]. cbn [harvest].
  assert (Hrest : forall i', i = S i' -> harvest o es = g).
  { intros i' ->. cbn [nth_error] in Hi. eapply IH; eauto. intros j z g' r' s' Hj Hz.
    specialize (U (S j) z g' r' s' Hj Hz). congruence. }
  destruct (en_plan y) as [b|o' g' r' s'] eqn:P.
  - destruct i as [|i]; [cbn [nth_error] in Hi; congruence|]. eauto.
  - destruct (Nat.eqb o' o) eqn:K.
    + apply Nat.eqb_eq in K. subst o'. specialize (U 0%nat y g' r' s' eq_refl P). subst i.
      cbn [nth_error] in Hi. congruence.
    + destruct i as [|i]; [|eauto]. cbn [nth_error] in Hi. injection Hi as ->. apply Nat.eqb_neq in K. congruence.
Qed.

Lemma exts_nth step D es : forall off es' i x, exts t step D off es es' -> nth_error es i = Some x ->
  exists x', nth_error es' i = Some x'
    /\ ext t (D (off + fold_right (fun y a => step y + a) 0 (firstn i es)) x) x x'.
Proof.
  induction es as [|y es IH]; intros off [|y' es'] i x H Hi; try contradiction; [destruct i; discriminate|].
  destruct H as [A B]. destruct i as [|i]; cbn [nth_error firstn fold_right] in *.
  - injection Hi as ->. exists y'. rewrite N.add_0_r. auto.
  - destruct (IH _ _ _ _ B Hi) as [x' [H1 H2]]. exists x'. split; [exact H1|].
    rewrite N.add_assoc. exact H2.
Qed.

Lemma exts_outputs step D chans reqs es' : NoDup (map rq_chan reqs) -> Forall (valid_req chans) reqs ->
  exts t step (fun o _ => D o) 0 (entries chans reqs) es' ->
  outputs reqs es' =
  map (fun q => firstn (rq_room q) (D (fold_right (fun y a => step y + a) 0 (firstn (rq_chan q) (entries chans reqs))))) reqs.
Proof.
  intros ND Hv X. unfold outputs. apply map_seq. intros o q Hq. cbn [Nat.add].
  assert (Vq : valid_req chans q) by (rewrite Forall_forall in Hv; apply Hv; eapply nth_error_In; eauto).
  destruct (entries_req chans reqs o q ND Hq Vq) as [x [Hx Px]].
  destruct (exts_nth _ _ _ _ _ _ _ X Hx) as [x' [Hx' [_ A]]]. rewrite Px in A. destruct A as [s' A].
  eapply harvest_unique; [exact Hx'|exact A|].
  intros j y g r s Hj Py.
  assert (Lj : exists y0, nth_error (entries chans reqs) j = Some y0).
  { destruct (nth_error (entries chans reqs) j) eqn:K; [eauto|]. apply nth_error_None in K.
    rewrite <- (exts_length _ _ _ _ _ _ X) in K. apply nth_error_None in K. congruence. }
  destruct Lj as [y0 Hy0]. destruct (exts_nth _ _ _ _ _ _ _ X Hy0) as [y1 [Hy1 [_ B]]].
  rewrite Hj in Hy1. injection Hy1 as <-.
  destruct (entries_at chans reqs j y0 ND Hy0) as [m [_ [_ [[o' [q' [Hq' [Hj' P']]]]|[b P']]]]].
  - rewrite P' in B. destruct B as [s2 B]. rewrite Py in B. injection B as -> _ _ _. congruence.
  - rewrite P' in B. congruence.
Qed.

(** Sums over the entries. *)
Lemma rel_total es chans : Forall2 rel es chans -> total t es = sub_bytes chans.
Proof.
  induction 1 as [|x m es chans [R1 [R2 _]] F IH]; [reflexivity|]. unfold total, sub_bytes. cbn [fold_right].
  fold (total t es) (sub_bytes chans). unfold esz. now rewrite R1, R2, IH.
Qed.
Lemma rel_row es chans : Forall2 rel es chans -> rowtotal t es = row_bytes chans.
Proof.
  induction 1 as [|x m es chans [R1 [R2 _]] F IH]; [reflexivity|]. unfold rowtotal, row_bytes. cbn [fold_right].
  fold (rowtotal t es) (row_bytes chans). now rewrite R2, IH.
Qed.
Lemma rel_firstn es chans : Forall2 rel es chans -> forall i, Forall2 rel (firstn i es) (firstn i chans).
Proof. induction 1; intros [|i]; cbn [firstn]; constructor; auto. Qed.
Lemma rel_good es chans : Forall2 rel es chans -> Forall (good_entry t) es.
Proof. induction 1 as [|x m es chans [_ [_ R]] F IH]; constructor; auto. Qed.
Lemma rel_len n es chans : Forall2 rel es chans -> Forall (fun m => rm_n m = n) chans -> Forall (fun x => en_len x = n) es.
Proof.
  induction 1 as [|x m es chans [R _] F IH]; intros H; constructor; inversion H; subst; auto.
Qed.
Lemma sub_row n chans : Forall (fun m => rm_n m = n) chans -> sub_bytes chans = n * row_bytes chans.
Proof.
  induction 1 as [|m chans Hm F IH]; [cbn; lia|]. unfold sub_bytes, row_bytes. cbn [fold_right].
  fold (sub_bytes chans) (row_bytes chans). rewrite IH, Hm. lia.
Qed.

(** Number of entries read. *)
Lemma nreads_set_plan es : forall i x b p, nth_error es i = Some x -> en_plan x = PSkip b ->
  (exists o g r s, p = PRead o g r s) -> nreads t (set_plan i p es) = S (nreads t es).
Proof.
  unfold nreads. induction es as [|y es IH]; intros i x b p Hi Px Hp; [destruct i; discriminate|].
  destruct i as [|i]; cbn [nth_error set_plan filter] in *.
  - injection Hi as ->. destruct Hp as [o [g [r [s ->]]]].
    assert (R : is_read t x = false) by (unfold is_read; now rewrite Px). rewrite R. reflexivity.
  - destruct (is_read t y); cbn [length]; erewrite IH; eauto.
Qed.
Lemma nreads_set_readable reqs : forall oid es, NoDup (map rq_chan reqs) ->
  Forall (fun q => exists x b, nth_error es (rq_chan q) = Some x /\ en_plan x = PSkip b) reqs ->
  nreads t (set_readable oid reqs es) = (length reqs + nreads t es)%nat.
Proof.
  induction reqs as [|q reqs IH]; intros oid es ND H; cbn [set_readable length]; [reflexivity|].
  cbn [map] in ND. inversion ND as [|y l Hn ND']; subst. inversion H as [|y l [x [b [Hx Px]]] H']; subst.
  rewrite IH; [erewrite nreads_set_plan; [|exact Hx|exact Px|eauto]; lia|exact ND'|].
  rewrite Forall_forall in *. intros q' Hq'. destruct (H' q' Hq') as [x' [b' [Hx' Px']]].
  exists x', b'. rewrite nth_set_plan. destruct (Nat.eqb (rq_chan q) (rq_chan q')) eqn:K; [|auto].
  apply Nat.eqb_eq in K. exfalso. apply Hn. rewrite K. now apply in_map.
Qed.
Lemma nreads_entries chans reqs : NoDup (map rq_chan reqs) -> Forall (valid_req chans) reqs ->
  nreads t (entries chans reqs) = length reqs.
Proof.
  intros ND Hv. unfold entries. rewrite nreads_set_readable; [|exact ND|].
  - assert (Z : nreads t (base_record chans) = 0%nat).
    { unfold nreads, base_record. clear. induction chans as [|m chans IH]; [reflexivity|]. exact IH. }
    lia.
  - eapply Forall_impl; [|exact Hv]. intros q [m [Hm _]]. unfold base_record. rewrite nth_error_map, Hm.
    cbn [option_map]. eexists _, _. split; [reflexivity|]. reflexivity.
Qed.

(** Number of samples reported. *)
Lemma last_rm_some (es : list (entry V)) : forall d r, last_rm t d es = Some r ->
  (exists i x o g s, nth_error es i = Some x /\ en_plan x = PRead o g r s
     /\ forall j y, nth_error es j = Some y -> is_read t y = true -> (j <= i)%nat)
  \/ (d = Some r /\ forall j y, nth_error es j = Some y -> is_read t y = false).
Proof.
  induction es as [|x es IH]; intros d r H; cbn [last_rm] in H.
  - right. split; [exact H|]. intros [|j]; discriminate.
  - apply IH in H. destruct H as [[i [y [o [g [s [Hi [Py U]]]]]]]|[Hd U]].
    + left. exists (S i), y, o, g, s. split; [exact Hi|]. split; [exact Py|].
      intros [|j] z Hz Rz; [lia|]. cbn [nth_error] in Hz. specialize (U j z Hz Rz). lia.
    + destruct (en_plan x) as [b|o g r' s] eqn:P.
      * right. split; [exact Hd|]. intros [|j] y Hy; cbn [nth_error] in Hy; [|eauto].
        injection Hy as <-. unfold is_read. now rewrite P.
      * left. injection Hd as ->. exists 0%nat, x, o, g, s. do 2 (split; [auto|]).
        intros [|j] y Hy Ry; [lia|]. cbn [nth_error] in Hy. rewrite (U j y Hy) in Ry. discriminate.
Qed.
Lemma last_rm_stays (es : list (entry V)) : forall r, exists r', last_rm t (Some r) es = Some r'.
Proof. induction es as [|x es IH]; intros r; cbn [last_rm]; [eauto|]. destruct (en_plan x); apply IH. Qed.
Lemma last_rm_no (es : list (entry V)) : last_rm t None es = None -> nreads t es = 0%nat.
Proof.
  unfold nreads. induction es as [|x es IH]; intros H; [reflexivity|]. cbn [last_rm filter] in *.
  destruct (is_read t x) eqn:R; unfold is_read in R; destruct (en_plan x); try discriminate; auto.
  destruct (last_rm_stays es room) as [r' K]. congruence.
Qed.
Lemma max_room_le (es : list (entry V)) : forall i x o g r s, nth_error es i = Some x -> en_plan x = PRead o g r s ->
  (r <= max_room t es)%nat.
Proof.
  induction es as [|y es IH]; intros i x o g r s Hi Px; [destruct i; discriminate|]. cbn [max_room].
  destruct i as [|i]; cbn [nth_error] in Hi.
  - injection Hi as ->. rewrite Px. lia.
  - specialize (IH _ _ _ _ _ _ Hi Px). lia.
Qed.
Lemma max_room_in (es : list (entry V)) : nreads t es <> 0%nat ->
  exists i x o g s, nth_error es i = Some x /\ en_plan x = PRead o g (max_room t es) s.
Proof.
  unfold nreads. induction es as [|y es IH]; intros H; [contradiction|]. cbn [max_room filter] in *.
  destruct (is_read t y) eqn:R; unfold is_read in R; destruct (en_plan y) as [b|o g r s] eqn:P; try discriminate.
  - destruct (filter (is_read t) es) as [|z l] eqn:Fl.
    + exists 0%nat, y, o, g, s. split; [reflexivity|]. rewrite P. f_equal.
      assert (M : max_room t es = 0%nat).
      { clear -Fl. induction es as [|w es IH]; [reflexivity|]. cbn [filter max_room] in *.
        destruct (is_read t w) eqn:R; [discriminate|]. unfold is_read in R. destruct (en_plan w); [|discriminate].
        rewrite (IH Fl). reflexivity. }
      lia.
    + destruct IH as [i [x [o' [g' [s' [Hi Px]]]]]]; [discriminate|].
      destruct (Nat.le_gt_cases (max_room t es) r).
      * exists 0%nat, y, o, g, s. split; [reflexivity|]. rewrite P. f_equal. lia.
      * exists (S i), x, o', g', s'. split; [exact Hi|]. rewrite Px. f_equal. lia.
  - destruct (IH H) as [i [x [o' [g' [s' [Hi Px]]]]]]. exists (S i), x, o', g', s'. auto.
Qed.

(** The count reported when [avail] samples remain after the skip. *)
Definition counted (lay : layout) (reqs : list req) (avail k : N) : Prop :=
  (reqs = [] -> k = 0)
  /\ (reqs <> [] ->
      match lay with
      | Contigious => exists q, In q reqs /\ (forall q', In q' reqs -> (rq_chan q' <= rq_chan q)%nat)
                                /\ k = N.min (N.of_nat (rq_room q)) avail
      | Interleaved => exists q, In q reqs /\ (forall q', In q' reqs -> (rq_room q' <= rq_room q)%nat)
                                 /\ k = N.min (N.of_nat (rq_room q)) avail
      end).

Lemma counted_contig chans reqs avail : NoDup (map rq_chan reqs) -> Forall (valid_req chans) reqs ->
  counted Contigious reqs avail (lim (last_rm t None (entries chans reqs)) avail).
Proof.
  intros ND Hv. pose proof (nreads_entries chans reqs ND Hv) as Nr.
  destruct (last_rm t None (entries chans reqs)) as [r|] eqn:L; cbn [lim].
  - apply last_rm_some in L. destruct L as [[i [x [o [g [s [Hi [Px U]]]]]]]|[L _]]; [|discriminate].
    destruct (entries_at chans reqs i x ND Hi) as [m [_ [_ [[o' [q [Hq [Hj P']]]]|[b P']]]]]; [|congruence].
    rewrite Px in P'. injection P' as -> _ -> _. split.
    + intros ->. destruct o'; discriminate.
    + intros _. exists q. split; [eapply nth_error_In; eauto|]. split; [|reflexivity].
      intros q' Hq'. apply In_nth_error in Hq'. destruct Hq' as [o2 Hq'].
      assert (Vq : valid_req chans q') by (rewrite Forall_forall in Hv; apply Hv; eapply nth_error_In; eauto).
      destruct (entries_req chans reqs o2 q' ND Hq' Vq) as [y [Hy Py]].
      rewrite Hj. apply (U _ y Hy). unfold is_read. now rewrite Py.
  - apply last_rm_no in L. rewrite Nr in L. destruct reqs; [|discriminate]. split; [reflexivity|congruence].
Qed.
Lemma counted_inter chans reqs avail : NoDup (map rq_chan reqs) -> Forall (valid_req chans) reqs ->
  counted Interleaved reqs avail (N.min (N.of_nat (max_room t (entries chans reqs))) avail).
Proof.
  intros ND Hv. pose proof (nreads_entries chans reqs ND Hv) as Nr. split.
  - intros ->. assert (M : max_room t (entries chans []) = 0%nat).
    { unfold entries. cbn [set_readable]. unfold base_record. clear. induction chans; [reflexivity|]. exact IHchans. }
    rewrite M. lia.
  - intros Hne. assert (Nz : nreads t (entries chans reqs) <> 0%nat) by (rewrite Nr; destruct reqs; [congruence|discriminate]).
    destruct (max_room_in _ Nz) as [i [x [o [g [s [Hi Px]]]]]].
    destruct (entries_at chans reqs i x ND Hi) as [m [_ [_ [[o' [q [Hq [Hj P']]]]|[b P']]]]]; [|congruence].
    rewrite Px in P'. injection P' as -> _ M _. exists q. split; [eapply nth_error_In; eauto|].
    split; [|now rewrite M].
    intros q' Hq'. apply In_nth_error in Hq'. destruct Hq' as [o2 Hq'].
    assert (Vq : valid_req chans q') by (rewrite Forall_forall in Hv; apply Hv; eapply nth_error_In; eauto).
    destruct (entries_req chans reqs o2 q' ND Hq' Vq) as [y [Hy Py]].
    rewrite <- M. eapply max_room_le; eauto.
Qed.
Lemma max_room_skip s (es : list (entry V)) : max_room t (set_all_skips s es) = max_room t es.
Proof.
  unfold set_all_skips. induction es as [|x es IH]; cbn [map max_room]; [reflexivity|]. rewrite IH.
  unfold set_skip. destruct (en_plan x) eqn:P; cbn [en_plan]; [now rewrite P|reflexivity].
Qed.

(** The values offered are the samples of the channel. *)
Lemma col_samples e start c n m off : 0 < n ->
  col f t e start c n m off (mkEntry 0 (PSkip 0)) =
  map (fun k => at_ f t e (start + (N.of_nat k / n) * c + off + (N.of_nat k mod n) * sz)) (seq 0 (m * N.to_nat n)).
Proof.
  intros Hn. revert start. induction m as [|m IH]; intros start; [reflexivity|]. rewrite col_S, IH.
  cbn [Nat.mul]. rewrite seq_app, map_app. f_equal.
  - unfold run. apply map_ext_in. intros k Hk. apply in_seq in Hk.
    rewrite N.div_small, N.mod_small by lia. f_equal. lia.
  - cbn [Nat.add]. rewrite <- (Nat.add_0_r (N.to_nat n)) at 2.
    assert (Sh : forall a len, seq (N.to_nat n + a) len = map (fun k => (N.to_nat n + k)%nat) (seq a len)).
    { intros a len. revert a. induction len as [|len IHl]; intros a; [reflexivity|]. cbn [seq map]. f_equal.
      rewrite <- IHl. f_equal. lia. }
    rewrite Sh, map_map. apply map_ext. intros k.
    replace (N.of_nat (N.to_nat n + k)) with (N.of_nat k + 1 * n) by lia.
    rewrite N.div_add, N.mod_add by lia. f_equal. lia.
Qed.

Lemma block_ok b reqs s n c : fixed t -> addressable E f ->
  0 < n -> 0 < c -> b_chans b <> [] ->
  Forall (fun m => rm_n m = n /\ 0 < width (rm_type m)) (b_chans b) ->
  chunks b c -> b_start b + c * sub_bytes (b_chans b) <= lenN f ->
  Forall (valid_req (b_chans b)) reqs -> NoDup (map rq_chan reqs) -> s <= c * n ->
  let outs := map (fun q => firstn (rq_room q) (skipn (N.to_nat s) (block_samples f t b (rq_chan q) (c * n)))) reqs in
  exists k, counted (b_layout b) reqs (c * n - s) k
    /\ block_read_from E f t b reqs s = (outs, Ok k)
    /\ (s = 0 -> block_read E f t b reqs = (outs, Ok k))
    /\ (Forall (fun q => rq_skip q = s) reqs -> block_read_skips E f t b reqs = (outs, Ok k)).
Proof.
  intros Fx Ad Hn Hc Hne Hu Hb He Hv ND Hs outs.
  assert (Hun : Forall (fun m => rm_n m = n) (b_chans b)) by (eapply Forall_impl; [|exact Hu]; cbv beta; tauto).
  assert (Hw : Forall (fun m => 0 < width (rm_type m)) (b_chans b)) by (eapply Forall_impl; [|exact Hu]; cbv beta; tauto).
  set (es := entries (b_chans b) reqs).
  assert (F2 : Forall2 rel es (b_chans b)) by (apply set_readable_rel; [exact Fx|now apply base_rel|exact Hv]).
  pose proof (rel_good _ _ F2) as G. pose proof (rel_len n _ _ F2 Hun) as L.
  assert (Hes : es <> []).
  { intros K. rewrite K in F2. inversion F2. congruence. }
  pose proof (nreads_entries (b_chans b) reqs ND Hv) as Nr. fold es in Nr.
  assert (Bp : build_record_plan t (b_chans b) reqs = Ok es).
  { unfold build_record_plan. rewrite validate_ok by exact Hv. reflexivity. }
  assert (Sk : Forall (fun q => rq_skip q = s) reqs -> map rq_skip reqs = repeat s (nreads t es)).
  { intros Q. rewrite Nr. clear -Q. induction Q as [|q reqs Hq Q IH]; cbn [map length repeat]; [reflexivity|]. now rewrite Hq, IH. }
  assert (Cs0 : common_skip t 0 es).
  { intros x Hx o g r s' P. apply In_nth_error in Hx. destruct Hx as [j Hj].
    destruct (entries_at (b_chans b) reqs j x ND Hj) as [m [_ [_ [[o' [q [Hq [_ P']]]]|[b' P']]]]]; congruence. }
  assert (Szw : forall q, In q reqs -> exists m, nth_error (b_chans b) (rq_chan q) = Some m /\ rm_n m = n /\ width (rm_type m) = sz).
  { intros q Hq. rewrite Forall_forall in Hv. destruct (Hv q Hq) as [m [Hm Hsu]]. exists m. split; [exact Hm|].
    rewrite Forall_forall in Hun. split; [apply Hun; eapply nth_error_In; eauto|]. symmetry. now apply (width_sty t). }
  unfold chunks in Hb. unfold block_read_from, block_read, block_read_skips. rewrite Bp. destruct (b_layout b) eqn:Lay.
  - assert (Rt : rowtotal t es = row_bytes (b_chans b)) by now apply rel_row.
    assert (Hlen : b_len b = N.of_nat (N.to_nat (c * n)) * rowtotal t es).
    { rewrite Hb, (sub_row n) by exact Hun. rewrite Rt, N2Nat.id. lia. }
    assert (Hcn : 0 < c * n) by nia.
    exists (N.min (N.of_nat (max_room t es)) (c * n - s)). split; [now apply counted_inter|].
    assert (Main : exists es', inter_read E f t (b_order b) (b_start b) (b_len b) (set_all_skips s es)
        = (es', Ok (N.min (N.of_nat (max_room t es)) (c * n - s))) /\ outputs reqs es' = outs).
    { pose proof (exts_skip t (wd t) s es 0) as X1.
      assert (G1 : Forall (good_entry t) (set_all_skips s es))
        by (eapply exts_forall; [|exact X1|exact G]; intros vs x x' A; apply ext_wd in A; tauto).
      assert (R1 : rowtotal t (set_all_skips s es) = rowtotal t es) by (eapply exts_rowtotal; exact X1).
      destruct (inter_read_ok E f t (b_order b) Fx Ad (b_start b) (b_len b) (set_all_skips s es) s (N.to_nat (c * n)))
        as [es' [R X]]; auto; try lia.
      { unfold set_all_skips. intros K. apply map_eq_nil in K. contradiction. }
      { intros x Hx. apply (set_all_entry t s es x Hx). }
      exists es'. rewrite R, max_room_skip, N2Nat.id. split; [reflexivity|].
      assert (X' : exts t (wd t) (fun o _ => [] ++ skipn (N.to_nat s) (icol f t (b_order b) (b_start b) (rowtotal t es) (N.to_nat (c * n)) o)) 0 es es').
      { rewrite R1 in X. eapply exts_app; [apply wd_stable| |exact X1|exact X]. intros vs x x' o A. reflexivity. }
      cbn [app] in X'.
      rewrite (exts_outputs (wd t) (fun o => skipn (N.to_nat s) (icol f t (b_order b) (b_start b) (rowtotal t es) (N.to_nat (c * n)) o))
                 (b_chans b) reqs es' ND Hv X').
      unfold outs. apply map_ext_in. intros q Hq. do 2 f_equal.
      change (fold_right (fun y a => wd t y + a) 0 (firstn (rq_chan q) (entries (b_chans b) reqs)))
        with (rowtotal t (firstn (rq_chan q) es)).
      rewrite (rel_row _ _ (rel_firstn _ _ F2 (rq_chan q))), Rt.
      unfold icol, block_samples. apply map_ext. intros k. unfold sample, sample_addr, at_. rewrite Lay.
      destruct (Szw q Hq) as [m [Hm [_ Wm]]]. now rewrite Hm, Wm. }
    destruct Main as [es' [R O]]. split; [now rewrite R, O|]. split.
    + intros ->. assert (Id : set_all_skips 0 es = es).
      { unfold set_all_skips. rewrite <- (map_id es) at 2. apply map_ext_in. intros x Hx. unfold set_skip.
        destruct (en_plan x) as [b'|o g r s'] eqn:P; [reflexivity|]. rewrite (Cs0 x Hx _ _ _ _ P) in P.
        destruct x as [l p]. cbn [en_len en_plan] in *. congruence. }
      rewrite Id in R. now rewrite R, O.
    + intros Q. rewrite (Sk Q), zip_repeat. now rewrite R, O.
  - assert (Tt : total t es = sub_bytes (b_chans b)) by now apply rel_total.
    assert (Hlen : b_len b / total t es = N.of_nat (N.to_nat c)) by (rewrite Tt, N2Nat.id; exact Hb).
    assert (Hin : b_start b + N.of_nat (N.to_nat c) * total t es <= lenN f) by (rewrite Tt, N2Nat.id; exact He).
    exists (lim (last_rm t None es) (c * n - s)). split; [now apply counted_contig|].
    assert (Out : forall es', exts t (esz t) (fun off x => skipn (N.to_nat s) (col f t (b_order b) (b_start b) (total t es) n (N.to_nat c) off x)) 0 es es' ->
              outputs reqs es' = outs).
    { intros es' X.
      rewrite (exts_outputs (esz t) (fun off => skipn (N.to_nat s) (col f t (b_order b) (b_start b) (total t es) n (N.to_nat c) off (mkEntry 0 (PSkip 0))))
                 (b_chans b) reqs es' ND Hv X).
      unfold outs. apply map_ext_in. intros q Hq. do 2 f_equal.
      change (fold_right (fun y a => esz t y + a) 0 (firstn (rq_chan q) (entries (b_chans b) reqs)))
        with (total t (firstn (rq_chan q) es)).
      rewrite (rel_total _ _ (rel_firstn _ _ F2 (rq_chan q))), Tt, col_samples by exact Hn.
      unfold block_samples. replace (N.to_nat (c * n)) with (N.to_nat c * N.to_nat n)%nat by lia.
      apply map_ext. intros k. unfold sample, sample_addr, at_. rewrite Lay.
      destruct (Szw q Hq) as [m [Hm [Nm Wm]]]. now rewrite Hm, Wm, Nm. }
    assert (From : forall s', s' = s -> exists es', contig_read_from E f t (b_order b) (b_start b) (b_len b) es s'
        = (es', Ok (lim (last_rm t None es) (c * n - s))) /\ outputs reqs es' = outs).
    { intros s' ->. destruct (contig_from_ok E f t (b_order b) Fx Ad (b_start b) (b_len b) es s n (N.to_nat c)) as [es' [R X]]; auto; try lia.
      exists es'. rewrite R, N2Nat.id. auto. }
    split; [destruct (From s eq_refl) as [es' [R O]]; now rewrite R, O|]. split.
    + intros Z. destruct (From 0 (eq_sym Z)) as [es' [R O]]. now rewrite R, O.
    + intros Q. rewrite (Sk Q).
      destruct (contig_skips_ok E f t (b_order b) Fx Ad (b_start b) (b_len b) es s n (N.to_nat c)) as [es' [R X]]; auto; try lia.
      rewrite R, N2Nat.id, (Out es' X). reflexivity.
Qed.
End Requests.
