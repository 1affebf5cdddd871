(** * Reading one block with a skip per channel *)
From Verif Require Import Base Lib DataTypes MetaData DataBlock Index RawData SpecIndex SpecRead SpecMulti
  Block_proofs Request_proofs.

Section Skips.
Context (E : env) (f : list byte) (t : sty) (e : endian).
Hypothesis (Fx : sized t) (Ad : addressable E f).
Local Notation V := (carrier t).

Definition oid_of (x : entry V) : nat := match en_plan x with PRead o _ _ _ => o | PSkip _ => 0%nat end.
Definition set_by (g : nat -> N) (es : list (entry V)) : list (entry V) := map (fun x => set_skip (g (oid_of x)) x) es.
(** Requests behind the entries, in the order of the block. *)
Definition oids (es : list (entry V)) : list nat :=
  flat_map (fun x => match en_plan x with PRead o _ _ _ => [o] | PSkip _ => [] end) es.

Lemma ext_oid vs x x' : ext t vs x x' -> oid_of x' = oid_of x.
Proof. intros [_ H]. unfold oid_of. destruct (en_plan x); [now rewrite H|]. destruct H as [s H]. now rewrite H. Qed.
Lemma exts_oids step D es : forall off es', exts t step D off es es' -> oids es' = oids es.
Proof.
  unfold oids. induction es as [|x es IH]; intros off [|x' es'] H; try contradiction; [reflexivity|].
  destruct H as [[_ A] B]. cbn [flat_map]. erewrite IH by eauto. f_equal.
  destruct (en_plan x); [now rewrite A|]. destruct A as [s A]. now rewrite A.
Qed.
Lemma oids_length es : length (oids es) = nreads t es.
Proof.
  unfold oids, nreads. induction es as [|x es IH]; [reflexivity|]. cbn [flat_map filter]. rewrite app_length, IH.
  unfold is_read. destruct (en_plan x); reflexivity.
Qed.
Lemma exts_set_by step g es : forall off, exts t step (fun _ _ => []) off es (set_by g es).
Proof.
  unfold set_by. induction es as [|x es IH]; intros off; cbn [exts map]; [exact I|].
  split; [apply ext_skip|apply IH].
Qed.
Lemma set_by_entry g es x : In x (set_by g es) -> forall o r gt s, en_plan x = PRead o gt r s -> s = g o.
Proof.
  unfold set_by. rewrite in_map_iff. intros [y [<- _]] o r gt s H. unfold set_skip, oid_of in H.
  destruct (en_plan y) eqn:P; cbn [en_plan] in H; congruence.
Qed.
Lemma zip_by {A} (g : A -> N) (lk : nat -> A) es : forall l, map lk (oids es) = l ->
  zip_skips (map g l) es = set_by (fun o => g (lk o)) es.
Proof.
  unfold oids, set_by. induction es as [|x es IH]; intros l H; [reflexivity|]. cbn [zip_skips map flat_map] in *.
  destruct (en_plan x) as [b|o gt r s] eqn:P; cbn [app map] in H.
  - rewrite (IH l H). f_equal. unfold set_skip. now rewrite P.
  - destruct l as [|a l]; [discriminate|]. injection H as <- H. cbn [map]. rewrite (IH l H). f_equal.
    unfold oid_of. now rewrite P.
Qed.

(** The last entry read: its request and its room. *)
Fixpoint last_read (d : option (nat * nat)) (es : list (entry V)) : option (nat * nat) :=
  match es with
  | [] => d
  | x :: r => last_read (match en_plan x with PRead o _ rm _ => Some (o, rm) | PSkip _ => d end) r
  end.
Definition lim_by (d : option (nat * nat)) (k : nat -> N) : N :=
  match d with Some (o, r) => N.min (N.of_nat r) (k o) | None => 0 end.

Lemma last_read_set g es : forall d, last_read d (set_by g es) = last_read d es.
Proof.
  unfold set_by. induction es as [|x es IH]; intros d; cbn [map last_read]; [reflexivity|].
  rewrite IH. unfold set_skip. destruct (en_plan x) eqn:P; cbn [en_plan]; [now rewrite P|reflexivity].
Qed.
Lemma last_read_exts step D (k : nat -> nat) es : forall off es' d,
  (forall o x, In x es -> is_read t x = true -> length (D o x) = k (oid_of x)) ->
  exts t step D off es es' ->
  last_read (option_map (fun p => (fst p, (snd p - k (fst p))%nat)) d) es'
  = option_map (fun p => (fst p, (snd p - k (fst p))%nat)) (last_read d es).
Proof.
  induction es as [|x es IH]; intros off [|x' es'] d HD H; try contradiction; [reflexivity|].
  destruct H as [A B]. cbn [last_read].
  assert (HD' : forall o y, In y es -> is_read t y = true -> length (D o y) = k (oid_of y)) by (intros; apply HD; [now right|assumption]).
  destruct A as [_ A]. specialize (HD off x (or_introl eq_refl)). unfold is_read, oid_of in HD.
  destruct (en_plan x) as [b|o g r s].
  - rewrite A. eapply IH; eauto.
  - destruct A as [s' A]. rewrite A. rewrite HD by reflexivity.
    change (Some (o, (r - k o)%nat)) with (option_map (fun p : nat * nat => (fst p, (snd p - k (fst p))%nat)) (Some (o, r))).
    eapply IH; eauto.
Qed.
Lemma last_room_by n g es : Forall (fun x => en_len x = n) es ->
  (forall x, In x es -> forall o gt r s, en_plan x = PRead o gt r s -> s = g o) ->
  forall d d', d = option_map (fun p : nat * nat => (n, snd p, g (fst p))) d' ->
  last_room t d es = option_map (fun p => (n, snd p, g (fst p))) (last_read d' es).
Proof.
  induction es as [|x es IH]; intros Hn Hs d d' Hd; cbn [last_read last_room]; [exact Hd|].
  inversion Hn; subst x0 l. apply IH; auto.
  - intros y Hy. apply Hs. now right.
  - destruct (en_plan x) eqn:P; [exact Hd|]. rewrite (Hs x (or_introl eq_refl) _ _ _ _ P). cbn [option_map fst snd]. congruence.
Qed.

(** ** Contiguous blocks *)
Lemma contig_loop_by step n c Q (lk : nat -> N * N) ids : 0 < n -> (forall o, snd (lk o) < n) -> (forall o, fst (lk o) <= Q) ->
  (forall idx es, oids es = ids -> step idx es =
     if idx <? Q then None else Some (set_by (fun o => skip_for idx (lk o)) es)) ->
  forall m idx es len pos,
  oids es = ids -> Forall (good_entry t) es -> Forall (fun x => en_len x = n) es -> total t es = c -> c < 2 ^ 63 ->
  pos + N.of_nat m * c <= lenN f ->
  let s o := if idx <=? Q then (Q - idx) * n + (if fst (lk o) =? Q then snd (lk o) else 0) else 0 in
  exists es', contig_loop E f t e step m idx es len pos
      = (es', Ok (len + lim_by (last_read None es) (fun o => N.of_nat m * n - s o)))
    /\ exts t (esz t) (fun off x => skipn (N.to_nat (s (oid_of x))) (col f t e pos c n m off x)) 0 es es'.
Proof.
  intros Hn Hrm Hq Hst. induction m as [|m IH]; intros idx es len pos Hid G Hl Ht Hc H s; cbn [contig_loop].
  - exists es. split.
    + do 2 f_equal. unfold lim_by. destruct (last_read None es) as [[o r]|]; lia.
    + eapply exts_ext; [|apply exts_nil]. intros o x _. cbv beta. unfold col. cbn. now rewrite skipn_nil.
  - rewrite Hst by exact Hid. destruct (idx <? Q) eqn:K.
    + unfold block_size. rewrite block_size_ok by (auto; destruct Ad; lia). cbn [bind].
      replace (0 + total t es) with c by lia. rewrite as_i64_small by lia.
      rewrite (seek_inside E f) by (auto; lia). rewrite N2Z.id.
      destruct (IH (idx + 1) es len (pos + c) Hid G Hl Ht Hc ltac:(lia)) as [es' [R X]].
      exists es'. rewrite R.
      set (s' := fun o => if idx + 1 <=? Q then (Q - (idx + 1)) * n + (if fst (lk o) =? Q then snd (lk o) else 0) else 0) in *.
      assert (Es : forall o, s o = n + s' o).
      { intros o. unfold s, s'. replace (idx <=? Q) with true by lia. replace (idx + 1 <=? Q) with true by lia.
        replace (Q - idx) with (1 + (Q - (idx + 1))) by lia. lia. }
      split.
      * do 2 f_equal. f_equal. unfold lim_by. destruct (last_read None es) as [[o r]|]; [|reflexivity]. f_equal.
        change (if idx + 1 <=? Q then (Q - (idx + 1)) * n + (if fst (lk o) =? Q then snd (lk o) else 0) else 0) with (s' o).
        rewrite Es. lia.
      * eapply exts_ext; [|exact X]. intros o x _. cbv beta. rewrite col_S, skipn_app.
        change (if idx + 1 <=? Q then (Q - (idx + 1)) * n + (if fst (lk (oid_of x)) =? Q then snd (lk (oid_of x)) else 0) else 0)
          with (s' (oid_of x)). rewrite Es.
        rewrite (skipn_all2 (run f t e _ _)) by (rewrite run_length; lia). rewrite run_length. cbn [app]. f_equal. lia.
    + set (sk := fun o => skip_for idx (lk o)).
      assert (Es : forall o, s o = sk o).
      { intros o. unfold s, sk, skip_for. specialize (Hq o). destruct (idx =? fst (lk o)) eqn:K2.
        - replace (idx <=? Q) with true by lia. replace (fst (lk o) =? Q) with true by lia. replace (Q - idx) with 0 by lia. lia.
        - destruct (idx <=? Q) eqn:K3; [|reflexivity]. replace (fst (lk o) =? Q) with false by lia. replace (Q - idx) with 0 by lia. lia. }
      assert (Hsk : forall o, sk o < n) by (intros o; unfold sk, skip_for; specialize (Hrm o); destruct (idx =? fst (lk o)); lia).
      set (es1 := set_by sk es). change (set_by (fun o => skip_for idx (lk o)) es) with es1.
      pose proof (exts_set_by (esz t) sk es 0) as X1. fold es1 in X1.
      assert (G1 : Forall (good_entry t) es1) by (eapply exts_forall; [|exact X1|exact G]; intros vs x x' A; apply ext_wd in A; tauto).
      assert (L1 : Forall (fun x => en_len x = n) es1).
      { eapply exts_forall; [|exact X1|exact Hl]. intros vs x x' [A _] B. congruence. }
      assert (T1 : total t es1 = c) by (rewrite (exts_total _ _ _ _ _ X1); exact Ht).
      destruct (read_sub_block_ok E f t e Fx Ad pos es1 0 0 None pos ltac:(lia) eq_refl G1 ltac:(lia)) as [es2 [R2 X2]].
      rewrite R2. rewrite T1.
      assert (Hid2 : oids es2 = ids).
      { rewrite (exts_oids _ _ _ _ _ X2), (exts_oids _ _ _ _ _ X1). exact Hid. }
      assert (G2 : Forall (good_entry t) es2) by (eapply exts_forall; [|exact X2|exact G1]; intros vs x x' A; apply ext_wd in A; tauto).
      assert (L2 : Forall (fun x => en_len x = n) es2).
      { eapply exts_forall; [|exact X2|exact L1]. intros vs x x' [A _] B. congruence. }
      assert (T2 : total t es2 = c) by (rewrite (exts_total _ _ _ _ _ X2); exact T1).
      destruct (IH (idx + 1) es2 (len + count_of (last_room t None es1) 0) (pos + c) Hid2 G2 L2 T2 Hc ltac:(lia)) as [es' [R X]].
      exists es'. rewrite R.
      assert (Es' : forall o, (if idx + 1 <=? Q then (Q - (idx + 1)) * n + (if fst (lk o) =? Q then snd (lk o) else 0) else 0) = 0)
        by (intros o; replace (idx + 1 <=? Q) with false by lia; reflexivity).
      assert (Dl : forall o x, In x es1 -> is_read t x = true -> length (sub_vals f t e pos o x) = N.to_nat (n - sk (oid_of x))).
      { intros o x Hx Hr. unfold sub_vals, is_read, oid_of in *. destruct (en_plan x) as [b|o' g r s0] eqn:P; [discriminate|].
        rewrite (set_by_entry sk es x Hx _ _ _ _ P). rewrite skipn_length, run_length.
        rewrite Forall_forall in L1. rewrite (L1 x Hx). lia. }
      pose proof (last_read_exts (esz t) (sub_vals f t e pos) (fun o => N.to_nat (n - sk o)) es1 0 es2 None Dl X2) as LR.
      cbn [option_map] in LR.
      pose proof (last_room_by n sk es1 L1 (fun x Hx o gt r s => set_by_entry sk es x Hx o r gt s) None None eq_refl) as LQ.
      rewrite (last_read_set sk es None : last_read None es1 = _) in *.
      split.
      * do 2 f_equal. rewrite LR, LQ. destruct (last_read None es) as [[o r]|]; cbn [option_map lim_by fst snd count_of].
        -- rewrite Es', Es. specialize (Hsk o). lia.
        -- lia.
      * assert (X2' : exts t (esz t) (fun o x => skipn (N.to_nat (sk (oid_of x))) (run f t e (pos + o) (N.to_nat n))) 0 es1 es2).
        { eapply exts_ext_read; [|exact X2]. intros o x Hx Hr. unfold sub_vals, is_read, oid_of in *.
          destruct (en_plan x) as [b|o' g r s0] eqn:P; [discriminate|].
          rewrite (set_by_entry sk es x Hx _ _ _ _ P). rewrite Forall_forall in L1. now rewrite (L1 x Hx). }
        assert (X12 : exts t (esz t) (fun o x => [] ++ skipn (N.to_nat (sk (oid_of x))) (run f t e (pos + o) (N.to_nat n))) 0 es es2).
        { eapply exts_app; [apply ext_len_stable| |exact X1|exact X2']. intros vs x x' off A. now rewrite (ext_oid _ _ _ A). }
        eapply exts_ext. 2:{ eapply exts_app; [apply ext_len_stable| |exact X12|exact X]. intros vs x x' off A. cbv beta. rewrite (ext_oid _ _ _ A). reflexivity. }
        intros o x Hx. cbv beta. rewrite col_S. cbn [app]. rewrite Es, Es'.
        rewrite skipn_app, run_length. specialize (Hsk (oid_of x)).
        replace (N.to_nat (sk (oid_of x)) - N.to_nat n)%nat with 0%nat by lia. reflexivity.
Qed.

Definition furthest (n : N) (skips : list N) : N := fold_right (fun s a => N.max (s / n) a) 0 skips.
Lemma furthest_all n skips idx : forallb (fun p : N * N => fst p <=? idx) (map (fun s => (s / n, s mod n)) skips) = (furthest n skips <=? idx).
Proof.
  induction skips as [|s skips IH]; cbn [map forallb furthest fold_right fst]; [now replace (0 <=? idx) with true by lia|].
  rewrite IH. unfold furthest. destruct (s / n <=? idx) eqn:A.
  - cbn [andb]. destruct (fold_right _ 0 skips <=? idx) eqn:B; lia.
  - cbn [andb]. symmetry. lia.
Qed.
Lemma div_skips_all n skips : 0 < n -> div_skips n skips = Ok (map (fun s => (s / n, s mod n)) skips).
Proof.
  intros Hn. induction skips as [|s skips IH]; cbn [div_skips map]; [reflexivity|].
  unfold udiv. replace (n =? 0) with false by lia. cbn [bind]. now rewrite IH.
Qed.

(** First sample read of the request [o]. *)
Definition first_of (n Q : N) (sg : nat -> N) (o : nat) : N := Q * n + (if sg o / n =? Q then sg o mod n else 0).

Lemma contig_skips_by start blen es skips (sg : nat -> N) n m : es <> [] -> 0 < n -> Forall (good_entry t) es ->
  Forall (fun x => en_len x = n) es -> map sg (oids es) = skips -> (forall o, sg o / n <= furthest n skips) ->
  blen / total t es = N.of_nat m -> 0 < N.of_nat m -> start + N.of_nat m * total t es <= lenN f ->
  exists es', contig_read_skips E f t e start blen es skips
      = (es', Ok (lim_by (last_read None es) (fun o => N.of_nat m * n - first_of n (furthest n skips) sg o)))
    /\ exts t (esz t) (fun off x => skipn (N.to_nat (first_of n (furthest n skips) sg (oid_of x))) (col f t e start (total t es) n m off x)) 0 es es'.
Proof.
  intros Hne Hn G L Hsg Hq Hb Hm H. pose proof Ad as [A1 A2]. pose proof (total_pos t es n Hne Hn G L) as Tp.
  assert (Tl : total t es <= N.of_nat m * total t es) by nia.
  unfold contig_read_skips, seek_to. replace (start <=? seek_max E) with true by lia. cbn [bind].
  unfold block_size. rewrite block_size_ok by (auto; lia). cbn [bind].
  unfold udiv at 1. replace (0 + total t es =? 0) with false by lia. cbn [bind].
  destruct es as [|x0 es0] eqn:Ees; [congruence|]. rewrite <- Ees in *.
  assert (Hx : en_len x0 = n) by (rewrite Ees in L; now inversion L). rewrite Hx.
  rewrite div_skips_all by exact Hn. cbn [bind].
  replace (blen / (0 + total t es)) with (N.of_nat m) by (rewrite N.add_0_l; symmetry; exact Hb).
  rewrite Nat2N.id. set (Q := furthest n skips) in *.
  destruct (contig_loop_by (fun idx es => if forallb (fun p => fst p <=? idx) (map (fun s => (s / n, s mod n)) skips)
      then Some (zip_skips (map (skip_for idx) (map (fun s => (s / n, s mod n)) skips)) es) else None)
      n (total t es) Q (fun o => (sg o / n, sg o mod n)) (oids es) Hn) with (m := m) (idx := 0) (es := es) (len := 0) (pos := start)
      as [es' [R X]]; auto; try lia.
  - intros o. cbn [snd]. apply N.mod_lt. lia.
  - intros idx ys Hy. cbv beta. rewrite furthest_all. fold Q. destruct (idx <? Q) eqn:K.
    + now replace (Q <=? idx) with false by lia.
    + replace (Q <=? idx) with true by lia. f_equal. apply zip_by.
      rewrite Hy, <- Hsg, map_map. reflexivity.
  - exists es'. cbn [fst snd] in R, X. replace (0 <=? Q) with true in R, X by lia. rewrite N.sub_0_r in R, X.
    rewrite R. split; [reflexivity|exact X].
Qed.
Lemma contig_zero_by start blen es n m : es <> [] -> 0 < n -> Forall (good_entry t) es ->
  Forall (fun x => en_len x = n) es ->
  blen / total t es = N.of_nat m -> 0 < N.of_nat m -> start + N.of_nat m * total t es <= lenN f ->
  exists es', contig_read_from E f t e start blen es 0
      = (es', Ok (lim_by (last_read None es) (fun o => N.of_nat m * n)))
    /\ exts t (esz t) (fun off x => col f t e start (total t es) n m off x) 0 es es'.
Proof.
  intros Hne Hn G L Hb Hm H.
  destruct (contig_from_ok E f t e Fx Ad start blen es 0 n m) as [es' [R X]]; auto.
  exists es'. split.
  - rewrite R. do 2 f_equal. rewrite N.sub_0_r. clear. generalize (N.of_nat m * n). intros k.
    assert (A : forall d d', d' = option_map snd d -> last_rm t d' es = option_map snd (last_read d es)).
    { induction es as [|x es IH]; intros d d' Hd; cbn [last_rm last_read]; [exact Hd|]. apply IH.
      destruct (en_plan x); [exact Hd|reflexivity]. }
    rewrite (A None None eq_refl). destruct (last_read None es) as [[o r]|]; reflexivity.
  - exact X.
Qed.

(** ** Interleaved blocks *)
Definition active (row : N) (x : entry V) : bool :=
  match en_plan x with PRead _ _ r s => (s <=? row) && Nat.ltb 0 r | PSkip _ => false end.
(** As [ext], keeping the skip. *)
Definition keeps_skip (x x' : entry V) : Prop :=
  match en_plan x, en_plan x' with
  | PRead _ _ _ s, PRead _ _ _ s' => s = s'
  | PSkip _, PSkip _ => True
  | _, _ => False
  end.
Definition row_vals (v : V) (row : N) (x : entry V) : list V :=
  match en_plan x with PRead _ _ _ s => if s <=? row then [v] else [] | PSkip _ => [] end.

Lemma inter_row_by base row es : forall off any pos, pos = base + off ->
  Forall (good_entry t) es -> pos + rowtotal t es <= lenN f ->
  exists es', inter_row E f t e row es any pos = (es', Ok (any || existsb (active row) es, pos + rowtotal t es))
    /\ exts t (wd t) (fun o x => row_vals (at_ f t e (base + o)) row x) off es es' /\ Forall2 keeps_skip es es'.
Proof.
  induction es as [|x es IH]; intros off any pos Hp G H; cbn [inter_row existsb].
  - exists []. cbn [rowtotal fold_right exts]. rewrite orb_false_r. split; [do 3 f_equal; lia|]. split; [exact I|constructor].
  - unfold rowtotal in H. cbn [fold_right] in H. fold (rowtotal t es) in H.
    inversion G as [|y l G1 G2]; subst y l.
    assert (Rt : rowtotal t (x :: es) = wd t x + rowtotal t es) by reflexivity.
    destruct (en_plan x) as [b|o g r s] eqn:P.
    + assert (Wb : (0 < b < 2 ^ 63)%Z /\ wd t x = Z.to_N b).
      { unfold good_entry, wd in *. rewrite P in *. split; [lia|reflexivity]. }
      destruct Wb as [Wb Wx]. rewrite (seek_inside E f) by (auto; lia).
      destruct (IH (off + wd t x) any (pos + Z.to_N b)) as [es' [R [X K]]]; auto; try lia.
      rewrite R. exists (x :: es'). split; [|split].
      * replace (active row x) with false by (unfold active; now rewrite P). cbn [orb]. do 3 f_equal. lia.
      * cbn [exts]. split; [|exact X]. unfold row_vals. rewrite P. apply ext_nil.
      * constructor; [unfold keeps_skip; now rewrite P|exact K].
    + assert (Wx : wd t x = size_bytes t) by (unfold wd; now rewrite P).
      rewrite (read_at_ok E f t e Fx) by lia.
      destruct (s <=? row) eqn:Q.
      * destruct r as [|r].
        -- destruct (IH (off + wd t x) any (pos + size_bytes t)) as [es' [R [X K]]]; auto; try lia.
           rewrite R. exists (x :: es'). split; [|split].
           ++ replace (active row x) with false by (unfold active; now rewrite P, Q). cbn [orb]. do 3 f_equal. lia.
           ++ cbn [exts]. split; [|exact X]. split; [reflexivity|]. rewrite P. exists s. cbn [firstn]. now rewrite app_nil_r.
           ++ constructor; [unfold keeps_skip; now rewrite P|exact K].
        -- destruct (IH (off + wd t x) true (pos + size_bytes t)) as [es' [R [X K]]]; auto; try lia.
           rewrite R. eexists (_ :: es'). split; [|split].
           ++ replace (active row x) with true by (unfold active; now rewrite P, Q). cbn [orb]. rewrite orb_true_r.
              do 3 f_equal. lia.
           ++ cbn [exts]. split; [|exact X]. split; [reflexivity|]. unfold row_vals. rewrite P, Q. cbn [en_plan]. exists s. rewrite Hp.
              cbn [firstn length]. rewrite firstn_nil. f_equal. lia.
           ++ constructor; [unfold keeps_skip; rewrite P; reflexivity|exact K].
      * destruct (IH (off + wd t x) any (pos + size_bytes t)) as [es' [R [X K]]]; auto; try lia.
        rewrite R. exists (x :: es'). split; [|split].
        -- replace (active row x) with false by (unfold active; now rewrite P, Q). cbn [orb]. do 3 f_equal. lia.
        -- cbn [exts]. split; [|exact X]. unfold row_vals. rewrite P, Q. apply ext_nil.
        -- constructor; [unfold keeps_skip; now rewrite P|exact K].
Qed.

(** Row [u] is wanted by an entry, seen from row [row]. *)
Definition ewant (row : N) (es : list (entry V)) (u : N) : bool :=
  existsb (fun x => match en_plan x with
                    | PRead _ _ r s => (s <=? u) && (u <? N.max s row + N.of_nat r)
                    | PSkip _ => false end) es.
Lemma ewant_now row es : ewant row es row = existsb (active row) es.
Proof.
  unfold ewant. induction es as [|x es IH]; [reflexivity|]. cbn [existsb]. rewrite IH. f_equal.
  unfold active. destruct (en_plan x) as [b|o g r s]; [reflexivity|]. destruct (s <=? row) eqn:A; [|reflexivity]. cbn [andb].
  destruct (Nat.ltb 0 r) eqn:B; [apply Nat.ltb_lt in B|apply Nat.ltb_ge in B]; lia.
Qed.
Lemma ewant_next v row es es' : forall off, exts t (wd t) (fun o x => row_vals (v o) row x) off es es' -> Forall2 keeps_skip es es' ->
  forall u, row < u -> ewant (row + 1) es' u = ewant row es u.
Proof.
  intros off X K. revert off X. induction K as [|x x' es es' Kx K IH]; intros off X u Hu; [reflexivity|].
  destruct X as [[_ A] B]. unfold ewant in *. cbn [existsb]. rewrite (IH _ B u Hu). f_equal. clear IH B.
  unfold keeps_skip, row_vals in *. destruct (en_plan x) as [b|o g r s]; [now rewrite A|].
  destruct A as [s' A]. rewrite A in *. subst s'. destruct (s <=? u) eqn:C; [|reflexivity]. cbn [andb].
  destruct (s <=? row) eqn:D; cbn [length]; lia.
Qed.
Lemma rows_run_ext m : forall (w w' : N -> bool) u, (forall v, u <= v -> w v = w' v) -> rows_run w u m = rows_run w' u m.
Proof.
  induction m as [|m IH]; intros w w' u H; [reflexivity|]. cbn [rows_run]. rewrite (H u) by lia.
  destruct (w' u); [|reflexivity]. f_equal. apply IH. intros v Hv. apply H. lia.
Qed.
Lemma rows_run_le w m : forall u, (rows_run w u m <= m)%nat.
Proof. induction m as [|m IH]; intros u; cbn [rows_run]; [lia|]. destruct (w u); [|lia]. specialize (IH (u + 1)). lia. Qed.

Definition late (row : N) (x : entry V) : nat := match en_plan x with PRead _ _ _ s => N.to_nat (s - row) | PSkip _ => 0%nat end.

Lemma idle_ext v row es es' : forall off, existsb (active row) es = false ->
  exts t (wd t) (fun o x => row_vals (v o) row x) off es es' -> exts t (wd t) (fun _ _ => []) off es es'.
Proof.
  revert es'. induction es as [|x es IH]; intros [|x' es'] off Ha X; try contradiction; [exact I|].
  cbn [existsb] in Ha. apply orb_false_iff in Ha. destruct Ha as [Ax Ha]. destruct X as [A B]. cbn [exts].
  split; [|eapply IH; eauto]. destruct A as [A0 A]. split; [exact A0|]. unfold active, row_vals in *.
  destruct (en_plan x) as [b|o g r s]; [exact A|]. destruct A as [s' A]. exists s'. rewrite A.
  rewrite firstn_nil. cbn [length]. destruct (s <=? row); [|now rewrite firstn_nil].
  cbn [andb] in Ax. apply Nat.ltb_ge in Ax. replace r with 0%nat by lia. reflexivity.
Qed.

Lemma inter_rows_by m : forall row es read pos R, Forall (good_entry t) es ->
  rowtotal t es = R -> pos + N.of_nat m * R <= lenN f ->
  let k := rows_run (ewant row es) row m in
  exists es', inter_rows E f t e m row es read pos = (es', Ok (read + N.of_nat k))
    /\ exts t (wd t) (fun o x => skipn (late row x) (icol f t e pos R k o)) 0 es es'.
Proof.
  induction m as [|m IH]; intros row es read pos R G Hr H k; cbn [inter_rows].
  - exists es. split; [unfold k; cbn [rows_run]; do 2 f_equal; lia|].
    eapply exts_ext; [|apply exts_nil]. intros o x _. cbv beta. unfold k, icol. cbn. now rewrite skipn_nil.
  - destruct (inter_row_by pos row es 0 false pos ltac:(lia) G ltac:(lia)) as [es1 [Q [X K]]].
    rewrite Q. cbn [orb]. unfold k. cbn [rows_run]. rewrite ewant_now. destruct (existsb (active row) es) eqn:Ac.
    + rewrite Hr.
      assert (G1 : Forall (good_entry t) es1) by (eapply exts_forall; [|exact X|exact G]; intros vs x x' A; apply ext_wd in A; tauto).
      assert (R1 : rowtotal t es1 = R) by (rewrite <- Hr; eapply exts_rowtotal; exact X).
      destruct (IH (row + 1) es1 (read + 1) (pos + R) R G1 R1 ltac:(lia)) as [es' [Q' X']].
      exists es'. rewrite Q'.
      assert (Ek : rows_run (ewant (row + 1) es1) (row + 1) m = rows_run (ewant row es) (row + 1) m).
      { apply rows_run_ext. intros u Hu. apply (ewant_next (fun o => at_ f t e (pos + o)) row es es1 0 X K). lia. }
      rewrite Ek in *. set (j := rows_run (ewant row es) (row + 1) m) in *.
      split; [do 2 f_equal; lia|].
      (* the values of the later rows, seen from the entries before this row *)
      assert (X2 : exts t (wd t) (fun o x => row_vals (at_ f t e (pos + o)) row x ++ skipn (late (row + 1) x) (icol f t e (pos + R) R j o)) 0 es es').
      { clearbody j. clear -X X' K. revert X X'. generalize 0 as off.
        revert es'. induction K as [|x x' es es1 Kx K IHk]; intros [|x2 es'] off X X'; try contradiction; [exact I|].
        destruct X as [A B], X' as [A' B']. cbn [exts].
        rewrite (wd_stable t _ _ _ A) in B'. split; [|eapply IHk; eauto].
        eapply ext_app; [exact A|].
        assert (Lt : late (row + 1) x' = late (row + 1) x).
        { unfold keeps_skip, late in *. destruct (en_plan x), (en_plan x'); try contradiction; congruence. }
        rewrite Lt in A'. exact A'. }
      eapply exts_ext_read; [|exact X2]. intros o x _ Hx. cbv beta. rewrite icol_S. unfold row_vals, late, is_read in *.
      destruct (en_plan x) as [b|o' g r s]; [discriminate|]. destruct (s <=? row) eqn:Sr.
      * replace (N.to_nat (s - row)) with 0%nat by lia. replace (N.to_nat (s - (row + 1))) with 0%nat by lia. reflexivity.
      * replace (N.to_nat (s - row)) with (S (N.to_nat (s - (row + 1)))) by lia. reflexivity.
    + exists es1. split; [do 2 f_equal; lia|].
      eapply exts_ext; [|eapply idle_ext; [exact Ac|exact X]]. intros o x _. cbv beta. unfold icol. cbn. now rewrite skipn_nil.
Qed.

Lemma rows_run_shift w d m : forall u, rows_run (fun v => w (v + d)) u m = rows_run w (u + d) m.
Proof.
  induction m as [|m IH]; intros u; [reflexivity|]. cbn [rows_run]. destruct (w (u + d)); [|reflexivity].
  rewrite IH. do 2 f_equal. lia.
Qed.
Lemma block_skips_by sg (es : list (entry V)) : (forall x, In x es -> forall o g r s, en_plan x = PRead o g r s -> s = sg o) ->
  block_skips es = map sg (oids es).
Proof.
  unfold block_skips, oids. induction es as [|x es IH]; intros H; [reflexivity|]. cbn [map concat flat_map].
  rewrite map_app, IH by (intros y Hy; apply H; now right). f_equal. specialize (H x (or_introl eq_refl)).
  destruct (en_plan x) as [b|o g r s]; [reflexivity|]. cbn [map]. now rewrite (H _ _ _ _ eq_refl).
Qed.
Lemma min_or_0_le l x : In x l -> min_or_0 l <= x.
Proof.
  destruct l as [|a l]; [contradiction|]. unfold min_or_0.
  assert (A : forall l a, fold_left N.min l a <= a /\ forall y, In y l -> fold_left N.min l a <= y).
  { clear. induction l as [|b l IH]; intros a; cbn [fold_left]; [split; [lia|contradiction]|].
    destruct (IH (N.min a b)) as [I1 I2]. split; [lia|]. intros y [<-|Hy]; [lia|auto]. }
  intros [<-|H]; [exact (proj1 (A l a))|exact (proj2 (A l a) x H)].
Qed.
Lemma oids_in (es : list (entry V)) x o g r s : In x es -> en_plan x = PRead o g r s -> In o (oids es).
Proof. intros Hx P. unfold oids. apply in_flat_map. exists x. rewrite P. split; [exact Hx|now left]. Qed.
Lemma icol_firstn pos row m off j : (j <= m)%nat -> firstn j (icol f t e pos row m off) = icol f t e pos row j off.
Proof.
  intros H. unfold icol. rewrite firstn_map. f_equal. replace m with (j + (m - j))%nat by lia.
  rewrite seq_app. rewrite <- (seq_length j 0) at 1. apply firstn_app_exact.
Qed.

(** Row [u] is wanted, with the skips [sg]. *)
Definition want_by (sg : nat -> N) (es : list (entry V)) (u : N) : bool :=
  existsb (fun x => match en_plan x with
                    | PRead o _ r _ => (sg o <=? u) && (u <? sg o + N.of_nat r)
                    | PSkip _ => false end) es.

Lemma lowered mn sg (D : N -> list V) es : forall off es',
  (forall x, In x es -> forall o g r s, en_plan x = PRead o g r s -> s = sg o) ->
  exts t (wd t) (fun o x => skipn (late 0 x) (D o)) off
    (map (fun x => match en_plan x with PRead o g r s => mkEntry (en_len x) (PRead o g r (s - mn)) | PSkip _ => x end) es) es' ->
  exts t (wd t) (fun o x => skipn (N.to_nat (sg (oid_of x) - mn)) (D o)) off es es'.
Proof.
  induction es as [|x es IH]; intros off [|x' es'] C X; try contradiction; [exact I|].
  cbn [map exts] in X. destruct X as [A B]. cbn [exts]. split.
  - specialize (C x (or_introl eq_refl)). unfold late, oid_of, ext in *. destruct (en_plan x) as [b|o g r s] eqn:P; cbn [en_len en_plan] in *.
    + rewrite P in A. exact A.
    + rewrite <- (C _ _ _ _ eq_refl). rewrite N.sub_0_r in A. exact A.
  - apply IH; [intros y Hy; apply C; now right|].
    assert (W : forall y, wd t (match en_plan y with PRead o g r s => mkEntry (en_len y) (PRead o g r (s - mn)) | PSkip _ => y end) = wd t y).
    { intros y. unfold wd. destruct (en_plan y) eqn:P; cbn [en_plan]; [now rewrite P|reflexivity]. }
    rewrite W in B. exact B.
Qed.

Lemma inter_read_by start blen es sg m : es <> [] -> Forall (good_entry t) es ->
  (forall x, In x es -> forall o g r s, en_plan x = PRead o g r s -> s = sg o) ->
  blen = N.of_nat m * rowtotal t es -> 0 < N.of_nat m -> start + blen <= lenN f ->
  let mn := min_or_0 (map sg (oids es)) in
  mn <= N.of_nat m ->
  let k := rows_run (want_by sg es) mn (N.to_nat (N.of_nat m - mn)) in
  exists es', inter_read E f t e start blen es = (es', Ok (N.of_nat k))
    /\ exts t (wd t) (fun o x => skipn (N.to_nat (sg (oid_of x))) (firstn (N.to_nat mn + k) (icol f t e start (rowtotal t es) m o))) 0 es es'.
Proof.
  intros Hne G C Hb Hm H mn Hs k. pose proof Ad as [A1 A2]. pose proof (rowtotal_pos t es Hne G) as Rp.
  assert (Rl : rowtotal t es <= N.of_nat m * rowtotal t es) by nia.
  assert (Sl : mn * rowtotal t es <= N.of_nat m * rowtotal t es) by (apply N.mul_le_mono_r; exact Hs).
  assert (Ms : N.of_nat m <= N.of_nat m * rowtotal t es) by nia.
  unfold inter_read. rewrite (block_skips_by sg es C). fold mn.
  unfold seek_to. replace (start <=? seek_max E) with true by lia. cbn [bind].
  rewrite row_size_ok by (auto; lia). cbn [bind].
  unfold udiv. replace (rowtotal t es =? 0) with false by lia. cbn [bind].
  replace (blen / rowtotal t es) with (N.of_nat m) by (rewrite Hb, N.div_mul by lia; reflexivity).
  set (es1 := map _ es).
  assert (Pos : (if 0 <? mn then off <- imul E (as_i64 mn) (as_i64 (rowtotal t es)) ;;
                     pos' <- seek_rel E start off ;; Ok (pos', N.of_nat m) else Ok (start, N.of_nat m))
                  = Ok (start + mn * rowtotal t es, N.of_nat m)).
  { destruct (0 <? mn) eqn:S0; [|do 2 f_equal; lia].
    pose proof (seek_prod E f Ad start mn (rowtotal t es) ltac:(lia) ltac:(lia) ltac:(lia)) as Q.
    destruct (imul E (as_i64 mn) (as_i64 (rowtotal t es))); cbn [bind] in *; try discriminate.
    rewrite Q. reflexivity. }
  rewrite Pos.
  assert (X1 : exts t (wd t) (fun _ _ => []) 0 es es1).
  { unfold es1. clearbody mn. clear. generalize 0. induction es as [|x es IH]; intros o; cbn [map exts]; [exact I|].
    split; [|apply IH]. unfold ext. destruct (en_plan x) as [b|o' g r s'] eqn:P; cbn [en_len en_plan].
    - split; [reflexivity|exact P].
    - split; [reflexivity|]. exists (s' - mn). now rewrite firstn_nil, app_nil_r, Nat.sub_0_r. }
  assert (G1 : Forall (good_entry t) es1) by (eapply exts_forall; [|exact X1|exact G]; intros vs x x' A; apply ext_wd in A; tauto).
  assert (R1 : rowtotal t es1 = rowtotal t es) by (eapply exts_rowtotal; exact X1).
  assert (Mn : forall x, In x es -> forall o g r s, en_plan x = PRead o g r s -> mn <= s).
  { intros x Hx o g r s P. rewrite (C x Hx _ _ _ _ P). apply min_or_0_le. apply in_map. eapply oids_in; eauto. }
  destruct (inter_rows_by (N.to_nat (N.of_nat m - mn)) 0 es1 0 (start + mn * rowtotal t es) (rowtotal t es) G1 R1) as [es' [Q X]].
  { rewrite N2Nat.id, N.mul_sub_distr_r. lia. }
  assert (Ek : rows_run (ewant 0 es1) 0 (N.to_nat (N.of_nat m - mn)) = k).
  { unfold k. transitivity (rows_run (fun v => want_by sg es (v + mn)) 0 (N.to_nat (N.of_nat m - mn))).
    2:{ rewrite (rows_run_shift (want_by sg es) mn). f_equal; lia. }
    apply rows_run_ext. intros u _.
    unfold ewant, want_by, es1. clearbody mn. clear -C Mn.
    induction es as [|x es IH]; [reflexivity|]. cbn [map existsb].
    rewrite IH by (intros y Hy; first [apply C|apply Mn]; now right). f_equal.
    specialize (C x (or_introl eq_refl)). specialize (Mn x (or_introl eq_refl)).
    destruct (en_plan x) as [b|o g r s] eqn:P; cbn [en_plan]; [now rewrite P|].
    rewrite <- (C _ _ _ _ eq_refl). specialize (Mn _ _ _ _ eq_refl). lia. }
  rewrite Ek in *. exists es'. rewrite Q. split; [do 2 f_equal; lia|].
  (* the entries before the skips were lowered *)
  assert (Kl : (k <= N.to_nat (N.of_nat m - mn))%nat) by apply rows_run_le.
  assert (X2 : exts t (wd t) (fun o x => skipn (N.to_nat (sg (oid_of x) - mn)) (icol f t e (start + mn * rowtotal t es) (rowtotal t es) k o)) 0 es es').
  { unfold es1 in X. exact (lowered mn sg _ es 0 es' C X). }
  eapply exts_ext_read; [|exact X2]. intros o x Hx Hr. cbv beta.
  unfold is_read, oid_of in *. destruct (en_plan x) as [b|o' g r s] eqn:P; [discriminate|].
  pose proof (Mn x Hx _ _ _ _ P) as Mx. pose proof (C x Hx _ _ _ _ P) as Cx. rewrite <- Cx.
  rewrite icol_firstn by lia. rewrite !icol_skipn. f_equal; [|lia].
  rewrite !N2Nat.id. rewrite <- N.add_assoc, <- N.mul_add_distr_r. do 2 f_equal. lia.
Qed.
End Skips.
