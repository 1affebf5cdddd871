(** * Reading several channels from a block of any make-up *)
From Verif Require Import Base Lib DataTypes MetaData DataBlock Index RawData ChannelReader
  SpecIndex SpecRead SpecMulti SpecUneven SpecSeen SpecMixed
  Block_proofs Request_proofs Plan_proofs Read_proofs Uneven_proofs Skips_proofs SkipReq_proofs Seen_proofs Write_proofs.

Section Loop.
Context (E : env) (f : list byte) (t : sty) (e : endian).
Hypothesis (Sz : sized t) (Ad : addressable E f).
Local Notation V := (carrier t).

(** The last entry read: its request, length and room. *)
Fixpoint last3 (d : option (nat * N * nat)) (es : list (entry V)) : option (nat * N * nat) :=
  match es with
  | [] => d
  | x :: r => last3 (match en_plan x with PRead o _ rm _ => Some (o, en_len x, rm) | PSkip _ => d end) r
  end.
Definition lim3 (d : option (nat * N * nat)) (m : N) (s : nat -> N -> N) : N :=
  match d with Some (o, n, r) => N.min (N.of_nat r) (m * n - s o n) | None => 0 end.

Lemma last3_set g es : forall d, last3 d (set_by t g es) = last3 d es.
Proof.
  unfold set_by. induction es as [|x es IH]; intros d; cbn [map last3]; [reflexivity|].
  rewrite IH. unfold set_skip. destruct (en_plan x) eqn:P; cbn [en_plan en_len]; [now rewrite P|reflexivity].
Qed.
Lemma last3_exts step D (k : nat -> N -> nat) es : forall off es' d,
  (forall o x, In x es -> is_read t x = true -> length (D o x) = k (oid_of t x) (en_len x)) ->
  exts t step D off es es' ->
  last3 (option_map (fun p => (fst p, (snd p - k (fst (fst p)) (snd (fst p)))%nat)) d) es'
  = option_map (fun p => (fst p, (snd p - k (fst (fst p)) (snd (fst p)))%nat)) (last3 d es).
Proof.
  induction es as [|x es IH]; intros off [|x' es'] d HD H; try contradiction; [reflexivity|].
  destruct H as [A B]. cbn [last3].
  assert (HD' : forall o y, In y es -> is_read t y = true -> length (D o y) = k (oid_of t y) (en_len y)) by (intros; apply HD; [now right|assumption]).
  destruct A as [L A]. specialize (HD off x (or_introl eq_refl)). unfold is_read, oid_of in HD.
  destruct (en_plan x) as [b|o g r s].
  - rewrite A. eapply IH; eauto.
  - destruct A as [s' A]. rewrite A, L. rewrite HD by reflexivity.
    change (Some (o, en_len x, (r - k o (en_len x))%nat))
      with (option_map (fun p : nat * N * nat => (fst p, (snd p - k (fst (fst p)) (snd (fst p)))%nat)) (Some (o, en_len x, r))).
    eapply IH; eauto.
Qed.
Lemma last3_room g es : 
  (forall x, In x es -> forall o gt r s, en_plan x = PRead o gt r s -> s = g o) ->
  forall d d', d = option_map (fun p : nat * N * nat => (snd (fst p), snd p, g (fst (fst p)))) d' ->
  last_room t d es = option_map (fun p => (snd (fst p), snd p, g (fst (fst p)))) (last3 d' es).
Proof.
  induction es as [|x es IH]; intros Hs d d' Hd; cbn [last3 last_room]; [exact Hd|].
  apply IH.
  - intros y Hy. apply Hs. now right.
  - destruct (en_plan x) eqn:P; [exact Hd|]. rewrite (Hs x (or_introl eq_refl) _ _ _ _ P). reflexivity.
Qed.

Lemma contig_loop_mixed step c Q (lk : nat -> N * N) ids : (forall o, fst (lk o) <= Q) ->
  (forall idx es, oids t es = ids -> step idx es =
     if idx <? Q then None else Some (set_by t (fun o => skip_for idx (lk o)) es)) ->
  forall m idx es len pos,
  oids t es = ids -> Forall (good_entry t) es -> total t es = c -> c < 2 ^ 63 ->
  pos + N.of_nat m * c <= lenN f ->
  let s o n := if idx <=? Q then (Q - idx) * n + (if fst (lk o) =? Q then N.min (snd (lk o)) n else 0) else 0 in
  exists es', contig_loop E f t e step m idx es len pos
      = (es', Ok (len + lim3 (last3 None es) (N.of_nat m) s))
    /\ exts t (esz t) (fun off x => skipn (N.to_nat (s (oid_of t x) (en_len x))) (col f t e pos c (en_len x) m off x)) 0 es es'.
Proof.
  intros Hq Hst. induction m as [|m IH]; intros idx es len pos Hid G Ht Hc H s; cbn [contig_loop].
  - exists es. split.
    + do 2 f_equal. unfold lim3. destruct (last3 None es) as [[[o n] r]|]; lia.
    + eapply exts_ext; [|apply exts_nil]. intros o x _. cbv beta. unfold col. cbn. now rewrite skipn_nil.
  - rewrite Hst by exact Hid. destruct (idx <? Q) eqn:K.
    + unfold block_size. rewrite block_size_ok by (auto; destruct Ad; lia). cbn [bind].
      replace (0 + total t es) with c by lia. rewrite as_i64_small by lia.
      rewrite (seek_inside E f) by (auto; lia). rewrite N2Z.id.
      destruct (IH (idx + 1) es len (pos + c) Hid G Ht Hc ltac:(lia)) as [es' [R X]].
      exists es'. rewrite R.
      set (s' := fun o n => if idx + 1 <=? Q then (Q - (idx + 1)) * n + (if fst (lk o) =? Q then N.min (snd (lk o)) n else 0) else 0) in *.
      assert (Es : forall o n, s o n = n + s' o n).
      { intros o n. unfold s, s'. replace (idx <=? Q) with true by lia. replace (idx + 1 <=? Q) with true by lia.
        replace (Q - idx) with (1 + (Q - (idx + 1))) by lia. lia. }
      change (fun o n => if idx + 1 <=? Q then (Q - (idx + 1)) * n + (if fst (lk o) =? Q then N.min (snd (lk o)) n else 0) else 0) with s'.
      split.
      * do 2 f_equal. f_equal. unfold lim3. destruct (last3 None es) as [[[o n] r]|]; [|reflexivity]. f_equal.
        rewrite Es. clearbody s s'. lia.
      * eapply exts_ext; [|exact X]. intros o x _. cbv beta. rewrite col_S, skipn_app, Es.
        rewrite (skipn_all2 (run f t e _ _)) by (rewrite run_length; lia). rewrite run_length. cbn [app]. f_equal.
        change (if idx + 1 <=? Q then (Q - (idx + 1)) * en_len x + (if fst (lk (oid_of t x)) =? Q then N.min (snd (lk (oid_of t x))) (en_len x) else 0) else 0) with (s' (oid_of t x) (en_len x)).
        clearbody s s'. lia.
    + set (sk := fun o => skip_for idx (lk o)).
      assert (Es : forall o n, s o n = N.min (sk o) n).
      { intros o n. unfold s, sk, skip_for. specialize (Hq o). destruct (idx =? fst (lk o)) eqn:K2.
        - replace (idx <=? Q) with true by lia. replace (fst (lk o) =? Q) with true by lia. replace (Q - idx) with 0 by lia. lia.
        - destruct (idx <=? Q) eqn:K3; [|lia]. replace (fst (lk o) =? Q) with false by lia. replace (Q - idx) with 0 by lia. lia. }
      set (es1 := set_by t sk es). change (set_by t (fun o => skip_for idx (lk o)) es) with es1.
      pose proof (exts_set_by t (esz t) sk es 0) as X1. fold es1 in X1.
      assert (G1 : Forall (good_entry t) es1) by (eapply exts_forall; [|exact X1|exact G]; intros vs x x' A; apply ext_wd in A; tauto).
      assert (T1 : total t es1 = c) by (rewrite (exts_total _ _ _ _ _ X1); exact Ht).
      destruct (read_sub_block_ok E f t e Sz Ad pos es1 0 0 None pos ltac:(lia) eq_refl G1 ltac:(lia)) as [es2 [R2 X2]].
      rewrite R2. rewrite T1.
      assert (Hid2 : oids t es2 = ids).
      { rewrite (exts_oids _ _ _ _ _ _ X2), (exts_oids _ _ _ _ _ _ X1). exact Hid. }
      assert (G2 : Forall (good_entry t) es2) by (eapply exts_forall; [|exact X2|exact G1]; intros vs x x' A; apply ext_wd in A; tauto).
      assert (T2 : total t es2 = c) by (rewrite (exts_total _ _ _ _ _ X2); exact T1).
      destruct (IH (idx + 1) es2 (len + count_of (last_room t None es1) 0) (pos + c) Hid2 G2 T2 Hc ltac:(lia)) as [es' [R X]].
      exists es'. rewrite R.
      set (s' := fun o n => if idx + 1 <=? Q then (Q - (idx + 1)) * n + (if fst (lk o) =? Q then N.min (snd (lk o)) n else 0) else 0) in *.
      assert (Es' : forall o n, s' o n = 0) by (intros o n; unfold s'; replace (idx + 1 <=? Q) with false by lia; reflexivity).
      assert (Ev : forall o n, (if idx + 1 <=? Q then (Q - (idx + 1)) * n + (if fst (lk o) =? Q then N.min (snd (lk o)) n else 0) else 0) = s' o n) by reflexivity.
      change (fun o n => if idx + 1 <=? Q then (Q - (idx + 1)) * n + (if fst (lk o) =? Q then N.min (snd (lk o)) n else 0) else 0) with s'.
      clearbody s s'.
      assert (Dl : forall o x, In x es1 -> is_read t x = true -> length (sub_vals f t e pos o x) = N.to_nat (en_len x - sk (oid_of t x))).
      { intros o x Hx Hr. unfold sub_vals, is_read, oid_of in *. destruct (en_plan x) as [b|o' g r s0] eqn:P; [discriminate|].
        rewrite (set_by_entry t sk es x Hx _ _ _ _ P). rewrite skipn_length, run_length. lia. }
      pose proof (last3_exts (esz t) (sub_vals f t e pos) (fun o n => N.to_nat (n - sk o)) es1 0 es2 None Dl X2) as LR.
      cbn [option_map] in LR.
      pose proof (last3_room sk es1 (fun x Hx o gt r s => set_by_entry t sk es x Hx o r gt s) None None eq_refl) as LQ.
      rewrite (last3_set sk es None : last3 None es1 = _) in *.
      split.
      * do 2 f_equal. rewrite LR, LQ. destruct (last3 None es) as [[[o n] r]|]; cbn [option_map lim3 fst snd count_of].
        -- rewrite Es', Es. clear. lia.
        -- lia.
      * assert (X2' : exts t (esz t) (fun o x => skipn (N.to_nat (sk (oid_of t x))) (run f t e (pos + o) (N.to_nat (en_len x)))) 0 es1 es2).
        { eapply exts_ext_read; [|exact X2]. intros o x Hx Hr. unfold sub_vals, is_read, oid_of in *.
          destruct (en_plan x) as [b|o' g r s0] eqn:P; [discriminate|].
          now rewrite (set_by_entry t sk es x Hx _ _ _ _ P). }
        assert (X12 : exts t (esz t) (fun o x => [] ++ skipn (N.to_nat (sk (oid_of t x))) (run f t e (pos + o) (N.to_nat (en_len x)))) 0 es es2).
        { eapply exts_app; [apply ext_len_stable| |exact X1|exact X2']. intros vs x x' off A. rewrite (ext_oid t _ _ _ A). now rewrite (proj1 A). }
        eapply exts_ext. 2:{ eapply exts_app; [apply ext_len_stable| |exact X12|exact X]. intros vs x x' off A. cbv beta.
          rewrite (ext_oid t _ _ _ A), (proj1 A). reflexivity. }
        intros o x Hx. cbv beta. rewrite col_S. cbn [app]. rewrite Es, Ev, Es'. cbn [N.to_nat skipn].
        rewrite skipn_app, run_length.
        replace (N.to_nat (N.min (sk (oid_of t x)) (en_len x)) - N.to_nat (en_len x))%nat with 0%nat by lia.
        cbn [skipn]. f_equal. destruct (N.le_gt_cases (sk (oid_of t x)) (en_len x)) as [Le|Gt].
        -- f_equal. lia.
        -- rewrite !skipn_all2 by (rewrite run_length; lia). reflexivity.
Qed.

(** First sample read of the request [o], for a channel of [n] values. *)
Definition first3 (n0 Q : N) (sg : nat -> N) (o : nat) (n : N) : N :=
  Q * n + (if sg o / n0 =? Q then N.min (sg o mod n0) n else 0).

Lemma contig_skips_mixed start blen es skips (sg : nat -> N) n0 m : (exists x0 r, es = x0 :: r /\ en_len x0 = n0) -> 0 < n0 ->
  Forall (good_entry t) es -> map sg (oids t es) = skips -> (forall o, sg o / n0 <= furthest n0 skips) ->
  blen / total t es = N.of_nat m -> total t es < 2 ^ 63 -> start <= lenN f -> start + N.of_nat m * total t es <= lenN f ->
  exists es', contig_read_skips E f t e start blen es skips
      = (es', Ok (lim3 (last3 None es) (N.of_nat m) (first3 n0 (furthest n0 skips) sg)))
    /\ exts t (esz t) (fun off x => skipn (N.to_nat (first3 n0 (furthest n0 skips) sg (oid_of t x) (en_len x)))
         (col f t e start (total t es) (en_len x) m off x)) 0 es es'.
Proof.
  intros [x0 [es0 [Ees Hx]]] Hn G Hsg Hq Hb Ht Hs H. pose proof Ad as [A1 A2].
  assert (Tp : 0 < total t es) by (rewrite Ees in *; apply total_pos1; [lia|now inversion G]).
  unfold contig_read_skips, seek_to. replace (start <=? seek_max E) with true by lia. cbn [bind].
  unfold block_size. rewrite block_size_ok by (auto; lia). cbn [bind].
  unfold udiv at 1. replace (0 + total t es =? 0) with false by lia. cbn [bind].
  replace (match es with [] => Panic PIndex
     | x :: _ => l <- div_skips (en_len x) skips;; Ok (start, blen / (0 + total t es), l) end)
    with (Ok (start, N.of_nat m, map (fun s => (s / n0, s mod n0)) skips)).
  2:{ rewrite Ees at 1. rewrite Hx. rewrite div_skips_all by exact Hn. cbn [bind]. now rewrite N.add_0_l, Hb. }
  rewrite Nat2N.id. set (Q := furthest n0 skips) in *.
  destruct (contig_loop_mixed (fun idx es => if forallb (fun p => fst p <=? idx) (map (fun s => (s / n0, s mod n0)) skips)
      then Some (zip_skips (map (skip_for idx) (map (fun s => (s / n0, s mod n0)) skips)) es) else None)
      (total t es) Q (fun o => (sg o / n0, sg o mod n0)) (oids t es)) with (m := m) (idx := 0) (es := es) (len := 0) (pos := start)
      as [es' [R X]]; auto; try lia.
  - intros idx ys Hy. cbv beta. rewrite furthest_all. fold Q. destruct (idx <? Q) eqn:K.
    + now replace (Q <=? idx) with false by lia.
    + replace (Q <=? idx) with true by lia. f_equal. apply zip_by.
      rewrite Hy, <- Hsg, map_map. reflexivity.
  - exists es'. cbn [fst snd] in R, X. replace (0 <=? Q) with true in R, X by lia. rewrite N.sub_0_r in R, X.
    rewrite R. split; [reflexivity|exact X].
Qed.

(** As [contig_read_from] with nothing skipped. *)
Lemma contig_zero_mixed start blen es n0 m : (exists x0 r, es = x0 :: r /\ en_len x0 = n0) -> 0 < n0 ->
  Forall (good_entry t) es ->
  blen / total t es = N.of_nat m -> total t es < 2 ^ 63 -> start <= lenN f -> start + N.of_nat m * total t es <= lenN f ->
  exists es', contig_read_from E f t e start blen es 0
      = (es', Ok (lim3 (last3 None es) (N.of_nat m) (fun _ _ => 0)))
    /\ exts t (esz t) (fun off x => col f t e start (total t es) (en_len x) m off x) 0 es es'.
Proof.
  intros [x0 [es0 [Ees Hx]]] Hn G Hb Ht Hs H. pose proof Ad as [A1 A2].
  assert (Tp : 0 < total t es) by (rewrite Ees in *; apply total_pos1; [lia|now inversion G]).
  unfold contig_read_from, seek_to. replace (start <=? seek_max E) with true by lia. cbn [bind].
  unfold block_size. rewrite block_size_ok by (auto; lia). cbn [bind].
  unfold udiv at 1. replace (0 + total t es =? 0) with false by lia. cbn [bind].
  replace (match es with [] => Panic PIndex
     | x :: _ => q <- udiv 0 (en_len x);; Ok (start, blen / (0 + total t es), q, 0 mod en_len x) end)
    with (Ok (start, N.of_nat m, 0, 0)).
  2:{ rewrite Ees at 1. rewrite Hx. unfold udiv. replace (n0 =? 0) with false by lia. cbn [bind].
      rewrite N.add_0_l, Hb, N.div_0_l, N.mod_0_l by lia. reflexivity. }
  rewrite Nat2N.id.
  destruct (contig_loop_mixed (fun idx es => if idx <? 0 then None else if idx =? 0 then Some (set_all_skips 0 es) else Some (set_all_skips 0 es))
      (total t es) 0 (fun _ => (0, 0)) (oids t es)) with (m := m) (idx := 0) (es := es) (len := 0) (pos := start)
      as [es' [R X]]; auto; try lia.
  - intros o. cbn [fst]. lia.
  - intros idx ys _. cbv beta. destruct (idx <? 0) eqn:K; [lia|].
    assert (Z : set_all_skips 0 ys = set_by t (fun o => skip_for idx (0, 0)) ys).
    { unfold set_all_skips, set_by. apply map_ext. intros y. unfold skip_for. cbn [fst snd]. now destruct (idx =? 0). }
    rewrite Z. now destruct (idx =? 0).
  - assert (Z : forall n, (if 0 <=? 0 then (0 - 0) * n + (if 0 =? 0 then N.min 0 n else 0) else 0) = 0).
    { intros n. change (0 <=? 0) with true. change (0 =? 0) with true. now rewrite N.sub_diag, N.mul_0_l, N.min_0_l. }
    exists es'. rewrite R. cbn [fst snd] in X. split.
    + do 2 f_equal. rewrite N.add_0_l. unfold lim3. destruct (last3 None es) as [[[o n] r]|]; [|reflexivity].
      cbn [fst snd]. now rewrite Z.
    + eapply exts_ext; [|exact X]. intros o x _. cbv beta. rewrite Z. reflexivity.
Qed.

(** An interleaved block whose rows are all before the first row wanted. *)
Lemma inter_past_by start blen es sg : 0 < rowtotal t es -> rowtotal t es < 2 ^ 63 -> row_size E t es = Ok (rowtotal t es) ->
  (forall x, In x es -> forall o g r s, en_plan x = PRead o g r s -> s = sg o) ->
  let mn := min_or_0 (map sg (oids t es)) in
  blen / rowtotal t es <= mn -> start <= seek_max E ->
  start + mn * rowtotal t es <= N.min (2 ^ 63 - 1) (seek_max E) ->
  exists es', inter_read E f t e start blen es = (es', Ok 0) /\ exts t (wd t) (fun _ _ => []) 0 es es'.
Proof.
  intros P P2 R C mn Le Sm Lim. unfold inter_read. rewrite (block_skips_by t sg es C). fold mn.
  unfold seek_to. replace (start <=? seek_max E) with true by lia. cbn [bind]. rewrite R. cbn [bind].
  unfold udiv. replace (rowtotal t es =? 0) with false by lia. cbn [bind].
  assert (Pos : exists p, (if 0 <? mn then off <- imul E (as_i64 mn) (as_i64 (rowtotal t es)) ;;
                     pos' <- seek_rel E start off ;; Ok (pos', blen / rowtotal t es) else Ok (start, blen / rowtotal t es))
                  = Ok (p, blen / rowtotal t es)).
  { destruct (0 <? mn) eqn:S0; [|eauto].
    assert (mn <= mn * rowtotal t es) by nia.
    rewrite !as_i64_small by lia. rewrite imul_small by lia. cbn [bind]. unfold seek_rel.
    replace (Z.of_N start + Z.of_N (mn * rowtotal t es) <? 0)%Z with false by lia.
    replace (Z.to_N (Z.of_N start + Z.of_N (mn * rowtotal t es))) with (start + mn * rowtotal t es) by lia.
    replace (start + mn * rowtotal t es <=? seek_max E) with true by lia. cbn [bind]. eauto. }
  destruct Pos as [p Pos]. rewrite Pos.
  replace (N.to_nat (blen / rowtotal t es - mn)) with 0%nat by lia. cbn [inter_rows].
  eexists. split; [reflexivity|]. clearbody mn.
  clear. generalize 0. induction es as [|x es IH]; intros o; cbn [map exts]; [exact Logic.I|].
  split; [|apply IH]. unfold ext. destruct (en_plan x) as [b|o' g r s'] eqn:Px; cbn [en_len en_plan].
  - split; [reflexivity|exact Px].
  - split; [reflexivity|]. exists (s' - mn). now rewrite firstn_nil, app_nil_r, Nat.sub_0_r.
Qed.
End Loop.

Section Block.
Context (E : env) (f : list byte) (t : sty).
Hypothesis (Sz : sized t) (Ad : addressable E f).
Local Notation V := (carrier t).

Lemma own_reckoned m : In (rm_type m) (stored_as t) -> reckoned (rm_type m) <= own_width t.
Proof.
  destruct Sz as [A B]. intros H. destruct t; try (exfalso; congruence); cbn [stored_as In] in H;
    repeat destruct H as [<-|H]; try contradiction; cbn; lia.
Qed.
Lemma own_pos : 0 < own_width t.
Proof. destruct Sz as [A B]. destruct t; try (exfalso; congruence); cbn; lia. Qed.

Lemma widths_nth cs ms i : nth_error (widths_for t cs ms) i
  = option_map (fun m => (rm_n m, if existsb (Nat.eqb i) cs then own_width t else reckoned (rm_type m))) (nth_error ms i).
Proof.
  unfold widths_for. rewrite nth_error_map.
  assert (A : forall (l : list rawmeta) k, nth_error (combine (seq k (length l)) l) i = option_map (fun m => ((k + i)%nat, m)) (nth_error l i)).
  { clear. revert i. induction i as [|i IH]; intros [|m l] k; cbn [length seq combine nth_error option_map]; try reflexivity.
    - now rewrite Nat.add_0_r.
    - rewrite IH. destruct (nth_error l i); [|reflexivity]. cbn [option_map]. do 2 f_equal. lia. }
  rewrite A. destruct (nth_error ms i); reflexivity.
Qed.
Lemma widths_length cs ms : length (widths_for t cs ms) = length ms.
Proof. unfold widths_for. rewrite map_length, combine_length, seq_length. lia. Qed.

Lemma Forall2_nth {A B} (R : A -> B -> Prop) : forall l l', length l = length l' ->
  (forall i x y, nth_error l i = Some x -> nth_error l' i = Some y -> R x y) -> Forall2 R l l'.
Proof.
  induction l as [|x l IH]; intros [|y l'] L H; try discriminate; constructor.
  - exact (H 0%nat x y eq_refl eq_refl).
  - apply IH; [now injection L|]. intros i x' y' A0 B0. exact (H (S i) x' y' A0 B0).
Qed.
Lemma set_readable_length {W} reqs : forall o (es : list (entry W)), length (set_readable o reqs es) = length es.
Proof.
  assert (A : forall i p (es : list (entry W)), length (set_plan i p es) = length es).
  { induction i as [|i IH]; intros p [|x es]; cbn [set_plan length]; auto. }
  induction reqs as [|q reqs IH]; intros o es; cbn [set_readable]; [reflexivity|]. rewrite IH. apply A.
Qed.
Lemma entries_length chans reqs : length (entries t chans reqs) = length chans.
Proof. unfold entries. rewrite set_readable_length. unfold base_record. apply map_length. Qed.

Lemma existsb_in i cs : existsb (Nat.eqb i) cs = true <-> In i cs.
Proof. rewrite existsb_exists. split; [intros [x [H Q]]; apply Nat.eqb_eq in Q; congruence|intros H; exists i; split; [exact H|apply Nat.eqb_refl]]. Qed.

Lemma entries_mixed chans reqs : Forall (fun m => 0 < reckoned (rm_type m)) chans -> NoDup (map rq_chan reqs) ->
  Forall (valid_req t chans) reqs ->
  Forall2 (rel2 t) (entries t chans reqs) (widths_for t (map rq_chan reqs) chans).
Proof.
  intros Fw ND Hv. apply Forall2_nth; [now rewrite entries_length, widths_length|].
  intros i x w Hx Hw. rewrite widths_nth in Hw.
  destruct (entries_at t chans reqs i x ND Hx) as [m [Hm [Ln P]]]. rewrite Hm in Hw. cbn [option_map] in Hw. injection Hw as <-.
  unfold rel2, wd, good_entry. cbn [fst snd]. split; [exact Ln|].
  destruct P as [[o [q [Hq [Hj P]]]]|[b P]].
  - assert (Q : existsb (Nat.eqb i) (map rq_chan reqs) = true).
    { apply existsb_in. rewrite <- Hj. apply in_map. eapply nth_error_In; eauto. }
    rewrite Q, P. split; [now apply own_size|exact Logic.I].
  - assert (Q : existsb (Nat.eqb i) (map rq_chan reqs) = false).
    { apply not_true_iff_false. intros K. apply existsb_in in K. apply in_map_iff in K. destruct K as [q [Hc Hq]].
      apply In_nth_error in Hq. destruct Hq as [o Hq].
      assert (Vq : valid_req t chans q) by (rewrite Forall_forall in Hv; apply Hv; eapply nth_error_In; eauto).
      destruct (entries_req t chans reqs o q ND Hq Vq) as [y [Hy Py]]. rewrite Hc, Hx in Hy. injection Hy as <-. congruence. }
    rewrite Q.
    (* an entry that is not read is as at the start *)
    assert (Bs : en_plan x = PSkip (as_i64 (dtype_size (rm_type m)))).
    { assert (A : forall reqs o (es : list (entry V)), Forall (fun q => rq_chan q <> i) reqs -> nth_error (set_readable o reqs es) i = nth_error es i).
      { clear. induction reqs as [|q reqs IH]; intros o es H; cbn [set_readable]; [reflexivity|]. inversion H; subst.
        rewrite IH by assumption. rewrite nth_set_plan. destruct (Nat.eqb (rq_chan q) i) eqn:K; [apply Nat.eqb_eq in K; contradiction|reflexivity]. }
      assert (Ne : Forall (fun q => rq_chan q <> i) reqs).
      { apply Forall_forall. intros q Hq Ec. apply not_true_iff_false in Q. apply Q. apply existsb_in. rewrite <- Ec. now apply in_map. }
      unfold entries in Hx. rewrite (A _ _ _ Ne) in Hx. unfold base_record in Hx. rewrite nth_error_map, Hm in Hx. injection Hx as <-. reflexivity. }
    rewrite Bs. rewrite Forall_forall in Fw. pose proof (Fw m (nth_error_In _ _ Hm)) as Pm.
    pose proof (reckoned_16 (rm_type m)). rewrite reckoned_dtype by assumption. rewrite as_i64_small by lia. split; lia.
Qed.

(** No widths exceed the widest. *)
Lemma widths_le_aux (g : N * N -> N) cs ms : 
  (forall n w w', w <= w' -> g (n, w) <= g (n, w')) ->
  (forall i m, nth_error ms i = Some m -> In i cs -> In (rm_type m) (stored_as t)) ->
  fold_right (fun w a => g w + a) 0 (widths_for t cs ms) <= fold_right (fun w a => g w + a) 0 (widest t ms).
Proof.
  intros Mg Hc. assert (L : length (widths_for t cs ms) = length (widest t ms)) by (rewrite widths_length; unfold widest; now rewrite map_length).
  assert (F : Forall2 (fun a b => g a <= g b) (widths_for t cs ms) (widest t ms)).
  { apply Forall2_nth; [exact L|]. intros i x y Hx Hy. rewrite widths_nth in Hx. unfold widest in Hy. rewrite nth_error_map in Hy.
    destruct (nth_error ms i) as [m|] eqn:Hm; [|discriminate]. cbn [option_map] in *. injection Hx as <-. injection Hy as <-.
    apply Mg. destruct (existsb (dtype_eqb (rm_type m)) (stored_as t)) eqn:Q.
    - apply existsb_exists in Q. destruct Q as [d [Hd Eq]]. apply dtype_eqb_eq in Eq. subst d.
      destruct (existsb (Nat.eqb i) cs); [lia|]. now apply own_reckoned.
    - destruct (existsb (Nat.eqb i) cs) eqn:K; [|lia]. exfalso. apply existsb_in in K. specialize (Hc i m Hm K).
      apply not_true_iff_false in Q. apply Q. apply existsb_exists. exists (rm_type m). split; [exact Hc|]. now apply dtype_eqb_eq. }
  clear -F. induction F; cbn [fold_right]; lia.
Qed.
Lemma row_widest cs ms : (forall i m, nth_error ms i = Some m -> In i cs -> In (rm_type m) (stored_as t)) ->
  in_row (widths_for t cs ms) <= in_row (widest t ms).
Proof. intros H. apply (widths_le_aux (fun w => snd w)); [intros; exact H0|exact H]. Qed.
Lemma chunk_widest cs ms : (forall i m, nth_error ms i = Some m -> In i cs -> In (rm_type m) (stored_as t)) ->
  in_chunk (widths_for t cs ms) <= in_chunk (widest t ms).
Proof. intros H. apply (widths_le_aux (fun w => fst w * snd w)); [intros; cbn [fst snd]; nia|exact H]. Qed.

Lemma outputs_at step D G chans reqs es' : NoDup (map rq_chan reqs) -> Forall (valid_req t chans) reqs ->
  exts t step D 0 (entries t chans reqs) es' ->
  (forall o q x, nth_error reqs o = Some q -> nth_error (entries t chans reqs) (rq_chan q) = Some x ->
     en_plan x = PRead o ([] : list V) (rq_room q) 0 ->
     D (fold_right (fun y a => step y + a) 0 (firstn (rq_chan q) (entries t chans reqs))) x = G q) ->
  outputs reqs es' = map (fun q => firstn (rq_room q) (G q)) reqs.
Proof.
  intros ND Hv X HG. unfold outputs. apply map_seq. intros o q Hq. cbn [Nat.add].
  assert (Vq : valid_req t chans q) by (rewrite Forall_forall in Hv; apply Hv; eapply nth_error_In; eauto).
  destruct (entries_req t chans reqs o q ND Hq Vq) as [x [Hx Px]].
  destruct (exts_nth t _ _ _ _ _ _ _ X Hx) as [x' [Hx' [_ A]]]. rewrite Px in A. destruct A as [s' A].
  rewrite N.add_0_l, (HG o q x Hq Hx Px) in A.
  eapply harvest_unique; [exact Hx'|exact A|].
  intros j y g r s Hj Py.
  assert (Lj : exists y0, nth_error (entries t chans reqs) j = Some y0).
  { destruct (nth_error (entries t chans reqs) j) eqn:K; [eauto|]. apply nth_error_None in K.
    rewrite <- (exts_length _ _ _ _ _ _ X) in K. apply nth_error_None in K. congruence. }
  destruct Lj as [y0 Hy0]. destruct (exts_nth t _ _ _ _ _ _ _ X Hy0) as [y1 [Hy1 [_ B]]].
  rewrite Hj in Hy1. injection Hy1 as <-.
  destruct (entries_at t chans reqs j y0 ND Hy0) as [m [_ [_ [[o' [q' [Hq' [Hj' P']]]]|[b P']]]]].
  - rewrite P' in B. destruct B as [s2 B]. rewrite Py in B. injection B as -> _ _ _. congruence.
  - rewrite P' in B. congruence.
Qed.

Lemma last3_read (es : list (entry V)) : forall d, option_map (fun p => (fst (fst p), snd p)) (last3 t d es)
  = last_read t (option_map (fun p => (fst (fst p), snd p)) d) es.
Proof.
  induction es as [|x es IH]; intros d; cbn [last3 last_read]; [reflexivity|]. rewrite IH. f_equal.
  destruct (en_plan x); reflexivity.
Qed.
Lemma last3_some (es : list (entry V)) : forall d o n r, last3 t d es = Some (o, n, r) ->
  (exists i x g s, nth_error es i = Some x /\ en_plan x = PRead o g r s /\ en_len x = n) \/ d = Some (o, n, r).
Proof.
  induction es as [|x es IH]; intros d o n r H; cbn [last3] in H; [now right|].
  apply IH in H. destruct H as [[i [y [g [s [Hi [Py Ly]]]]]]|Hd].
  - left. exists (S i), y, g, s. auto.
  - destruct (en_plan x) as [b|o' g r' s] eqn:P; [now right|]. injection Hd as -> <- ->. left. exists 0%nat, x, g, s. auto.
Qed.
Lemma last3_request chans reqs : NoDup (map rq_chan reqs) -> Forall (valid_req t chans) reqs ->
  match last_request reqs with
  | Some q => exists o m, nth_error reqs o = Some q /\ nth_error chans (rq_chan q) = Some m
                          /\ last3 t None (entries t chans reqs) = Some (o, rm_n m, rq_room q)
  | None => last3 t None (entries t chans reqs) = None
  end.
Proof.
  intros ND Hv. pose proof (last_read_request t chans reqs ND Hv) as Lr.
  pose proof (last3_read (entries t chans reqs) None) as L3. cbn [option_map] in L3.
  destruct (last3 t None (entries t chans reqs)) as [[[o n] r]|] eqn:L; cbn [option_map fst snd] in L3.
  - destruct (last_request reqs) as [q|]; [|congruence]. destruct Lr as [o' [Ho Lr]]. rewrite Lr in L3. injection L3 as -> ->.
    apply last3_some in L. destruct L as [[i [x [g [s [Hi [Px Lx]]]]]]|L]; [|discriminate].
    destruct (entries_at t chans reqs i x ND Hi) as [m [Hm [Ln [[o2 [q2 [Hq2 [Hj P']]]]|[b P']]]]]; [|congruence].
    rewrite Px in P'. injection P' as -> _ _ _. rewrite Ho in Hq2. injection Hq2 as <-. exists o2, m. subst i. split; [exact Ho|].
    split; [exact Hm|]. congruence.
  - destruct (last_request reqs) as [q|]; [|reflexivity]. destruct Lr as [o' [_ Lr]]. congruence.
Qed.

Lemma block_mixed b reqs : b_chans b <> [] -> mixed_block E f t b ->
  Forall (valid_req t (b_chans b)) reqs -> NoDup (map rq_chan reqs) ->
  Forall (fun q => exists m, nth_error (b_chans b) (rq_chan q) = Some m /\ rq_skip q < rm_n m * whole_chunks b) reqs ->
  let outs := map (mixed_got f t b reqs) reqs in
  let k := mixed_count t b reqs in
  block_read_skips E f t b reqs = (outs, Ok k)
  /\ (Forall (fun q => rq_skip q = 0) reqs -> block_read E f t b reqs = (outs, Ok k)).
Proof.
  intros Hne [He [Hw Lim]] Hv ND Hs outs k.
  set (ws := widths_for t (map rq_chan reqs) (b_chans b)) in *.
  set (es := entries t (b_chans b) reqs).
  assert (F2 : Forall2 (rel2 t) es ws) by now apply entries_mixed.
  pose proof (rel2_good t _ _ F2) as G.
  assert (Hes : es <> []).
  { intros K. pose proof (entries_length (b_chans b) reqs) as L. fold es in L. rewrite K in L. destruct (b_chans b); [congruence|discriminate]. }
  assert (Bp : build_record_plan t (b_chans b) reqs = Ok es).
  { unfold build_record_plan. rewrite validate_ok by exact Hv. reflexivity. }
  pose proof (sg_skips t (b_chans b) reqs ND Hv) as Sg. fold es in Sg.
  assert (Ty : forall i m, nth_error (b_chans b) i = Some m -> In i (map rq_chan reqs) -> In (rm_type m) (stored_as t)).
  { intros i m Hm Hi. apply in_map_iff in Hi. destruct Hi as [q [Hc Hq]]. rewrite Forall_forall in Hv.
    destruct (Hv q Hq) as [m' [Hm' Su]]. rewrite Hc, Hm in Hm'. injection Hm' as <-. now apply stored_as_supports. }
  pose proof (row_widest (map rq_chan reqs) (b_chans b) Ty) as Rw. fold ws in Rw.
  pose proof (chunk_widest (map rq_chan reqs) (b_chans b) Ty) as Cw. fold ws in Cw.
  assert (Wn : forall o q, nth_error reqs o = Some q -> exists m, nth_error (b_chans b) (rq_chan q) = Some m /\ nth_error ws (rq_chan q) = Some (rm_n m, own_width t)).
  { intros o q Hq. rewrite Forall_forall in Hv. destruct (Hv q (nth_error_In _ _ Hq)) as [m [Hm _]]. exists m. split; [exact Hm|].
    unfold ws. rewrite widths_nth, Hm. cbn [option_map]. do 2 f_equal.
    assert (Q : existsb (Nat.eqb (rq_chan q)) (map rq_chan reqs) = true) by (apply existsb_in, in_map; eapply nth_error_In; eauto).
    now rewrite Q. }
  assert (Fst : forall i, Forall2 (rel2 t) (firstn i es) (firstn i ws)) by (intros i; now apply Forall2_firstn).
  pose proof Ad as [A1 A2].
  unfold outs, k, mixed_got, mixed_count. fold ws. unfold block_read, block_read_skips. rewrite Bp. destruct (b_layout b) eqn:Lay.
  - destruct Lim as [Rl Reach].
    pose proof (rel2_row t _ _ F2) as Rt. pose proof (rowtotal_pos t es Hes G) as Rpos.
    set (R := b_len b / in_row ws) in *.
    assert (Rb : R * in_row ws <= b_len b).
    { unfold R. rewrite N.mul_comm. apply N.mul_div_le. lia. }
    set (es1 := set_by t (sg reqs) es).
    assert (Zs : zip_skips (map rq_skip reqs) es = es1).
    { rewrite <- (map_id (map rq_skip reqs)). rewrite (zip_by t (fun x => x) (sg reqs) es (map rq_skip reqs) Sg). reflexivity. }
    pose proof (exts_set_by t (wd t) (sg reqs) es 0) as X1. fold es1 in X1.
    assert (G1 : Forall (good_entry t) es1)
      by (eapply exts_forall; [|exact X1|exact G]; intros vs x x' A; apply ext_wd in A; tauto).
    assert (R1 : rowtotal t es1 = rowtotal t es) by (eapply exts_rowtotal; exact X1).
    assert (O1 : oids t es1 = oids t es) by (eapply exts_oids; exact X1).
    assert (Nn : es1 <> []) by (unfold es1, set_by; intros K; apply map_eq_nil in K; contradiction).
    assert (Mn : min_or_0 (map (sg reqs) (oids t es1)) = least_skip reqs) by now rewrite O1, Sg, least_min.
    assert (C1 : forall x, In x es1 -> forall o g r s, en_plan x = PRead o g r s -> s = sg reqs o)
      by (intros x Hx o g r s P; exact (set_by_entry t (sg reqs) es x Hx o r g s P)).
    assert (Rs : row_size E t es1 = Ok (rowtotal t es1)) by (apply row_size_ok; auto; rewrite R1, Rt; lia).
    assert (Seek : b_start b + least_skip reqs * in_row ws <= N.min (2 ^ 63 - 1) (seek_max E)).
    { destruct reqs as [|q reqs'] eqn:Er.
      - cbn [least_skip]. lia.
      - rewrite <- Er in *. assert (Hq : In q reqs) by (rewrite Er; now left).
        assert (Lq : least_skip reqs <= rq_skip q) by (rewrite least_min; apply min_or_0_le; now apply in_map).
        rewrite Forall_forall in Hs, Reach. destruct (Hs q Hq) as [m [Hm Sm]]. specialize (Reach m (nth_error_In _ _ Hm)).
        assert (least_skip reqs * in_row ws <= rm_n m * whole_chunks b * in_row (widest t (b_chans b))) by (apply N.mul_le_mono; lia).
        lia. }
    assert (Main : exists es', inter_read E f t (b_order b) (b_start b) (b_len b) es1 = (es', Ok (rows_read reqs R))
        /\ outputs reqs es' = map (fun q => firstn (rq_room q) (skipn (N.to_nat (skip_given reqs q))
             (firstn (N.to_nat (least_skip reqs + rows_read reqs R)) (samples_with f t b ws (rq_chan q))))) reqs).
    { assert (Smp : forall o q, nth_error reqs o = Some q -> samples_with f t b ws (rq_chan q)
          = icol f t (b_order b) (b_start b) (rowtotal t es) (N.to_nat R) (rowtotal t (firstn (rq_chan q) es))).
      { intros o q Hq. destruct (Wn o q Hq) as [m [_ Nth]]. unfold samples_with, count_with. rewrite Lay, Nth. fold R.
        unfold icol. apply map_ext. intros j. unfold at_, addr_with. rewrite Lay, (rel2_row t _ _ (Fst (rq_chan q))), Rt.
        now rewrite (own_size t Sz). }
      destruct (N.le_gt_cases R (least_skip reqs)) as [Le|Gt].
      - destruct (inter_past_by E f t (b_order b) (b_start b) (b_len b) es1 (sg reqs)) as [es' [Rd X]];
          [rewrite R1; exact Rpos|rewrite R1, Rt; lia|exact Rs|exact C1|rewrite Mn, R1, Rt; exact Le|lia|rewrite Mn, R1, Rt; exact Seek|].
        exists es'. rewrite Rd.
        assert (Z : rows_read reqs R = 0).
        { unfold rows_read. replace (N.to_nat (R - least_skip reqs)) with 0%nat by lia. reflexivity. }
        rewrite Z. split; [reflexivity|].
        assert (X' : exts t (wd t) (fun o (_ : entry V) => [] ++ []) 0 es es').
        { eapply exts_app; [apply wd_stable| |exact X1|exact X]. intros vs x x' o A. reflexivity. }
        cbn [app] in X'. rewrite (outputs_at (wd t) _ (fun _ => []) _ _ _ ND Hv X') by reflexivity.
        apply map_ext_in. intros q Hq. apply In_nth_error in Hq. destruct Hq as [o Hq]. f_equal. symmetry.
        apply skipn_all2. rewrite firstn_length, (Smp o q Hq), icol_length.
        assert (Sl : least_skip reqs <= skip_given reqs q).
        { assert (Rk : (rank reqs q < length (map rq_skip reqs))%nat).
          { rewrite map_length. pose proof (rank_others reqs q) as Ro.
            assert (In q (others reqs q)) by (apply filter_In; split; [eapply nth_error_In; eauto|]; now rewrite Nat.ltb_irrefl).
            destruct (others reqs q); [contradiction|cbn [length] in Ro; lia]. }
          rewrite least_min. apply min_or_0_le. unfold skip_given. apply nth_In. exact Rk. }
        lia.
      - rewrite inter_whole_rows by (first [exact Rs | rewrite R1; exact Rpos]). rewrite R1, Rt. fold R.
        destruct (inter_read_by E f t (b_order b) Sz Ad (b_start b) (R * in_row ws) es1 (sg reqs) (N.to_nat R)) as [es' [Rd X]]; auto; try lia.
        rewrite Mn in Rd, X.
        assert (Wt : forall u, want_by t (sg reqs) es1 u = wanted reqs u).
        { intros u. rewrite <- (want_entries t (b_chans b) reqs u ND Hv). fold es. unfold es1, want_by, set_by. clear.
          induction es as [|x es IH]; [reflexivity|]. cbn [map existsb]. rewrite IH. f_equal.
          unfold set_skip. destruct (en_plan x) eqn:P; cbn [en_plan]; [now rewrite P|reflexivity]. }
        rewrite (rows_run_ext _ _ (wanted reqs)) in Rd, X by (intros; apply Wt).
        rewrite N2Nat.id in Rd, X.
        exists es'. rewrite Rd. split; [reflexivity|].
        assert (X' : exts t (wd t) (fun o x => [] ++ skipn (N.to_nat (sg reqs (oid_of t x))) (firstn (N.to_nat (least_skip reqs + rows_read reqs R))
                       (icol f t (b_order b) (b_start b) (rowtotal t es) (N.to_nat R) o))) 0 es es').
        { eapply exts_app; [apply wd_stable| |exact X1|].
          - intros vs x x' o A. cbv beta. now rewrite (ext_oid t _ _ _ A).
          - eapply exts_ext; [|exact X]. intros o x _. cbv beta. rewrite R1. do 2 f_equal. unfold rows_read. lia. }
        cbn [app] in X'. eapply (outputs_at (wd t)); [exact ND|exact Hv|exact X'|].
        intros o q x Hq _ Px. cbv beta. unfold oid_of. rewrite Px. unfold sg. rewrite Hq.
        rewrite (Smp o q Hq). reflexivity. }
    destruct Main as [es' [Rd O]]. rewrite Zs, Rd, O. split; [reflexivity|]. intros Z.
    assert (Id : es1 = es).
    { unfold es1, set_by. rewrite <- (map_id es) at 2. apply map_ext_in. intros x Hx. unfold set_skip, oid_of.
      apply In_nth_error in Hx. destruct Hx as [j Hj].
      destruct (entries_at t (b_chans b) reqs j x ND Hj) as [m [_ [_ [[o' [q [Hq [_ P']]]]|[b' P']]]]]; rewrite P'; [|reflexivity].
      unfold sg. rewrite Hq, (skip_given_zero reqs q Z). destruct x as [l p]. cbn [en_len en_plan] in *. congruence. }
    rewrite Id in Rd. now rewrite Rd, O.
  - destruct Lim as [Cl Hn]. pose proof (rel2_total t _ _ F2) as Tt.
    set (n0 := per_chunk b) in *.
    assert (Hx0 : exists x0 r0, es = x0 :: r0 /\ en_len x0 = n0).
    { destruct es as [|x0 r0] eqn:Ee; [congruence|]. exists x0, r0. split; [reflexivity|].
      destruct (entries_at t (b_chans b) reqs 0 x0 ND) as [m' [Hm' [Ln _]]]; [fold es; now rewrite Ee|].
      unfold n0, per_chunk. destruct (b_chans b) as [|m0 ms]; [discriminate|]. injection Hm' as <-. exact Ln. }
    assert (Tp : 0 < total t es).
    { destruct Hx0 as [x0 [r0 [Ee Lx]]]. rewrite Ee in G |- *. apply total_pos1; [lia|now inversion G]. }
    set (c := b_len b / in_chunk ws) in *.
    assert (Cb : c * in_chunk ws <= b_len b) by (unfold c; rewrite N.mul_comm; apply N.mul_div_le; lia).
    assert (Hlen : b_len b / total t es = N.of_nat (N.to_nat c)) by (rewrite Tt, N2Nat.id; reflexivity).
    assert (Hin : b_start b + N.of_nat (N.to_nat c) * total t es <= lenN f) by (rewrite Tt, N2Nat.id; lia).
    assert (Fo : forall o q m, nth_error reqs o = Some q -> nth_error (b_chans b) (rq_chan q) = Some m ->
       first3 n0 (furthest n0 (map rq_skip reqs)) (sg reqs) o (rm_n m) = mixed_first b reqs q).
    { intros o q m Hq Hm. unfold first3, mixed_first, values_of, sg. rewrite Hq, Hm, first_chunk_furthest. reflexivity. }
    assert (Cnt : lim3 (last3 t None es) (N.of_nat (N.to_nat c)) (first3 n0 (furthest n0 (map rq_skip reqs)) (sg reqs))
                  = match last_request reqs with Some q => N.min (N.of_nat (rq_room q)) (count_with b ws (rq_chan q) - mixed_first b reqs q) | None => 0 end).
    { pose proof (last3_request (b_chans b) reqs ND Hv) as Lr. fold es in Lr. destruct (last_request reqs) as [q|].
      - destruct Lr as [o [m [Ho [Hm ->]]]]. cbn [lim3]. rewrite (Fo o q m Ho Hm), N2Nat.id.
        destruct (Wn o q Ho) as [m' [Hm' Nth]]. rewrite Hm in Hm'. injection Hm' as <-.
        unfold count_with. rewrite Lay, Nth. fold c. f_equal. f_equal. lia.
      - now rewrite Lr. }
    assert (Col : forall o q x, nth_error reqs o = Some q -> nth_error es (rq_chan q) = Some x ->
       col f t (b_order b) (b_start b) (total t es) (en_len x) (N.to_nat c)
         (fold_right (fun y a => esz t y + a) 0 (firstn (rq_chan q) (entries t (b_chans b) reqs))) x
       = samples_with f t b ws (rq_chan q)).
    { intros o q x Hq Hx. destruct (Wn o q Hq) as [m [Hm Nth]].
      destruct (entries_at t (b_chans b) reqs _ x ND Hx) as [m' [Hm' [Ln _]]]. rewrite Hm in Hm'. injection Hm' as <-. rewrite Ln.
      unfold samples_with, count_with. rewrite Lay, Nth. fold c.
      change (fold_right (fun y a => esz t y + a) 0 (firstn (rq_chan q) (entries t (b_chans b) reqs)))
        with (total t (firstn (rq_chan q) es)).
      rewrite (rel2_total t _ _ (Fst (rq_chan q))), Tt.
      destruct (N.eq_dec (rm_n m) 0) as [Z|Z].
      - rewrite Z. replace (N.to_nat (0 * c)) with 0%nat by lia. cbn [seq map]. unfold col.
        clear. induction (seq 0 (N.to_nat c)) as [|j l IH]; [reflexivity|]. cbn [concat map]. rewrite IH. reflexivity.
      - change (col f t (b_order b) (b_start b) (in_chunk ws) (rm_n m) (N.to_nat c) (in_chunk (firstn (rq_chan q) ws)) x)
          with (col f t (b_order b) (b_start b) (in_chunk ws) (rm_n m) (N.to_nat c) (in_chunk (firstn (rq_chan q) ws)) (mkEntry 0 (PSkip 0))).
        rewrite col_samples by lia.
        replace (N.to_nat (rm_n m * c)) with (N.to_nat c * N.to_nat (rm_n m))%nat by lia.
        apply map_ext. intros j. unfold at_, addr_with. rewrite Lay, Nth, (own_size t Sz). reflexivity. }
    split.
    + destruct (contig_skips_mixed E f t (b_order b) Sz Ad (b_start b) (b_len b) es (map rq_skip reqs) (sg reqs) n0 (N.to_nat c))
        as [es' [R X]]; auto; try lia.
      { intros o. now apply sg_furthest. }
      rewrite R, Cnt. f_equal. eapply (outputs_at (esz t)); [exact ND|exact Hv|exact X|].
      intros o q x Hq Hx Px. cbv beta. rewrite (Col o q x Hq Hx). f_equal. f_equal.
      destruct (Wn o q Hq) as [m [Hm _]].
      destruct (entries_at t (b_chans b) reqs _ x ND Hx) as [m' [Hm' [Ln _]]]. rewrite Hm in Hm'. injection Hm' as <-. rewrite Ln.
      unfold oid_of. rewrite Px. now apply Fo.
    + intros Z. destruct (contig_zero_mixed E f t (b_order b) Sz Ad (b_start b) (b_len b) es n0 (N.to_nat c)) as [es' [R X]]; auto; try lia.
      assert (Cf : forall q, mixed_first b reqs q = 0).
      { intros q. unfold mixed_first. fold n0. rewrite (skip_given_zero reqs q Z), (first_chunk_zero n0 reqs Hn Z).
        rewrite N.mod_0_l by lia. destruct (0 / n0 =? 0); lia. }
      rewrite R. f_equal.
      * rewrite (outputs_at (esz t) _ (fun q => samples_with f t b ws (rq_chan q)) _ _ _ ND Hv X).
        -- apply map_ext. intros q. rewrite Cf. reflexivity.
        -- intros o q x Hq Hx _. exact (Col o q x Hq Hx).
      * f_equal. rewrite <- Cnt. unfold lim3. destruct (last3 t None es) as [[[o n] r]|]; [|reflexivity]. f_equal. f_equal.
        unfold first3. rewrite <- first_chunk_furthest, (first_chunk_zero n0 reqs Hn Z).
        assert (S0 : sg reqs o = 0).
        { unfold sg. destruct (nth_error reqs o) as [q|]; [now apply skip_given_zero|reflexivity]. }
        rewrite S0, N.mod_0_l by lia. destruct (0 / n0 =? 0); lia.
Qed.
End Block.
