(** * Reads of one channel from blocks with channels of any types *)
From Verif Require Import Base Lib DataTypes MetaData DataBlock Index RawData ChannelReader
  SpecIndex SpecRead SpecUneven SpecSeen Block_proofs Request_proofs Plan_proofs Read_proofs Uneven_proofs.

Lemma reckoned_dtype d : 0 < reckoned d -> dtype_size d = reckoned d.
Proof. destruct d; cbn; lia || reflexivity. Qed.
Lemma reckoned_16 d : reckoned d <= 16.
Proof. destruct d; cbn; lia. Qed.
Lemma own_size t : sized t -> size_bytes t = own_width t.
Proof. intros [H1 H2]. destruct t; try (exfalso; congruence); reflexivity. Qed.
Lemma set_plan_split {V} (p : plan V) : forall es i x, nth_error es i = Some x ->
  set_plan i p es = firstn i es ++ [mkEntry (en_len x) p] ++ skipn (S i) es.
Proof.
  induction es as [|y es IH]; intros [|i] x H; try discriminate; cbn [set_plan nth_error firstn skipn app] in *.
  - now injection H as ->.
  - f_equal. now rewrite (IH i x H).
Qed.

Section Block.
Context (E : env) (f : list byte) (t : sty).
Hypothesis (Sz : sized t) (Ad : addressable E f).
Local Notation V := (carrier t).
Local Notation sz := (size_bytes t).

Definition rel2 (x : entry V) (w : N * N) : Prop := en_len x = fst w /\ wd t x = snd w /\ good_entry t x.
Lemma base_rel2 chans : Forall (fun m => 0 < reckoned (rm_type m)) chans -> Forall2 rel2 (base_record chans) (map plain chans).
Proof.
  induction chans as [|m chans IH]; intros F; cbn [base_record map]; constructor; inversion F; subst; auto.
  pose proof (reckoned_16 (rm_type m)). unfold rel2, wd, good_entry, plain. cbn [en_len en_plan fst snd].
  rewrite reckoned_dtype by assumption. rewrite as_i64_small by lia. split; [reflexivity|]. split; lia.
Qed.
Lemma Forall2_firstn {A B} (R : A -> B -> Prop) l l' : Forall2 R l l' -> forall i, Forall2 R (firstn i l) (firstn i l').
Proof. induction 1; intros [|i]; cbn [firstn]; constructor; auto. Qed.
Lemma Forall2_skipn {A B} (R : A -> B -> Prop) l l' : Forall2 R l l' -> forall i, Forall2 R (skipn i l) (skipn i l').
Proof. induction 1; intros [|i]; cbn [skipn]; auto. Qed.

Lemma entries_rel2 chans i m room : Forall (fun m => 0 < reckoned (rm_type m)) chans ->
  nth_error chans i = Some m ->
  Forall2 rel2 (entries t chans [mkReq i room 0]) (seen_widths t i chans).
Proof.
  intros F Hm. pose proof (base_rel2 chans F) as B. unfold entries. cbn [set_readable rq_chan rq_room].
  assert (Hx : exists x, nth_error (base_record (V := V) chans) i = Some x /\ en_len x = rm_n m).
  { unfold base_record. rewrite nth_error_map, Hm. cbn [option_map]. eexists. split; [reflexivity|]. reflexivity. }
  destruct Hx as [x [Hx Lx]]. rewrite (set_plan_split _ _ i x Hx). unfold seen_widths. rewrite Hm.
  apply Forall2_app; [now apply Forall2_firstn|]. apply Forall2_app; [|now apply Forall2_skipn].
  constructor; [|constructor]. unfold rel2, wd, good_entry. cbn [en_len en_plan fst snd].
  split; [exact Lx|]. split; [now apply own_size|exact Logic.I].
Qed.
Lemma rel2_total es ws : Forall2 rel2 es ws -> total t es = in_chunk ws.
Proof.
  induction 1 as [|x w es ws [R1 [R2 _]] F IH]; [reflexivity|]. unfold total, in_chunk. cbn [fold_right].
  fold (total t es) (in_chunk ws). unfold esz. now rewrite R1, R2, IH.
Qed.
Lemma rel2_row es ws : Forall2 rel2 es ws -> rowtotal t es = in_row ws.
Proof.
  induction 1 as [|x w es ws [R1 [R2 _]] F IH]; [reflexivity|]. unfold rowtotal, in_row. cbn [fold_right].
  fold (rowtotal t es) (in_row ws). now rewrite R2, IH.
Qed.
Lemma rel2_good es ws : Forall2 rel2 es ws -> Forall (good_entry t) es.
Proof. induction 1 as [|x w es ws [_ [_ R]] F IH]; constructor; auto. Qed.

Lemma inter_whole_rows e start blen es : 0 < rowtotal t es -> row_size E t es = Ok (rowtotal t es) ->
  inter_read E f t e start blen es = inter_read E f t e start (blen / rowtotal t es * rowtotal t es) es.
Proof.
  intros P R. unfold inter_read. destruct (seek_to E start); cbn [bind]; [|reflexivity..]. rewrite R. cbn [bind].
  unfold udiv. replace (rowtotal t es =? 0) with false by lia. rewrite N.div_mul by lia. reflexivity.
Qed.
(** A skip beyond the last row. *)
Lemma inter_past e start blen es s : 0 < rowtotal t es -> row_size E t es = Ok (rowtotal t es) ->
  common_skip t s es -> nreads t es <> 0%nat -> blen / rowtotal t es <= s ->
  start + s * rowtotal t es <= N.min (2 ^ 63 - 1) (seek_max E) -> 0 < s ->
  exists es', inter_read E f t e start blen es = (es', Ok 0) /\ exts t (wd t) (fun _ _ => []) 0 es es'.
Proof.
  intros P R C Nr Le Sm Ps. unfold inter_read. rewrite (block_skips_common t s es C).
  destruct (nreads t es) as [|k] eqn:K; [congruence|]. rewrite min_repeat.
  unfold seek_to. replace (start <=? seek_max E) with true by lia. cbn [bind]. rewrite R. cbn [bind].
  unfold udiv. replace (rowtotal t es =? 0) with false by lia. cbn [bind].
  replace (0 <? s) with true by lia.
  assert (s <= s * rowtotal t es) by nia. assert (rowtotal t es <= s * rowtotal t es) by nia.
  rewrite !as_i64_small by lia. rewrite imul_small by lia. cbn [bind]. unfold seek_rel.
  replace (Z.of_N start + Z.of_N (s * rowtotal t es) <? 0)%Z with false by lia.
  replace (Z.to_N (Z.of_N start + Z.of_N (s * rowtotal t es))) with (start + s * rowtotal t es) by lia.
  replace (start + s * rowtotal t es <=? seek_max E) with true by lia. cbn [bind].
  replace (N.to_nat (blen / rowtotal t es - s)) with 0%nat by lia. cbn [inter_rows].
  eexists. split; [reflexivity|].
  clear. generalize 0. induction es as [|x es IH]; intros o; cbn [map exts]; [exact Logic.I|].
  split; [|apply IH]. unfold ext. destruct (en_plan x) as [b|o' g r s'] eqn:Px; cbn [en_len en_plan].
  - split; [reflexivity|exact Px].
  - split; [reflexivity|]. exists (s' - s). now rewrite firstn_nil, app_nil_r, Nat.sub_0_r.
Qed.

Lemma nreads_skip s (es : list (entry V)) : nreads t (set_all_skips s es) = nreads t es.
Proof.
  unfold nreads, set_all_skips. induction es as [|x es IH]; [reflexivity|]. cbn [map filter].
  assert (Q : is_read t (set_skip s x) = is_read t x).
  { unfold is_read, set_skip. destruct (en_plan x) eqn:P; cbn [en_plan]; [now rewrite P|reflexivity]. }
  rewrite Q. destruct (is_read t x); cbn [length]; now rewrite IH.
Qed.
Definition got (b : dblock) (ci : nat) (s : N) : list V :=
  skipn (N.to_nat (passed_over b ci s)) (samples_with f t b (seen_widths t ci (b_chans b)) ci).
Lemma samples_with_length b ws i : length (samples_with f t b ws i) = N.to_nat (count_with b ws i).
Proof. unfold samples_with. now rewrite map_length, seq_length. Qed.
Lemma seen_nth i ms m : nth_error ms i = Some m -> nth_error (seen_widths t i ms) i = Some (rm_n m, own_width t).
Proof.
  intros H. unfold seen_widths. rewrite H.
  assert (L : length (firstn i (map plain ms)) = i).
  { rewrite firstn_length, map_length. assert (i < length ms)%nat by (apply nth_error_Some; congruence). lia. }
  rewrite nth_error_app2 by lia. rewrite L, Nat.sub_diag. reflexivity.
Qed.
Lemma seen_firstn i ms m : nth_error ms i = Some m -> firstn i (seen_widths t i ms) = firstn i (map plain ms).
Proof.
  intros H. unfold seen_widths. rewrite H.
  assert (L : length (firstn i (map plain ms)) = i).
  { rewrite firstn_length, map_length. assert (i < length ms)%nat by (apply nth_error_Some; congruence). lia. }
  rewrite firstn_app, L, Nat.sub_diag. cbn [firstn]. rewrite app_nil_r, firstn_firstn. f_equal. lia.
Qed.

Lemma last2_single chans ci room m : nth_error chans ci = Some m ->
  last2 t None (entries t chans [mkReq ci room 0]) = Some (rm_n m, room).
Proof.
  intros Hm. set (q := mkReq ci room 0).
  assert (ND : NoDup (map rq_chan [q])) by (cbn [map]; constructor; [intros []|constructor]).
  destruct (last2 t None (entries t chans [q])) as [[n r]|] eqn:L2.
  - apply last2_some in L2. destruct L2 as [[i [x [o [g [s [Hi [Px Lx]]]]]]]|L2]; [|discriminate].
    destruct (entries_at t chans [q] i x ND Hi) as [m' [Hm' [Ln [[o' [q' [Hq [Hj P']]]]|[b' P']]]]]; [|congruence].
    destruct o' as [|[|]]; try discriminate. injection Hq as <-. cbn [rq_chan q] in Hj. subst i.
    rewrite Px in P'. injection P' as -> _ -> _. rewrite Hm in Hm'. injection Hm' as <-. cbn [rq_room q]. congruence.
  - apply last2_no in L2. exfalso. unfold entries in L2. cbn [set_readable rq_chan q] in L2.
    assert (exists x, nth_error (base_record (V := V) chans) ci = Some x) as [x Hx].
    { unfold base_record. rewrite nth_error_map, Hm. cbn [option_map]. eauto. }
    rewrite (set_plan_split _ _ ci x Hx) in L2. unfold nreads in L2. rewrite !filter_app, !app_length in L2.
    cbn [filter is_read en_plan length] in L2. lia.
Qed.

Lemma seen_single b ci room s m : seen_block E f t b ci m -> s < rm_n m * whole_chunks b ->
  let q := mkReq ci room s in
  let r := ([firstn room (got b ci s)], Ok (N.min (N.of_nat room) (lenN (got b ci s)))) in
  (s = 0 -> block_read E f t b [q] = r) /\ block_read_skips E f t b [q] = r.
Proof.
  intros [Hm [Ht [Hw Rb]]] Hs q r.
  set (ws := seen_widths t ci (b_chans b)) in *.
  set (es := entries t (b_chans b) [q]).
  assert (Ent : es = entries t (b_chans b) [mkReq ci room 0]) by reflexivity.
  assert (F2 : Forall2 rel2 es ws) by (rewrite Ent; now apply (entries_rel2 _ _ m)).
  pose proof (rel2_good _ _ F2) as G.
  assert (Su : supports t (rm_type m) = true) by now apply stored_as_supports.
  assert (Hv : Forall (valid_req t (b_chans b)) [q]) by (constructor; [exists m; auto|constructor]).
  assert (ND : NoDup (map rq_chan [q])) by (cbn [map]; constructor; [intros []|constructor]).
  pose proof (nreads_entries t (b_chans b) [q] ND Hv) as Nr. fold es in Nr. cbn [length] in Nr.
  assert (Hes : es <> []) by (intros K; rewrite K in Nr; discriminate).
  assert (Bp : build_record_plan t (b_chans b) [q] = Ok es).
  { unfold build_record_plan. rewrite validate_ok by exact Hv. reflexivity. }
  assert (Cs0 : common_skip t 0 es).
  { intros x Hx o g r0 s' P. apply In_nth_error in Hx. destruct Hx as [j Hj].
    destruct (entries_at t (b_chans b) [q] j x ND Hj) as [m' [_ [_ [[o' [q' [_ [_ P']]]]|[b' P']]]]]; congruence. }
  assert (Nth : nth_error ws ci = Some (rm_n m, own_width t)) by (now apply seen_nth).
  assert (Fst : forall i, Forall2 rel2 (firstn i es) (firstn i ws)) by (intros i; now apply Forall2_firstn).
  unfold block_read, block_read_skips. rewrite Bp. destruct Ad as [A1 A2].
  destruct (b_layout b) eqn:Lay.
  - destruct Rb as [Rp [He Reach]].
    pose proof (rel2_row _ _ F2) as Rt. pose proof (rowtotal_pos t es Hes G) as Rpos.
    set (R := b_len b / in_row ws) in *.
    assert (Gt : got b ci s = skipn (N.to_nat s) (icol f t (b_order b) (b_start b) (rowtotal t es) (N.to_nat R) (rowtotal t (firstn ci es)))).
    { unfold got, passed_over, samples_with. rewrite Lay. f_equal. fold ws. unfold count_with. rewrite Lay, Nth.
      unfold icol. apply map_ext. intros k. unfold at_, addr_with. rewrite Lay, (rel2_row _ _ (Fst ci)), Rt.
      now rewrite (own_size t Sz). }
    assert (Lg : lenN (got b ci s) = R - s).
    { rewrite Gt. unfold lenN. rewrite skipn_length, icol_length. lia. }
    assert (Mr : max_room t es = room).
    { pose proof (counted_inter t (b_chans b) [q]) as X. clear X. rewrite Ent. clear -Hm.
      unfold entries. cbn [set_readable rq_chan rq_room].
      revert ci Hm. induction (b_chans b) as [|m' l IH]; intros [|ci] Hm; try discriminate; cbn [base_record map set_plan max_room en_plan nth_error] in *.
      - assert (Z : max_room t (map (fun m0 : rawmeta => mkEntry (rm_n m0) (PSkip (as_i64 (dtype_size (rm_type m0))))) l) = 0%nat)
          by (clear; induction l; cbn [map max_room en_plan]; auto). 
        unfold base_record in *. rewrite Z. lia.
      - specialize (IH ci Hm). unfold base_record in IH. rewrite IH. lia. }
    assert (Main : exists es', inter_read E f t (b_order b) (b_start b) (b_len b) (set_all_skips s es)
        = (es', Ok (N.min (N.of_nat room) (lenN (got b ci s)))) /\ outputs [q] es' = [firstn room (got b ci s)]).
    { pose proof (exts_skip t (wd t) s es 0) as X1.
      assert (G1 : Forall (good_entry t) (set_all_skips s es))
        by (eapply exts_forall; [|exact X1|exact G]; intros vs x x' A; apply ext_wd in A; tauto).
      assert (R1 : rowtotal t (set_all_skips s es) = rowtotal t es) by (eapply exts_rowtotal; exact X1).
      assert (Nn : set_all_skips s es <> []) by (unfold set_all_skips; intros K; apply map_eq_nil in K; contradiction).
      assert (Cs : common_skip t s (set_all_skips s es)) by (intros x Hx; apply (set_all_entry t s es x Hx)).
      assert (Rw : in_row ws <= R * in_row ws) by (clearbody R; nia).
      assert (Rs : row_size E t (set_all_skips s es) = Ok (rowtotal t (set_all_skips s es))).
      { apply row_size_ok; auto. rewrite R1, Rt. lia. }
      destruct (N.le_gt_cases s R) as [Le|Gtr].
      - rewrite inter_whole_rows by (first [exact Rs | rewrite R1; exact Rpos]). rewrite R1, Rt. fold R.
        destruct (inter_read_ok E f t (b_order b) Sz Ad (b_start b) (R * in_row ws) (set_all_skips s es) s (N.to_nat R))
          as [es' [Rd X]]; auto; try lia.
        exists es'. rewrite Rd, max_room_skip, N2Nat.id, Mr, Lg. split; [reflexivity|].
        assert (X' : exts t (wd t) (fun o _ => [] ++ skipn (N.to_nat s) (icol f t (b_order b) (b_start b) (rowtotal t es) (N.to_nat R) o)) 0 es es').
        { rewrite R1 in X. eapply exts_app; [apply wd_stable| |exact X1|exact X]. intros vs x x' o A. reflexivity. }
        cbn [app] in X'.
        rewrite (exts_outputs t (wd t) (fun o => skipn (N.to_nat s) (icol f t (b_order b) (b_start b) (rowtotal t es) (N.to_nat R) o))
                   (b_chans b) [q] es' ND Hv X'). cbn [map rq_room rq_chan q]. rewrite Gt. reflexivity.
      - assert (Ne : nreads t (set_all_skips s es) <> 0%nat).
        { rewrite nreads_skip, Nr. discriminate. }
        assert (Sle : s * in_row ws <= rm_n m * whole_chunks b * in_row ws) by (apply N.mul_le_mono_r; lia).
        destruct (inter_past (b_order b) (b_start b) (b_len b) (set_all_skips s es) s) as [es' [Rd X]];
          [rewrite R1; exact Rpos|exact Rs|exact Cs|exact Ne|rewrite R1, Rt; fold R; lia|rewrite R1, Rt; lia|lia|].
        exists es'. rewrite Rd. rewrite Lg. replace (R - s) with 0 by lia. rewrite N.min_0_r. split; [reflexivity|].
        assert (X' : exts t (wd t) (fun o _ => [] ++ []) 0 es es').
        { eapply exts_app; [apply wd_stable| |exact X1|exact X]. intros vs x x' o A. reflexivity. }
        cbn [app] in X'. rewrite (exts_outputs t (wd t) (fun _ => []) (b_chans b) [q] es' ND Hv X').
        cbn [map rq_room q]. rewrite firstn_nil. f_equal. 
        assert (L0 : got b ci s = []) by (apply length_zero_iff_nil; unfold lenN in Lg; lia). now rewrite L0, firstn_nil. }
    destruct Main as [es' [Rd O]]. split.
    + intros Zs. rewrite Zs in *. assert (Id : set_all_skips 0 es = es).
      { unfold set_all_skips. rewrite <- (map_id es) at 2. apply map_ext_in. intros x Hx. unfold set_skip.
        destruct (en_plan x) as [b'|o g r0 s'] eqn:P; [reflexivity|]. rewrite (Cs0 x Hx _ _ _ _ P) in P.
        destruct x as [l p]. cbn [en_len en_plan] in *. congruence. }
      rewrite Id in Rd. rewrite Rd, O. unfold r. now rewrite Zs.
    + cbn [map rq_skip q]. change [s] with (repeat s 1). rewrite <- Nr, zip_repeat. rewrite Rd, O. reflexivity.
  - destruct Rb as [Rp [He [m0 [ms [Eb Hn]]]]].
    pose proof (rel2_total _ _ F2) as Tt.
    set (c := b_len b / in_chunk ws) in *.
    assert (Hx0 : exists x0 r0, es = x0 :: r0 /\ en_len x0 = rm_n m0).
    { destruct es as [|x0 r0] eqn:Ee; [congruence|]. exists x0, r0. split; [reflexivity|].
      destruct (entries_at t (b_chans b) [q] 0 x0 ND) as [m' [Hm' [Ln _]]]; [fold es; now rewrite Ee|].
      rewrite Eb in Hm'. injection Hm' as <-. exact Ln. }
    assert (Hlen : b_len b / total t es = N.of_nat (N.to_nat c)) by (rewrite Tt, N2Nat.id; reflexivity).
    assert (Hin : b_start b + N.of_nat (N.to_nat c) * total t es <= lenN f) by (rewrite Tt, N2Nat.id; exact He).
    assert (Po : passed_over b ci s = eff (rm_n m0) s (rm_n m)).
    { unfold passed_over, eff. rewrite Lay, Hm, Eb. reflexivity. }
    assert (Lg : lenN (got b ci s) = c * rm_n m - eff (rm_n m0) s (rm_n m)).
    { unfold got. fold ws. unfold lenN. rewrite skipn_length, samples_with_length, Po. unfold count_with. rewrite Lay, Nth. fold c. lia. }
    assert (Out : forall es', exts t (esz t) (fun off x => skipn (N.to_nat (eff (rm_n m0) s (en_len x)))
                 (col f t (b_order b) (b_start b) (total t es) (en_len x) (N.to_nat c) off x)) 0 es es' ->
              outputs [q] es' = [firstn room (got b ci s)]).
    { intros es' X. apply (exts_outputs_gen t (esz t) _ (fun _ => got b ci s) (b_chans b) [q] es' ND Hv X).
      intros q' x [<-|[]] Hx. cbv beta. cbn [rq_chan q] in *.
      destruct (entries_at t (b_chans b) [q] _ x ND Hx) as [m' [Hm' [Ln _]]]. rewrite Hm in Hm'. injection Hm' as <-.
      unfold got. rewrite Po, Ln. f_equal. fold ws. unfold samples_with, count_with. rewrite Lay, Nth. fold c.
      change (fold_right (fun y a => esz t y + a) 0 (firstn ci (entries t (b_chans b) [q])))
        with (total t (firstn ci es)).
      rewrite (rel2_total _ _ (Fst ci)), Tt.
      destruct (N.eq_dec (rm_n m) 0) as [Z|Z].
      - rewrite Z. replace (N.to_nat (0 * c)) with 0%nat by lia. cbn [seq map]. unfold col.
        clear. induction (seq 0 (N.to_nat c)) as [|j l IH]; [reflexivity|]. cbn [concat map]. rewrite IH. reflexivity.
      - change (col f t (b_order b) (b_start b) (in_chunk ws) (rm_n m) (N.to_nat c) (in_chunk (firstn ci ws)) x)
          with (col f t (b_order b) (b_start b) (in_chunk ws) (rm_n m) (N.to_nat c) (in_chunk (firstn ci ws)) (mkEntry 0 (PSkip 0))).
        rewrite col_samples by lia.
        replace (N.to_nat (rm_n m * c)) with (N.to_nat c * N.to_nat (rm_n m))%nat by lia.
        apply map_ext. intros k. unfold at_, addr_with. rewrite Lay, Nth, (own_size t Sz). reflexivity. }
    assert (Lm : lim2 (last2 t None es) (N.of_nat (N.to_nat c)) (eff (rm_n m0) s) = N.min (N.of_nat room) (lenN (got b ci s))).
    { rewrite Ent, (last2_single _ _ _ m Hm). cbn [lim2]. rewrite N2Nat.id, Lg. reflexivity. }
    split.
    + intros Zs. destruct (contig_from_gen E f t (b_order b) Sz Ad (b_start b) (b_len b) es s (rm_n m0) (N.to_nat c)) as [es' [R X]]; auto; try lia.
      rewrite Zs in R. rewrite R, (Out es' X), <- Zs, Lm. reflexivity.
    + destruct (contig_skips_gen E f t (b_order b) Sz Ad (b_start b) (b_len b) es s (rm_n m0) (N.to_nat c)) as [es' [R X]]; auto; try lia.
      cbn [map rq_skip q]. change [s] with (repeat s 1). rewrite <- Nr, R, (Out es' X), Lm. reflexivity.
Qed.
End Block.

Section Single.
Context (E : env) (f : list byte) (t : sty) (ix : index).
Hypothesis (Sz : sized t) (Ad : addressable E f).
Local Notation V := (carrier t).
Local Notation bs := (ix_blocks ix).

Definition gsamp (x : nat * nat * N) : list V :=
  let '(j, i, s) := x in match nth_error bs j with Some b => got f t b i s | None => [] end.
Definition seen_plan (plan : list blockread) : Prop :=
  Forall (fun br => exists b ci s m, br_chans br = [Some (ci, s)] /\ nth_error bs (br_block br) = Some b
     /\ seen_block E f t b ci m /\ s < rm_n m * whole_chunks b) plan.

Lemma execute_seen (o0 D : list V) : forall plan r, seen_plan plan ->
  (r < length o0)%nat -> (r <= length D)%nat ->
  skipn r D = concat (map gsamp (planned 0 plan)) ->
  execute E f t ix plan [mkPr (N.of_nat r) (lenN o0)] [overlay o0 (firstn r D)]
  = ([overlay o0 (firstn (length o0) D)], Ok tt).
Proof.
  induction plan as [|br plan IH]; intros r Lp Ho Hd Hs.
  - cbn [execute]. do 2 f_equal. f_equal. cbn [planned flat_map map concat] in Hs.
    apply (f_equal (@length _)) in Hs. rewrite skipn_length in Hs. cbn [length] in Hs.
    rewrite !firstn_all2 by lia. reflexivity.
  - inversion Lp as [|y l [b [ci [s [m [Ec [Hb [Lb Hle]]]]]]] Lp']; subst y l.
    unfold planned in Hs. cbn [flat_map] in Hs. fold (planned 0 plan) in Hs. rewrite Ec in Hs.
    cbn [nth_error app map concat] in Hs. unfold gsamp at 1 in Hs. rewrite Hb in Hs.
    cbn [execute]. unfold get_data_block. rewrite Hb, Ec. cbn [block_requests any_skip existsb store advance].
    unfold complete. cbn [pr_read pr_target].
    destruct (lenN o0 <=? N.of_nat r) eqn:C; [unfold lenN in C; lia|].
    set (room := N.to_nat (lenN o0 - N.of_nat r)).
    destruct (seen_single E f t Sz Ad b ci room s m Lb Hle) as [R1 R2].
    set (off := got f t b ci s) in *.
    set (k := N.min (N.of_nat room) (lenN off)) in *.
    assert (Rd : (if (0 <? s) || false then block_read_skips E f t b [mkReq ci room s] else block_read E f t b [mkReq ci room s])
                 = ([firstn room off], Ok k)).
    { destruct (0 <? s) eqn:Q; cbn [orb]; [exact R2|]. apply R1. lia. }
    rewrite Rd. cbn [store advance]. unfold complete. cbn [pr_read pr_target]. rewrite ?C.
    cbn [forallb]. unfold complete. cbn [pr_read pr_target]. rewrite andb_true_r.
    assert (LD : length D = (r + (length off + length (concat (map gsamp (planned 0 plan)))))%nat).
    { apply (f_equal (@length _)) in Hs. rewrite skipn_length, app_length in Hs. lia. }
    assert (Go : firstn room off = firstn (Nat.min room (length off)) (skipn r D)).
    { rewrite Hs, firstn_app. replace (Nat.min room (length off) - length off)%nat with 0%nat by lia.
      cbn [firstn]. rewrite app_nil_r. destruct (Nat.le_gt_cases room (length off)).
      - f_equal. lia.
      - rewrite !firstn_all2 by lia. reflexivity. }
    assert (Rm : room = (length o0 - r)%nat) by (unfold room, lenN; lia).
    assert (Ek : N.to_nat k = Nat.min room (length off)) by (unfold k, lenN; lia).
    rewrite Go, overlay_splice by lia.
    destruct (lenN o0 <=? N.of_nat r + k) eqn:Q.
    + unfold lenN in Q. do 2 f_equal. f_equal. f_equal. lia.
    + replace (N.of_nat r + k) with (N.of_nat (r + Nat.min room (length off))) by lia.
      unfold lenN in Q. apply IH; auto; try lia.
      rewrite <- skipn_skipn, Hs. replace (Nat.min room (length off)) with (length off) by lia.
      apply skipn_app_exact.
Qed.
End Single.
