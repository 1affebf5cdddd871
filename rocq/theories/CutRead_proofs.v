(** * Reading a channel of a file whose data may end early: all blocks *)
From Verif Require Import Base Lib DataTypes MetaData Maps DataBlock Index RawData ChannelReader TdmsFile
  SpecIndex SpecSession SpecRead SpecLocal SpecCutFile Block_proofs Request_proofs Plan_proofs Read_proofs Session_proofs
  Cut_proofs CutFile_proofs Local_proofs Thm_Index.

Section Exec.
Context (E : env) (H : list segment) (F : tfile) (t : sty).
Hypothesis (Se : session E H F) (Fx : fixed t).
Local Notation f := (tf_bytes F).
Local Notation V := (carrier t).
Local Notation bs := (blocks_after H).

Lemma got_places e ps : got f t e ps = map (value_at f t) (while (present f t) (map (pair e) ps)).
Proof. unfold got. rewrite while_map, map_map. reflexivity. Qed.
Lemma fine_places e ps : fine f t ps = forallb (present f t) (map (pair e) ps).
Proof. unfold fine. rewrite forallb_map. reflexivity. Qed.
Lemma loc_places_rng l b : nth_error bs (l_block l) = Some b ->
  loc_places bs l = map (pair (b_order b)) (map (sample_addr b (l_chan l)) (rng 0 (l_n l))).
Proof.
  intros Hb. unfold loc_places. rewrite Hb. unfold rng. rewrite !map_map. rewrite N.sub_0_r. reflexivity.
Qed.

Lemma execute_cut : forall ls s pr o, Forall (located bs) ls ->
  Forall (laid_out E t H) (touched ls s (pr_target pr - pr_read pr)) ->
  pr_target pr = lenN o -> pr_read pr <= lenN o ->
  let n := pr_target pr - pr_read pr in
  let want := firstn (N.to_nat n) (skipn (N.to_nat s) (concat (map (loc_places bs) ls))) in
  execute E f t (tf_ix F) (map entry (needed ls s)) [pr] [o]
  = ([splice o (pr_read pr) (map (value_at f t) (while (present f t) want))],
     if forallb (present f t) (want ++ behind bs ls s n) then Ok tt else Err (EIo UnexpectedEof)).
Proof.
  destruct (C14_incremental E H F Se) as [_ [_ [_ [Hb _]]]].
  induction ls as [|l ls IH]; intros s pr o Lo St Tg Rd n want.
  - subst want. cbn [needed map execute concat behind]. rewrite skipn_nil, firstn_nil. cbn [while map app forallb].
    now rewrite splice_nil.
  - inversion Lo as [|y l0 Ll Lr]; subst y l0.
    destruct Ll as [b' [m' [Hb2 [Hm2 Hl2]]]].
    cbn [needed touched behind] in *. cbn [map concat] in want.
    pose proof (loc_places_rng l b' Hb2) as Pl.
    assert (Ln : length (loc_places bs l) = N.to_nat (l_n l)) by (rewrite Pl, !map_length, rng_length; lia).
    destruct (l_n l <=? s) eqn:Q.
    + assert (Wt : want = firstn (N.to_nat n) (skipn (N.to_nat (s - l_n l)) (concat (map (loc_places bs) ls)))).
      { unfold want. rewrite skipn_app, Ln. rewrite (skipn_all2 (loc_places bs l)) by (rewrite Ln; lia). cbn [app].
        do 2 f_equal. lia. }
      rewrite Wt. now apply IH.
    + inversion St as [|y l0 [b [m [Hb1 [[nn [c [Pn [Pc [Ne [Fu [Ck [M1 M2]]]]]]]] [Hm Ht]]]]] Sr]; subst y l0.
      rewrite Hb1 in Hb2. injection Hb2 as <-. rewrite Hm in Hm2. injection Hm2 as <-.
      assert (Wc : whole_chunks b = c).
      { apply whole_chunks_of; [eapply Forall_impl; [|exact Fu]; cbv beta; tauto|apply (sub_bytes_pos nn); assumption|exact Ck]. }
      assert (Nm : rm_n m = nn) by (rewrite Forall_forall in Fu; exact (proj1 (Fu m (nth_error_In _ _ Hm)))).
      rewrite Wc, Nm in Hl2. assert (Hl : l_n l = c * nn) by lia. clear Hl2.
      cbn [map]. set (rp := map entry (needed ls 0)). cbn [execute]. unfold entry. cbn [fst snd br_block br_chans].
      unfold get_data_block. rewrite Hb, Hb1. cbv zeta.
      assert (As : any_skip [Some (l_chan l, s)] = (0 <? s)) by (unfold any_skip; cbn [existsb]; apply orb_false_r).
      rewrite As. cbn [block_requests]. destruct (complete pr) eqn:Cp.
      * assert (N0 : n = 0) by (unfold complete in Cp; unfold n; lia).
        destruct (block_no_request E f t Fx b nn c s Pn Pc Ne Fu Ck M1 M2) as [k [A B]].
        assert (Rr : (if 0 <? s then block_read_skips E f t b [] else block_read E f t b []) = ([], Ok k)).
        { destruct (0 <? s) eqn:S0; [exact B|apply A; lia]. }
        rewrite Rr. cbn [store advance forallb]. rewrite Cp.
        assert (C2 : complete (mkPr (pr_read pr + k) (pr_target pr)) = true) by (unfold complete in *; cbn [pr_read pr_target]; lia).
        rewrite C2. cbn [andb].
        subst want. rewrite N0. cbn [N.to_nat firstn]. replace (0 <=? l_n l - s) with true by lia.
        replace (0 <? 0) with false by lia. cbn [andb while map app].
        assert (Z : (match b_layout b with Interleaved => [] | Contigious => [] end : list (endian * N)) = []) by (now destruct (b_layout b)).
        rewrite Z. cbn [forallb]. now rewrite splice_nil.
      * assert (Np : 0 < n) by (unfold complete in Cp; unfold n; lia).
        fold n. destruct (block_one E f t Fx b nn c (l_chan l) m (N.to_nat n) s Pn Pc Fu Ck M1 M2 Hm) as [A B];
          [now apply stored_as_supports|lia|]. rewrite <- Hl in A, B.
        set (ps := firstn (N.to_nat n) (map (sample_addr b (l_chan l)) (rng s (l_n l)))) in *.
        set (fe := fetched b (l_chan l) (N.to_nat n) s (l_n l)) in *.
        assert (Rr : (if 0 <? s then block_read_skips E f t b [mkReq (l_chan l) (N.to_nat n) s] else block_read E f t b [mkReq (l_chan l) (N.to_nat n) s])
                     = ([got f t (b_order b) ps], if fine f t fe then Ok (lenN ps) else eof)).
        { destruct (0 <? s) eqn:S0; [exact B|apply A; lia]. }
        rewrite Rr. clear A B Rr As. cbn [store advance forallb]. rewrite Cp. cbn [br_chans].
        rewrite (got_places (b_order b) ps).
        assert (Lp : lenN ps = N.min n (l_n l - s)).
        { unfold lenN, ps. rewrite firstn_length, map_length, rng_length. lia. }
        set (w1 := map (pair (b_order b)) ps).
        assert (Wt : want = w1 ++ firstn (N.to_nat n - N.to_nat (l_n l - s)) (concat (map (loc_places bs) ls))).
        { unfold want. rewrite skipn_app, Ln. replace (N.to_nat s - N.to_nat (l_n l))%nat with 0%nat by lia. cbn [skipn].
          rewrite firstn_app, skipn_length, Ln. f_equal.
          - rewrite Pl. unfold w1, ps. rewrite !skipn_map, rng_skipn, N2Nat.id, !firstn_map'. reflexivity.
          - f_equal. lia. }
        destruct (n <=? l_n l - s) eqn:Q2.
        -- replace (N.to_nat n - N.to_nat (l_n l - s))%nat with 0%nat in Wt by lia. cbn [firstn] in Wt. rewrite app_nil_r in Wt.
           rewrite Wt.
           set (bh := match b_layout b with Interleaved => _ | Contigious => _ end).
           assert (Fe : map (pair (b_order b)) fe = w1 ++ bh).
           { unfold fe, fetched, w1, ps, bh. destruct (b_layout b) eqn:Lay; [|now rewrite app_nil_r].
             replace (0 <? n) with true by lia. cbn [andb].
             rewrite !firstn_map', !rng_firstn. destruct (n <? l_n l - s) eqn:Q3.
             - replace (N.min (l_n l) (s + N.of_nat (S (N.to_nat n)))) with (s + n + 1) by lia.
               replace (N.min (l_n l) (s + N.of_nat (N.to_nat n))) with (s + n) by lia.
               rewrite (rng_app s (s + n) (s + n + 1)) by lia. rewrite (rng_cons (s + n)) by lia. rewrite (rng_nil (s + n + 1)) by lia.
               rewrite !map_app. reflexivity.
             - rewrite app_nil_r. do 3 f_equal. lia. }
           rewrite (fine_places (b_order b) fe), Fe. destruct (forallb (present f t) (w1 ++ bh)); [|reflexivity].
           replace (complete (mkPr (pr_read pr + lenN ps) (pr_target pr))) with true
             by (unfold complete; cbn [pr_read pr_target]; unfold n in *; lia). reflexivity.
        -- assert (Fe : fe = ps).
           { unfold fe, fetched, ps. destruct (b_layout b); [|reflexivity].
             rewrite !firstn_all2; [reflexivity| |]; rewrite map_length, rng_length; lia. }
           rewrite Fe, (fine_places (b_order b) ps). fold w1. rewrite Wt.
           rewrite while_app, <- app_assoc, forallb_app. destruct (forallb (present f t) w1) eqn:F1; [|reflexivity]. cbn [andb].
           replace (complete (mkPr (pr_read pr + lenN ps) (pr_target pr))) with false
             by (unfold complete; cbn [pr_read pr_target]; unfold n in *; lia).
           cbn [andb]. rewrite (while_all _ w1 F1). set (v1 := map (value_at f t) w1).
           assert (Lv : lenN v1 = lenN ps) by (unfold lenN, v1, w1; now rewrite !map_length).
           assert (Fit : pr_read pr + lenN v1 <= lenN o) by (unfold n in *; lia).
           pose proof (splice_len _ _ _ _ Fit) as Sl.
           assert (Sn : lenN (splice o (pr_read pr) v1) = lenN o) by (unfold lenN; now rewrite Sl).
           subst rp. rewrite IH; [|exact Lr| |cbn [pr_target]; congruence|cbn [pr_read]; rewrite Sn; lia].
           2: { cbn [pr_read pr_target]. replace (pr_target pr - (pr_read pr + lenN ps)) with (n - (l_n l - s)) by (unfold n in *; lia). fold n in Sr. rewrite Q2 in Sr. exact Sr. }
           cbn [pr_read pr_target]. replace (pr_target pr - (pr_read pr + lenN ps)) with (n - (l_n l - s)) by (unfold n in *; lia).
           rewrite <- Lv, splice_splice by exact Fit. cbn [N.to_nat skipn]. rewrite map_app. fold v1.
           replace (N.to_nat (n - (l_n l - s))) with (N.to_nat n - N.to_nat (l_n l - s))%nat by lia. reflexivity.
Qed.

Lemma read_cut p start out : mentioned (all_objs H) p ->
  Forall (laid_out E t H) (touched (locs_after H p) start (lenN out)) ->
  let want := firstn (length out) (skipn (N.to_nat start) (places_after H p)) in
  read_channel_from E F t p start out
  = (overlay out (map (value_at f t) (while (present f t) want)),
     if forallb (present f t) (want ++ behind bs (locs_after H p) start (lenN out)) then Ok tt else Err (EIo UnexpectedEof)).
Proof.
  intros Me St want. unfold read_channel_from. destruct (session_locs E H F p Se Me) as [-> _].
  assert (Mf : Forall (mentioned (all_objs H)) [p]) by (repeat constructor; exact Me).
  destruct (plan_ok E H F Se [p] start Mf) as [plan [Hp [Ps [Sh Hn]]]]. cbn [map length repeat] in Hp. rewrite Hp.
  pose proof (single_plan plan Sh) as Sp. rewrite (Hn 0%nat p eq_refl) in Sp. rewrite Sp.
  unfold execute_read_plan. cbn [map].
  rewrite execute_cut; [|apply locs_located|cbn [pr_read pr_target]; now rewrite N.sub_0_r|reflexivity|cbn [pr_read]; lia].
  cbn [pr_read pr_target]. rewrite N.sub_0_r.
  replace (N.to_nat (lenN out)) with (length out) by (unfold lenN; lia). reflexivity.
Qed.
End Exec.
