(** * Blocks of any make-up asked for channels more than once *)
From Coq Require Import Sorting.Sorted.
From Verif Require Import Base Lib DataTypes MetaData Maps DataBlock Index RawData ChannelReader TdmsFile SpecIndex SpecSession SpecRead SpecMulti
  SpecUneven SpecSeen SpecMixed SpecRepeat SpecDealt Block_proofs Request_proofs Plan_proofs Read_proofs Session_proofs Skips_proofs SkipReq_proofs
  Uneven_proofs Seen_proofs Write_proofs Mixed_proofs Serve_proofs Repeat_proofs Again_proofs MixedServe_proofs Thm_Index.

Section Loop.
Context (E : env) (f : list byte) (t : sty) (e : endian).
Hypothesis (Sz : sized t) (Ad : addressable E f).

Lemma contig_skips_dealt start blen es skips (sg : nat -> N) n0 m : (exists x0 r, es = x0 :: r /\ en_len x0 = n0) -> 0 < n0 ->
  Forall (good_entry t) es -> map sg (oids t es) = firstn (length (oids t es)) skips -> (forall o, sg o / n0 <= furthest n0 skips) ->
  blen / total t es = N.of_nat m -> total t es < 2 ^ 63 -> start <= lenN f -> start + N.of_nat m * total t es <= lenN f ->
  exists es', contig_read_skips E f t e start blen es skips
      = (es', Ok (lim3 (last3 t None es) (N.of_nat m) (first3 n0 (furthest n0 skips) sg)))
    /\ exts t (esz t) (fun off x => skipn (N.to_nat (first3 n0 (furthest n0 skips) sg (oid_of t x) (en_len x)))
         (col f t e start (total t es) (en_len x) m off x)) 0 es es'.
Proof.
  intros [x0 [es0 [Ees Hx]]] Hn G Hsg Hq Hb Ht Hs H. pose proof Ad as [A1 A2].
  assert (Tp : 0 < total t es) by (rewrite Ees in *; apply total_pos1; [lia|now inversion G]).
  unfold contig_read_skips, seek_to. replace (start <=? seek_max E) with true by lia. cbn [bind].
  unfold block_size. rewrite block_size_ok by (auto; lia). cbn [bind].
  unfold udiv at 1. replace (0 + total t es =? 0) with false by lia. cbn [bind].
  replace (match es with [] => Panic PIndex
     | x :: _ => l <- div_skips (en_len x) skips;; Ok (start, blen / (0 + total t es), l) end)
    with (Ok (start, N.of_nat m, map (fun s => (s / n0, s mod n0)) skips)).
  2:{ rewrite Ees at 1. rewrite Hx. rewrite div_skips_all by exact Hn. cbn [bind]. now rewrite N.add_0_l, Hb. }
  rewrite Nat2N.id. set (Q := furthest n0 skips) in *.
  destruct (contig_loop_mixed E f t e Sz Ad (fun idx es => if forallb (fun p => fst p <=? idx) (map (fun s => (s / n0, s mod n0)) skips)
      then Some (zip_skips (map (skip_for idx) (map (fun s => (s / n0, s mod n0)) skips)) es) else None)
      (total t es) Q (fun o => (sg o / n0, sg o mod n0)) (oids t es)) with (m := m) (idx := 0) (es := es) (len := 0) (pos := start)
      as [es' [R X]]; auto; try lia.
  - intros idx ys Hy. cbv beta. rewrite furthest_all. fold Q. destruct (idx <? Q) eqn:K.
    + now replace (Q <=? idx) with false by lia.
    + replace (Q <=? idx) with true by lia. f_equal. apply zip_more.
      rewrite Hy, firstn_map, <- Hsg, map_map. reflexivity.
  - exists es'. cbn [fst snd] in R, X. replace (0 <=? Q) with true in R, X by lia. rewrite N.sub_0_r in R, X.
    rewrite R. split; [reflexivity|exact X].
Qed.

End Loop.

Section Block.
Context (E : env) (f : list byte) (t : sty).
Hypothesis (Sz : sized t) (Ad : addressable E f).
Local Notation V := (carrier t).

Lemma entries_dealt chans reqs : Forall (fun m => 0 < reckoned (rm_type m)) chans ->
  Forall (valid_req t chans) reqs ->
  Forall2 (rel2 t) (entries t chans reqs) (widths_for t (map rq_chan reqs) chans).
Proof.
  intros Fw Hv. apply Forall2_nth; [now rewrite entries_length, widths_length|].
  intros i x w Hx Hw. rewrite widths_nth in Hw.
  destruct (entries_at_r t chans reqs i x Hx) as [m [Hm [Ln P]]]. rewrite Hm in Hw. cbn [option_map] in Hw. injection Hw as <-.
  unfold rel2, wd, good_entry. cbn [fst snd]. split; [exact Ln|].
  destruct P as [[o [q [Hq [Hj P]]]]|[b P]].
  - assert (Q : existsb (Nat.eqb i) (map rq_chan reqs) = true).
    { apply existsb_in. rewrite <- Hj. apply in_map. exact (nth_error_In _ _ (proj1 Hq)). }
    rewrite Q, P. split; [now apply own_size|exact Logic.I].
  - assert (Q : existsb (Nat.eqb i) (map rq_chan reqs) = false).
    { apply not_true_iff_false. intros K. apply existsb_in in K. apply in_map_iff in K. destruct K as [q [Hc Hq]].
      assert (Hf : In i (map rq_chan (final_ones reqs))) by (apply final_chans; rewrite <- Hc; now apply in_map).
      apply in_map_iff in Hf. destruct Hf as [q' [Hc' Hf]]. apply final_member in Hf. destruct Hf as [o Hf]. clear q Hq Hc. rename q' into q, Hc' into Hc.
      assert (Vq : valid_req t chans q) by (rewrite Forall_forall in Hv; apply Hv; exact (nth_error_In _ _ (proj1 Hf))).
      destruct (entries_req_r t chans reqs o q Hf Vq) as [y [Hy Py]]. rewrite Hc, Hx in Hy. injection Hy as <-. congruence. }
    rewrite Q.
    (* an entry that is not read is as at the start *)
    assert (Bs : en_plan x = PSkip (as_i64 (dtype_size (rm_type m)))).
    { assert (A : forall reqs o (es : list (entry V)), Forall (fun q => rq_chan q <> i) reqs -> nth_error (set_readable o reqs es) i = nth_error es i).
      { clear. induction reqs as [|q reqs IH]; intros o es H; cbn [set_readable]; [reflexivity|]. inversion H; subst.
        rewrite IH by assumption. rewrite nth_set_plan. destruct (Nat.eqb (rq_chan q) i) eqn:K; [apply Nat.eqb_eq in K; contradiction|reflexivity]. }
      assert (Ne : Forall (fun q => rq_chan q <> i) reqs).
      { apply Forall_forall. intros q Hq Ec. apply not_true_iff_false in Q. apply Q. apply existsb_in. rewrite <- Ec. now apply in_map. }
      unfold entries in Hx. rewrite (A _ _ _ Ne) in Hx. unfold base_record in Hx. rewrite nth_error_map, Hm in Hx. injection Hx as <-. reflexivity. }
    rewrite Bs. rewrite Forall_forall in Fw. pose proof (Fw m (nth_error_In _ _ Hm)) as Pm.
    pose proof (reckoned_16 (rm_type m)). rewrite reckoned_dtype by assumption. rewrite as_i64_small by lia. split; lia.
Qed.

Lemma outputs_dealt step D G chans reqs es' : Forall (valid_req t chans) reqs ->
  exts t step D 0 (entries t chans reqs) es' ->
  (forall o q x, final reqs o q -> nth_error (entries t chans reqs) (rq_chan q) = Some x ->
     en_plan x = PRead o ([] : list V) (rq_room q) 0 ->
     D (fold_right (fun y a => step y + a) 0 (firstn (rq_chan q) (entries t chans reqs))) x = G q) ->
  outputs reqs es' = answers t (fun q => firstn (rq_room q) (G q)) reqs.
Proof.
  intros Hv X HG. unfold outputs. apply seq_answers. intros o q Hq. cbn [Nat.add].
  assert (Back : forall j y g r s, nth_error es' j = Some y -> en_plan y = PRead o g r s ->
    exists q', final reqs o q' /\ rq_chan q' = j).
  { intros j y g r s Hj Py.
    assert (Lj : exists y0, nth_error (entries t chans reqs) j = Some y0).
    { destruct (nth_error (entries t chans reqs) j) eqn:K; [eauto|]. apply nth_error_None in K.
      rewrite <- (exts_length _ _ _ _ _ _ X) in K. apply nth_error_None in K. congruence. }
    destruct Lj as [y0 Hy0]. destruct (exts_nth t _ _ _ _ _ _ _ X Hy0) as [y1 [Hy1 [_ B]]].
    rewrite Hj in Hy1. injection Hy1 as <-.
    destruct (entries_at_r t chans reqs j y0 Hy0) as [m [_ [_ [[o' [q' [Hq' [Hj' P']]]]|[b P']]]]].
    - rewrite P' in B. destruct B as [s2 B]. rewrite Py in B. injection B as -> _ _ _. eauto.
    - rewrite P' in B. congruence. }
  destruct (again q (skipn (S o) reqs)) eqn:Ha.
  - apply harvest_none. intros j y g r s Hj Py. destruct (Back j y g r s Hj Py) as [q' [[Hq' Ha'] _]]. rewrite Hq in Hq'. injection Hq' as <-. congruence.
  - assert (Vq : valid_req t chans q) by (rewrite Forall_forall in Hv; apply Hv; eapply nth_error_In; eauto).
    destruct (entries_req_r t chans reqs o q (conj Hq Ha) Vq) as [x [Hx Px]].
    destruct (exts_nth t _ _ _ _ _ _ _ X Hx) as [x' [Hx' [_ A]]]. rewrite Px in A. destruct A as [s' A].
    rewrite N.add_0_l, (HG o q x (conj Hq Ha) Hx Px) in A.
    eapply harvest_unique; [exact Hx'|exact A|].
    intros j y g r s Hj Py. destruct (Back j y g r s Hj Py) as [q' [[Hq' _] <-]]. congruence.
Qed.

Lemma last3_dealt chans reqs : Forall (valid_req t chans) reqs ->
  match last_request (final_ones reqs) with
  | Some q => exists o m, final reqs o q /\ nth_error chans (rq_chan q) = Some m
                          /\ last3 t None (entries t chans reqs) = Some (o, rm_n m, rq_room q)
  | None => last3 t None (entries t chans reqs) = None
  end.
Proof.
  intros Hv. pose proof (last_read_r t chans reqs Hv) as Lr.
  pose proof (last3_read t (entries t chans reqs) None) as L3. cbn [option_map] in L3.
  destruct (last3 t None (entries t chans reqs)) as [[[o n] r]|] eqn:L; cbn [option_map fst snd] in L3.
  - destruct (last_request (final_ones reqs)) as [q|]; [|congruence]. destruct Lr as [o' [Ho Lr]]. rewrite Lr in L3. injection L3 as -> ->.
    apply last3_some in L. destruct L as [[i [x [g [s [Hi [Px Lx]]]]]]|L]; [|discriminate].
    destruct (entries_at_r t chans reqs i x Hi) as [m [Hm [Ln [[o2 [q2 [Hq2 [Hj P']]]]|[b P']]]]]; [|congruence].
    rewrite Px in P'. injection P' as -> _ _ _. assert (q2 = q) as -> by (destruct Hq2, Ho; congruence). exists o2, m. subst i. split; [exact Ho|].
    split; [exact Hm|]. congruence.
  - destruct (last_request (final_ones reqs)) as [q|]; [|reflexivity]. destruct Lr as [o' [_ Lr]]. congruence.
Qed.
Lemma least_among reqs : reqs = [] \/ exists q, In q reqs /\ least_dealt reqs <= rq_skip q.
Proof.
  destruct reqs as [|q0 r0] eqn:Er; [now left|]. right. rewrite <- Er. unfold least_dealt. rewrite least_min.
  destruct (firstn (length (final_ones reqs)) reqs) as [|q l] eqn:Fl.
  - exists q0. split; [rewrite Er; now left|]. cbn. lia.
  - exists q. split; [|apply min_or_0_le; now left].
    assert (Hi : In q (firstn (length (final_ones reqs)) reqs)) by (rewrite Fl; now left).
    revert Hi. clear. generalize (length (final_ones reqs)) as m. induction reqs as [|x r IH]; intros [|m] Hi; try contradiction.
    destruct Hi as [->|Hi]; [now left|right; eauto].
Qed.
Lemma least_below reqs q : In q (final_ones reqs) -> least_dealt reqs <= skip_dealt reqs q.
Proof.
  intros Hq. assert (Rk : (rank (final_ones reqs) q < length (final_ones reqs))%nat).
  { pose proof (rank_others (final_ones reqs) q) as Ro.
    assert (In q (others (final_ones reqs) q)) by (apply filter_In; split; [exact Hq|]; now rewrite Nat.ltb_irrefl).
    destruct (others (final_ones reqs) q); [contradiction|cbn [length] in Ro; lia]. }
  pose proof (final_length reqs) as Lf. rewrite least_dealt_min. apply min_or_0_le. unfold skip_dealt.
  replace (nth (rank (final_ones reqs) q) (map rq_skip reqs) 0) with (nth (rank (final_ones reqs) q) (firstn (length (final_ones reqs)) (map rq_skip reqs)) 0).
  - apply nth_In. rewrite firstn_length, map_length. lia.
  - revert Rk. generalize (length (final_ones reqs)) as m, (map rq_skip reqs) as l, (rank (final_ones reqs) q) as k. clear.
    intros m l. revert m. induction l as [|a l IH]; intros [|m] [|k] H; cbn [firstn nth]; try reflexivity; try lia. apply IH. lia.
Qed.

Lemma block_dealt b reqs : b_chans b <> [] -> mixed_block E f t b ->
  Forall (valid_req t (b_chans b)) reqs ->
  Forall (fun q => exists m, nth_error (b_chans b) (rq_chan q) = Some m /\ rq_skip q < rm_n m * whole_chunks b) reqs ->
  let outs := answers t (dealt_got f t b reqs) reqs in
  let k := dealt_count t b reqs in
  block_read_skips E f t b reqs = (outs, Ok k)
  /\ (Forall (fun q => rq_skip q = 0) reqs -> block_read E f t b reqs = (outs, Ok k)).
Proof.
  intros Hne [He [Hw Lim]] Hv Hs outs k.
  set (ws := widths_for t (map rq_chan reqs) (b_chans b)) in *.
  set (es := entries t (b_chans b) reqs).
  assert (F2 : Forall2 (rel2 t) es ws) by now apply entries_dealt.
  pose proof (rel2_good t _ _ F2) as G.
  assert (Hes : es <> []).
  { intros K. pose proof (entries_length t (b_chans b) reqs) as L. fold es in L. rewrite K in L. destruct (b_chans b); [congruence|discriminate]. }
  assert (Bp : build_record_plan t (b_chans b) reqs = Ok es).
  { unfold build_record_plan. rewrite validate_ok by exact Hv. reflexivity. }
  pose proof (sd_skips t (b_chans b) reqs Hv) as Sg. fold es in Sg.
  assert (Lo : length (oids t es) = length (final_ones reqs)) by (rewrite oids_length; exact (all_reads t reqs (b_chans b) Hv)).
  assert (Ty : forall i m, nth_error (b_chans b) i = Some m -> In i (map rq_chan reqs) -> In (rm_type m) (stored_as t)).
  { intros i m Hm Hi. apply in_map_iff in Hi. destruct Hi as [q [Hc Hq]]. rewrite Forall_forall in Hv.
    destruct (Hv q Hq) as [m' [Hm' Su]]. rewrite Hc, Hm in Hm'. injection Hm' as <-. now apply stored_as_supports. }
  pose proof (row_widest t Sz (map rq_chan reqs) (b_chans b) Ty) as Rw. fold ws in Rw.
  pose proof (chunk_widest t Sz (map rq_chan reqs) (b_chans b) Ty) as Cw. fold ws in Cw.
  assert (Wn : forall o q, nth_error reqs o = Some q -> exists m, nth_error (b_chans b) (rq_chan q) = Some m /\ nth_error ws (rq_chan q) = Some (rm_n m, own_width t)).
  { intros o q Hq. rewrite Forall_forall in Hv. destruct (Hv q (nth_error_In _ _ Hq)) as [m [Hm _]]. exists m. split; [exact Hm|].
    unfold ws. rewrite (widths_nth t), Hm. cbn [option_map]. do 2 f_equal.
    assert (Q : existsb (Nat.eqb (rq_chan q)) (map rq_chan reqs) = true) by (apply existsb_in, in_map; eapply nth_error_In; eauto).
    now rewrite Q. }
  assert (Fst : forall i, Forall2 (rel2 t) (firstn i es) (firstn i ws)) by (intros i; now apply Forall2_firstn).
  pose proof Ad as [A1 A2].
  unfold outs, k, dealt_got, dealt_count. fold ws. unfold block_read, block_read_skips. rewrite Bp. destruct (b_layout b) eqn:Lay.
  - destruct Lim as [Rl Reach].
    pose proof (rel2_row t _ _ F2) as Rt. pose proof (rowtotal_pos t es Hes G) as Rpos.
    set (R := b_len b / in_row ws) in *.
    assert (Rb : R * in_row ws <= b_len b).
    { unfold R. rewrite N.mul_comm. apply N.mul_div_le. lia. }
    set (es1 := set_by t (sd reqs) es).
    assert (Zs : zip_skips (map rq_skip reqs) es = es1).
    { rewrite <- (map_id (map rq_skip reqs)). rewrite (zip_more t (fun x => x) (sd reqs) es (map rq_skip reqs)) by (rewrite Lo; exact Sg). reflexivity. }
    pose proof (exts_set_by t (wd t) (sd reqs) es 0) as X1. fold es1 in X1.
    assert (G1 : Forall (good_entry t) es1)
      by (eapply exts_forall; [|exact X1|exact G]; intros vs x x' A; apply ext_wd in A; tauto).
    assert (R1 : rowtotal t es1 = rowtotal t es) by (eapply exts_rowtotal; exact X1).
    assert (O1 : oids t es1 = oids t es) by (eapply exts_oids; exact X1).
    assert (Nn : es1 <> []) by (unfold es1, set_by; intros K; apply map_eq_nil in K; contradiction).
    assert (Mn : min_or_0 (map (sd reqs) (oids t es1)) = least_dealt reqs) by now rewrite O1, Sg, least_dealt_min.
    assert (C1 : forall x, In x es1 -> forall o g r s, en_plan x = PRead o g r s -> s = sd reqs o)
      by (intros x Hx o g r s P; exact (set_by_entry t (sd reqs) es x Hx o r g s P)).
    assert (Rs : row_size E t es1 = Ok (rowtotal t es1)) by (apply row_size_ok; auto; rewrite R1, Rt; lia).
    assert (Seek : b_start b + least_dealt reqs * in_row ws <= N.min (2 ^ 63 - 1) (seek_max E)).
    { destruct (least_among reqs) as [Er|[q [Hq Lq]]].
      - assert (Z : least_dealt reqs = 0) by (rewrite Er; reflexivity). rewrite Z. lia.
      - rewrite Forall_forall in Hs, Reach. destruct (Hs q Hq) as [m [Hm Sm]]. specialize (Reach m (nth_error_In _ _ Hm)).
        assert (least_dealt reqs * in_row ws <= rm_n m * whole_chunks b * in_row (widest t (b_chans b))) by (apply N.mul_le_mono; lia).
        lia. }
    assert (Main : exists es', inter_read E f t (b_order b) (b_start b) (b_len b) es1 = (es', Ok (rows_passed reqs R))
        /\ outputs reqs es' = answers t (fun q => firstn (rq_room q) (skipn (N.to_nat (skip_dealt reqs q))
             (firstn (N.to_nat (least_dealt reqs + rows_passed reqs R)) (samples_with f t b ws (rq_chan q))))) reqs).
    { assert (Smp : forall o q, nth_error reqs o = Some q -> samples_with f t b ws (rq_chan q)
          = icol f t (b_order b) (b_start b) (rowtotal t es) (N.to_nat R) (rowtotal t (firstn (rq_chan q) es))).
      { intros o q Hq. destruct (Wn o q Hq) as [m [_ Nth]]. unfold samples_with, count_with. rewrite Lay, Nth. fold R.
        unfold icol. apply map_ext. intros j. unfold at_, addr_with. rewrite Lay, (rel2_row t _ _ (Fst (rq_chan q))), Rt.
        now rewrite (own_size t Sz). }
      destruct (N.le_gt_cases R (least_dealt reqs)) as [Le|Gt].
      - destruct (inter_past_by E f t (b_order b) (b_start b) (b_len b) es1 (sd reqs)) as [es' [Rd X]];
          [rewrite R1; exact Rpos|rewrite R1, Rt; lia|exact Rs|exact C1|rewrite Mn, R1, Rt; exact Le|lia|rewrite Mn, R1, Rt; exact Seek|].
        exists es'. rewrite Rd.
        assert (Z : rows_passed reqs R = 0).
        { unfold rows_passed. replace (N.to_nat (R - least_dealt reqs)) with 0%nat by lia. reflexivity. }
        rewrite Z. split; [reflexivity|].
        assert (X' : exts t (wd t) (fun o (_ : entry V) => [] ++ []) 0 es es').
        { eapply exts_app; [apply wd_stable| |exact X1|exact X]. intros vs x x' o A. reflexivity. }
        cbn [app] in X'. rewrite (outputs_dealt (wd t) _ (fun q => skipn (N.to_nat (skip_dealt reqs q)) (firstn (N.to_nat (least_dealt reqs + 0)) (samples_with f t b ws (rq_chan q)))) _ _ _ Hv X'); [reflexivity|].
        intros o q x Hq _ _. cbv beta. symmetry. apply skipn_all2. rewrite firstn_length, (Smp o q (proj1 Hq)), icol_length.
        assert (Sl : least_dealt reqs <= skip_dealt reqs q) by (apply least_below, final_member; eauto).
        lia.
      - rewrite inter_whole_rows by (first [exact Rs | rewrite R1; exact Rpos]). rewrite R1, Rt. fold R.
        destruct (inter_read_by E f t (b_order b) Sz Ad (b_start b) (R * in_row ws) es1 (sd reqs) (N.to_nat R)) as [es' [Rd X]]; auto; try lia.
        rewrite Mn in Rd, X.
        assert (Wt : forall u, want_by t (sd reqs) es1 u = wanted_by_final reqs u).
        { intros u. rewrite <- (want_r t (b_chans b) reqs u Hv). fold es. unfold es1, want_by, set_by. clear.
          induction es as [|x es IH]; [reflexivity|]. cbn [map existsb]. rewrite IH. f_equal.
          unfold set_skip. destruct (en_plan x) eqn:P; cbn [en_plan]; [now rewrite P|reflexivity]. }
        rewrite (rows_run_ext _ _ (wanted_by_final reqs)) in Rd, X by (intros; apply Wt).
        rewrite N2Nat.id in Rd, X.
        exists es'. rewrite Rd. split; [reflexivity|].
        assert (X' : exts t (wd t) (fun o x => [] ++ skipn (N.to_nat (sd reqs (oid_of t x))) (firstn (N.to_nat (least_dealt reqs + rows_passed reqs R))
                       (icol f t (b_order b) (b_start b) (rowtotal t es) (N.to_nat R) o))) 0 es es').
        { eapply exts_app; [apply wd_stable| |exact X1|].
          - intros vs x x' o A. cbv beta. now rewrite (ext_oid t _ _ _ A).
          - eapply exts_ext; [|exact X]. intros o x _. cbv beta. rewrite R1. do 2 f_equal. unfold rows_passed. lia. }
        cbn [app] in X'. eapply (outputs_dealt (wd t)); [exact Hv|exact X'|].
        intros o q x Hq _ Px. cbv beta. unfold oid_of. rewrite Px. unfold sd. rewrite (proj1 Hq).
        rewrite (Smp o q (proj1 Hq)). reflexivity. }
    destruct Main as [es' [Rd O]]. rewrite Zs, Rd, O. split; [reflexivity|]. intros Z.
    assert (Id : es1 = es).
    { unfold es1, set_by. rewrite <- (map_id es) at 2. apply map_ext_in. intros x Hx. unfold set_skip, oid_of.
      apply In_nth_error in Hx. destruct Hx as [j Hj].
      destruct (entries_at_r t (b_chans b) reqs j x Hj) as [m [_ [_ [[o' [q [[Hq _] [_ P']]]]|[b' P']]]]]; rewrite P'; [|reflexivity].
      unfold sd. rewrite Hq, (skip_dealt_zero reqs q Z). destruct x as [l p]. cbn [en_len en_plan] in *. congruence. }
    rewrite Id in Rd. now rewrite Rd, O.
  - destruct Lim as [Cl Hn]. pose proof (rel2_total t _ _ F2) as Tt.
    set (n0 := per_chunk b) in *.
    assert (Hx0 : exists x0 r0, es = x0 :: r0 /\ en_len x0 = n0).
    { destruct es as [|x0 r0] eqn:Ee; [congruence|]. exists x0, r0. split; [reflexivity|].
      destruct (entries_at_r t (b_chans b) reqs 0 x0) as [m' [Hm' [Ln _]]]; [fold es; now rewrite Ee|].
      unfold n0, per_chunk. destruct (b_chans b) as [|m0 ms]; [discriminate|]. injection Hm' as <-. exact Ln. }
    assert (Tp : 0 < total t es).
    { destruct Hx0 as [x0 [r0 [Ee Lx]]]. rewrite Ee in G |- *. apply total_pos1; [lia|now inversion G]. }
    set (c := b_len b / in_chunk ws) in *.
    assert (Cb : c * in_chunk ws <= b_len b) by (unfold c; rewrite N.mul_comm; apply N.mul_div_le; lia).
    assert (Hlen : b_len b / total t es = N.of_nat (N.to_nat c)) by (rewrite Tt, N2Nat.id; reflexivity).
    assert (Hin : b_start b + N.of_nat (N.to_nat c) * total t es <= lenN f) by (rewrite Tt, N2Nat.id; lia).
    assert (Fo : forall o q m, nth_error reqs o = Some q -> nth_error (b_chans b) (rq_chan q) = Some m ->
       first3 n0 (furthest n0 (map rq_skip reqs)) (sd reqs) o (rm_n m) = dealt_first b reqs q).
    { intros o q m Hq Hm. unfold first3, dealt_first, values_of, sd. rewrite Hq, Hm, first_chunk_furthest. reflexivity. }
    assert (Cnt : lim3 (last3 t None es) (N.of_nat (N.to_nat c)) (first3 n0 (furthest n0 (map rq_skip reqs)) (sd reqs))
                  = match last_request (final_ones reqs) with Some q => N.min (N.of_nat (rq_room q)) (count_with b ws (rq_chan q) - dealt_first b reqs q) | None => 0 end).
    { pose proof (last3_dealt (b_chans b) reqs Hv) as Lr. fold es in Lr. destruct (last_request (final_ones reqs)) as [q|].
      - destruct Lr as [o [m [[Ho _] [Hm ->]]]]. cbn [lim3]. rewrite (Fo o q m Ho Hm), N2Nat.id.
        destruct (Wn o q Ho) as [m' [Hm' Nth]]. rewrite Hm in Hm'. injection Hm' as <-.
        unfold count_with. rewrite Lay, Nth. fold c. f_equal. f_equal. lia.
      - now rewrite Lr. }
    assert (Col : forall o q x, nth_error reqs o = Some q -> nth_error es (rq_chan q) = Some x ->
       col f t (b_order b) (b_start b) (total t es) (en_len x) (N.to_nat c)
         (fold_right (fun y a => esz t y + a) 0 (firstn (rq_chan q) (entries t (b_chans b) reqs))) x
       = samples_with f t b ws (rq_chan q)).
    { intros o q x Hq Hx. destruct (Wn o q Hq) as [m [Hm Nth]].
      destruct (entries_at_r t (b_chans b) reqs _ x Hx) as [m' [Hm' [Ln _]]]. rewrite Hm in Hm'. injection Hm' as <-. rewrite Ln.
      unfold samples_with, count_with. rewrite Lay, Nth. fold c.
      change (fold_right (fun y a => esz t y + a) 0 (firstn (rq_chan q) (entries t (b_chans b) reqs)))
        with (total t (firstn (rq_chan q) es)).
      rewrite (rel2_total t _ _ (Fst (rq_chan q))), Tt.
      destruct (N.eq_dec (rm_n m) 0) as [Z|Z].
      - rewrite Z. replace (N.to_nat (0 * c)) with 0%nat by lia. cbn [seq map]. unfold col.
        clear. induction (seq 0 (N.to_nat c)) as [|j l IH]; [reflexivity|]. cbn [concat map]. rewrite IH. reflexivity.
      - change (col f t (b_order b) (b_start b) (in_chunk ws) (rm_n m) (N.to_nat c) (in_chunk (firstn (rq_chan q) ws)) x)
          with (col f t (b_order b) (b_start b) (in_chunk ws) (rm_n m) (N.to_nat c) (in_chunk (firstn (rq_chan q) ws)) (mkEntry 0 (PSkip 0))).
        rewrite col_samples by lia.
        replace (N.to_nat (rm_n m * c)) with (N.to_nat c * N.to_nat (rm_n m))%nat by lia.
        apply map_ext. intros j. unfold at_, addr_with. rewrite Lay, Nth, (own_size t Sz). reflexivity. }
    split.
    + destruct (contig_skips_dealt E f t (b_order b) Sz Ad (b_start b) (b_len b) es (map rq_skip reqs) (sd reqs) n0 (N.to_nat c))
        as [es' [R X]]; auto; try lia.
      { rewrite Lo. exact Sg. }
      { intros o. now apply sd_furthest. }
      rewrite R, Cnt. f_equal. eapply (outputs_dealt (esz t)); [exact Hv|exact X|].
      intros o q x [Hq _] Hx Px. cbv beta. rewrite (Col o q x Hq Hx). f_equal. f_equal.
      destruct (Wn o q Hq) as [m [Hm _]].
      destruct (entries_at_r t (b_chans b) reqs _ x Hx) as [m' [Hm' [Ln _]]]. rewrite Hm in Hm'. injection Hm' as <-. rewrite Ln.
      unfold oid_of. rewrite Px. now apply Fo.
    + intros Z. destruct (contig_zero_mixed E f t (b_order b) Sz Ad (b_start b) (b_len b) es n0 (N.to_nat c)) as [es' [R X]]; auto; try lia.
      assert (Cf : forall q, dealt_first b reqs q = 0).
      { intros q. unfold dealt_first. fold n0. rewrite (skip_dealt_zero reqs q Z), (first_chunk_zero n0 reqs Hn Z).
        rewrite N.mod_0_l by lia. destruct (0 / n0 =? 0); lia. }
      rewrite R. f_equal.
      * rewrite (outputs_dealt (esz t) _ (fun q => samples_with f t b ws (rq_chan q)) _ _ _ Hv X).
        -- apply answers_ext. intros q _. rewrite Cf. reflexivity.
        -- intros o q x [Hq _] Hx _. exact (Col o q x Hq Hx).
      * f_equal. rewrite <- Cnt. unfold lim3. destruct (last3 t None es) as [[[o n] r]|]; [|reflexivity]. f_equal. f_equal.
        unfold first3. rewrite <- first_chunk_furthest, (first_chunk_zero n0 reqs Hn Z).
        assert (S0 : sd reqs o = 0).
        { unfold sd. destruct (nth_error reqs o) as [q|]; [now apply skip_dealt_zero|reflexivity]. }
        rewrite S0, N.mod_0_l by lia. destruct (0 / n0 =? 0); lia.
Qed.
End Block.

Lemma dealt_length f t b reqs q : (length (dealt_got f t b reqs q) <= rq_room q)%nat.
Proof. unfold dealt_got. destruct (b_layout b); rewrite firstn_length; lia. Qed.

Section Serve.
Context (E : env) (f : list byte) (t : sty) (ix : index).
Hypothesis (Sz : sized t) (Ad : addressable E f).
Local Notation bs := (ix_blocks ix).
Local Notation V := (carrier t).

(** The block of [br] can be read; the planned channels store type [t], every
    skip lies inside what the index counts for them. *)
Definition dealt_br (br : blockread) (b : dblock) : Prop :=
  nth_error bs (br_block br) = Some b
  /\ b_chans b <> [] /\ mixed_block E f t b
  /\ (forall i ci si, nth_error (br_chans br) i = Some (Some (ci, si)) ->
        exists m, nth_error (b_chans b) ci = Some m /\ supports t (rm_type m) = true /\ si < rm_n m * whole_chunks b).

Lemma dealt_to_length j b reqs ks : length (dealt_to f t j b reqs ks) = length ks.
Proof. induction ks as [|k r IH]; [reflexivity|]. cbn [dealt_to length]. now rewrite IH. Qed.
Lemma nth_dealt_to j b reqs ks : forall i k, nth_error ks i = Some k ->
  nth_error (dealt_to f t j b reqs ks) i = Some (match wants t j k with
    | Some (c, s) =>
      let q := mkReq c (N.to_nat (lenN (tk_buf t k) - tk_count t k)) s in
      mkTaker t (tk_needs t k) (tk_count t k + dealt_count t b reqs)
        (if again q (concat (map (asks t j) (skipn (S i) ks))) then tk_buf t k
         else put t (tk_buf t k) (tk_count t k) (dealt_got f t b reqs q))
    | None => k end).
Proof.
  induction ks as [|k0 r IH]; intros [|i] k H; try discriminate; cbn [nth_error dealt_to] in *.
  - injection H as ->. reflexivity.
  - exact (IH i k H).
Qed.
Lemma no_wants_dealt j ks : (forall k, In k ks -> wants t j k = None) -> dealt_serve f t bs j ks = ks.
Proof.
  intros H. unfold dealt_serve. destruct (nth_error bs j) as [b|]; [|reflexivity]. generalize (concat (map (asks t j) ks)) as rq. intros rq.
  induction ks as [|k r IH]; [reflexivity|]. cbn [dealt_to]. rewrite (H k (or_introl eq_refl)). f_equal. apply IH. intros k' Hk'. apply H. now right.
Qed.
Lemma done_dealt js : forall ks, (forall k, In k ks -> lenN (tk_buf t k) <= tk_count t k) ->
  fold_left (fun ks j => dealt_serve f t bs j ks) js ks = ks.
Proof.
  induction js as [|j js IH]; intros ks H; [reflexivity|]. cbn [fold_left]. rewrite no_wants_dealt; [now apply IH|].
  intros k Hk. unfold wants. specialize (H k Hk). now replace (lenN (tk_buf t k) <=? tk_count t k) with true by lia.
Qed.

Lemma execute_dealt m : forall j plan prs outs ks,
  (j + m = length bs)%nat ->
  length outs = length ks -> length prs = length ks ->
  StronglySorted lt (map br_block plan) ->
  Forall (fun br => (j <= br_block br)%nat /\ length (br_chans br) = length ks /\ exists b, dealt_br br b) plan ->
  (forall i pr o k, nth_error prs i = Some pr -> nth_error outs i = Some o -> nth_error ks i = Some k -> same_state t pr o k) ->
  (forall i k j', nth_error ks i = Some k -> (j <= j')%nat ->
     same_want t j' (match find (fun br => Nat.eqb (br_block br) j') plan with
                   | Some br => match nth_error (br_chans br) i with Some p => p | None => None end
                   | None => None end) k) ->
  execute E f t ix plan prs outs = (map (tk_buf t) (fold_left (fun ks j => dealt_serve f t bs j ks) (seq j m) ks), Ok tt).
Proof.
  induction m as [|m IH]; intros j plan prs outs ks Hj Lo Lp So Fa St Wa.
  - destruct plan as [|br plan].
    + cbn [execute seq fold_left]. f_equal. apply nth_ext_error. intros i. rewrite nth_error_map.
      destruct (nth_error outs i) as [o|] eqn:Oi.
      * assert (Hi : (i < length ks)%nat) by (rewrite <- Lo; apply nth_error_Some; congruence).
        destruct (nth_error ks i) as [k|] eqn:Ki; [|apply nth_error_None in Ki; lia].
        destruct (nth_error prs i) as [pr|] eqn:Pi; [|apply nth_error_None in Pi; lia].
        destruct (St i pr o k Pi Oi Ki) as [-> _]. reflexivity.
      * apply nth_error_None in Oi. rewrite (proj2 (nth_error_None ks i)) by lia. reflexivity.
    + exfalso. inversion Fa as [|y l [Le [_ [b Sb]]] _]; subst. destruct Sb as [Hb _].
      assert (br_block br < length bs)%nat by (apply nth_error_Some; congruence). lia.
  - cbn [seq fold_left].
    assert (Skip : (forall br, In br plan -> (S j <= br_block br)%nat) ->
       execute E f t ix plan prs outs = (map (tk_buf t) (fold_left (fun ks j => dealt_serve f t bs j ks) (seq (S j) m) (dealt_serve f t bs j ks)), Ok tt)).
    { intros Far.
      assert (Nw : dealt_serve f t bs j ks = ks).
      { apply no_wants_dealt. intros k Hk. apply In_nth_error in Hk. destruct Hk as [i Ki].
        assert (Hi : (i < length ks)%nat) by (apply nth_error_Some; congruence).
        specialize (Wa i k j Ki (Nat.le_refl j)).
        assert (No : find (fun br => Nat.eqb (br_block br) j) plan = None).
        { destruct (find _ plan) as [br'|] eqn:Fd; [|reflexivity]. apply find_some in Fd. destruct Fd as [Hin Eq].
          apply Nat.eqb_eq in Eq. specialize (Far _ Hin). lia. }
        rewrite No in Wa. unfold same_want in Wa. unfold wants. rewrite Wa. now destruct (lenN (tk_buf t k) <=? tk_count t k). }
      rewrite Nw. apply IH; auto; [lia| |].
      - rewrite Forall_forall in *. intros br Hbr. destruct (Fa br Hbr) as [_ X]. split; [now apply Far|exact X].
      - intros i k j' Ki Hj'. apply Wa; [exact Ki|lia]. }
    destruct plan as [|br rest]; [apply Skip; contradiction|].
    destruct (Nat.eq_dec (br_block br) j) as [Ej|Nj].
    2:{ apply Skip. intros br' [<-|Hin].
        - rewrite Forall_forall in Fa. destruct (Fa br (or_introl eq_refl)) as [X _]. lia.
        - cbn [map] in So. inversion So as [|y l _ Fl]; subst. rewrite Forall_forall in Fl, Fa.
          specialize (Fl _ (in_map br_block _ _ Hin)). destruct (Fa br (or_introl eq_refl)) as [X _]. lia. }
    clear Skip. inversion Fa as [|y l [_ [Lbr [b Sb]]] Fa']; subst y l.
    destruct Sb as [Bb [Hne [Hmb Hch]]].
    cbn [map] in So. inversion So as [|y l So' Fl]; subst y l.
    (* the requests *)
    assert (Wj : forall i p k, nth_error (br_chans br) i = Some p -> nth_error ks i = Some k -> same_want t j p k).
    { intros i p k Hp Ki. specialize (Wa i k j Ki (Nat.le_refl j)). cbn [find] in Wa.
      rewrite Ej, Nat.eqb_refl, Hp in Wa. exact Wa. }
    set (reqs := block_requests (br_chans br) prs).
    assert (Rq : reqs = concat (map (asks t j) ks)).
    { unfold reqs. apply (requests_are t j _ _ outs); try congruence.
      intros i p pr o k Hp Hpr Ho Hk. split; [eapply St; eauto|eapply Wj; eauto]. }
    assert (Hv : Forall (valid_req t (b_chans b)) reqs).
    { apply Forall_forall. intros q Hq. apply in_requests in Hq. destruct Hq as [i [ci [si [pr [Hi [_ [_ ->]]]]]]].
      destruct (Hch _ _ _ Hi) as [mm [Hm [Hsu _]]]. exists mm. auto. }
    assert (Hss : Forall (fun q => exists m, nth_error (b_chans b) (rq_chan q) = Some m /\ rq_skip q < rm_n m * whole_chunks b) reqs).
    { apply Forall_forall. intros q Hq. apply in_requests in Hq. destruct Hq as [i [ci [si [pr [Hi [_ [_ ->]]]]]]].
      destruct (Hch _ _ _ Hi) as [mm [Hm [_ Hx]]]. exists mm. auto. }
    destruct (block_dealt E f t Sz Ad b reqs Hne Hmb Hv Hss) as [Rs R0].
    set (G := fun q => dealt_got f t b reqs q) in *.
    set (cnt := dealt_count t b reqs) in *.
    cbn [execute]. unfold get_data_block. rewrite Bb.
    assert (Rd : (if any_skip (br_chans br) then block_read_skips E f t b reqs else block_read E f t b reqs)
                 = (answers t G reqs, Ok cnt)).
    { destruct (any_skip (br_chans br)) eqn:As; [exact Rs|]. apply R0.
      apply Forall_forall. intros q Hq. apply in_requests in Hq. destruct Hq as [i [ci [si [pr [Hi [_ [_ ->]]]]]]].
      cbn [rq_skip]. destruct (0 <? si) eqn:Q; [|lia]. exfalso. apply not_true_iff_false in As. apply As.
      apply existsb_exists. exists (Some (ci, si)). split; [eapply nth_error_In; eauto|exact Q]. }
    fold reqs. rewrite Rd.
    set (prs' := advance (br_chans br) cnt prs). set (outs' := store (br_chans br) prs outs (answers t G reqs)).
    set (ks' := dealt_serve f t bs j ks).
    assert (Nk : forall i k, nth_error ks i = Some k -> nth_error ks' i = Some (match wants t j k with
        | Some (ci, s) => mkTaker t (tk_needs t k) (tk_count t k + cnt)
            (if again (mkReq ci (N.to_nat (lenN (tk_buf t k) - tk_count t k)) s) (concat (map (asks t j) (skipn (S i) ks))) then tk_buf t k
             else put t (tk_buf t k) (tk_count t k) (G (mkReq ci (N.to_nat (lenN (tk_buf t k) - tk_count t k)) s)))
        | None => k end)).
    { intros i k Ki. unfold ks', dealt_serve. rewrite <- Ej, Bb, Ej, <- Rq. rewrite (nth_dealt_to j b reqs ks i k Ki). reflexivity. }
    assert (Lk' : length ks' = length ks).
    { unfold ks', dealt_serve. destruct (nth_error bs j); [apply dealt_to_length|reflexivity]. }
    assert (Lp' : length prs' = length ks') by (unfold prs'; rewrite advance_length; congruence).
    assert (Lo' : length outs' = length ks') by (unfold outs'; rewrite store_length; congruence).
    assert (St' : forall i pr' o' k', nth_error prs' i = Some pr' -> nth_error outs' i = Some o' -> nth_error ks' i = Some k' ->
       same_state t pr' o' k' /\ exists k, nth_error ks i = Some k /\ tk_needs t k' = tk_needs t k).
    { intros i pr' o' k' Hpr' Ho' Hk'.
      assert (Hi : (i < length ks)%nat) by (rewrite <- Lk'; apply nth_error_Some; congruence).
      destruct (nth_error ks i) as [k|] eqn:Ki; [|apply nth_error_None in Ki; lia].
      destruct (nth_error prs i) as [pr|] eqn:Hpr; [|apply nth_error_None in Hpr; lia].
      destruct (nth_error outs i) as [o|] eqn:Ho; [|apply nth_error_None in Ho; lia].
      destruct (nth_error (br_chans br) i) as [p|] eqn:Hp; [|apply nth_error_None in Hp; lia].
      unfold prs' in Hpr'. rewrite (nth_advance cnt _ _ _ _ _ Hp Hpr) in Hpr'. injection Hpr' as <-.
      unfold outs', reqs in Ho'. rewrite (nth_store_again G _ _ _ _ _ _ _ Hp Hpr Ho) in Ho'. apply some_eq in Ho'. subst o'.
      assert (Rl : block_requests (skipn (S i) (br_chans br)) (skipn (S i) prs) = concat (map (asks t j) (skipn (S i) ks))).
      { apply (requests_are t j _ _ (skipn (S i) outs)); rewrite ?skipn_length; try lia.
        intros i2 p2 pr2 o2 k2 A1 A2 A3 A4. rewrite nth_skip in A1; rewrite nth_skip in A2; rewrite nth_skip in A3; rewrite nth_skip in A4. split; [eapply St; eauto|eapply Wj; eauto]. }
      rewrite Rl.
      rewrite (Nk i k Ki) in Hk'. apply some_eq in Hk'. subst k'.
      pose proof (St i pr o k Hpr Ho Ki) as Ss. rewrite (wants_is t j p pr o k Ss (Wj i p k Hp Ki)).
      destruct Ss as [-> [T C]]. split.
      2:{ exists k. split; [reflexivity|]. destruct (complete pr); [reflexivity|]. destruct p as [[ci s]|]; reflexivity. }
      destruct p as [[ci s]|].
      - destruct (complete pr) eqn:K.
        + split; [reflexivity|]. split; [exact T|]. unfold complete in *. cbn [pr_read pr_target].
          replace (pr_target pr <=? pr_read pr + cnt) with true by lia. exact C.
        + cbn [tk_buf tk_count]. unfold room_of. rewrite T, C.
          destruct (again (mkReq ci (N.to_nat (lenN (tk_buf t k) - tk_count t k)) s) (concat (map (asks t j) (skipn (S i) ks)))).
          { rewrite splice_nil. split; [reflexivity|]. split; [reflexivity|].
            unfold complete. cbn [pr_target pr_read tk_buf tk_count].
            destruct (lenN (tk_buf t k) <=? tk_count t k + cnt) eqn:Q; [lia|reflexivity]. }
          assert (Lput : length (put t (tk_buf t k) (tk_count t k) (G (mkReq ci (N.to_nat (lenN (tk_buf t k) - tk_count t k)) s))) = length (tk_buf t k)).
          { apply put_length. pose proof (dealt_length f t b reqs (mkReq ci (N.to_nat (lenN (tk_buf t k) - tk_count t k)) s)) as Gl. unfold G. cbn [rq_room rq_chan] in *. unfold complete in K.
            rewrite T, C in K. unfold lenN in *. lia. }
          unfold splice. fold (put t (tk_buf t k) (tk_count t k) (G (mkReq ci (N.to_nat (lenN (tk_buf t k) - tk_count t k)) s))).
          split; [reflexivity|]. cbn [pr_target pr_read].
          assert (Lq : forall l : list V, length l = length (tk_buf t k) -> lenN l = lenN (tk_buf t k)) by (intros l X; unfold lenN; now rewrite X).
          rewrite (Lq _ Lput). split; [reflexivity|].
          unfold complete. cbn [pr_target pr_read tk_buf tk_count].
          destruct (lenN (tk_buf t k) <=? tk_count t k + cnt) eqn:Q; [lia|reflexivity].
      - assert (X : (if complete pr then None else None : option (nat * N)) = None) by (destruct (complete pr); reflexivity).
        rewrite X. split; [reflexivity|]. split; [exact T|exact C]. }
    destruct (forallb complete prs') eqn:Fc.
    + (* all complete *)
      assert (Dn : forall k', In k' ks' -> lenN (tk_buf t k') <= tk_count t k').
      { intros k' Hk'. apply In_nth_error in Hk'. destruct Hk' as [i Ki'].
        assert (Hi : (i < length ks')%nat) by (apply nth_error_Some; congruence).
        destruct (nth_error prs' i) as [pr'|] eqn:Hpr'; [|apply nth_error_None in Hpr'; lia].
        destruct (nth_error outs' i) as [o'|] eqn:Ho'; [|apply nth_error_None in Ho'; lia].
        destruct (St' i pr' o' k' Hpr' Ho' Ki') as [[-> [T C]] _].
        rewrite forallb_forall in Fc. rewrite (Fc pr' (nth_error_In _ _ Hpr')) in C. exact C. }
      rewrite (done_dealt _ ks' Dn). f_equal. apply nth_ext_error. intros i. rewrite nth_error_map.
      destruct (nth_error ks' i) as [k'|] eqn:Ki'.
      * assert (Hi : (i < length ks')%nat) by (apply nth_error_Some; congruence).
        destruct (nth_error prs' i) as [pr'|] eqn:Hpr'; [|apply nth_error_None in Hpr'; lia].
        destruct (nth_error outs' i) as [o'|] eqn:Ho'; [|apply nth_error_None in Ho'; lia].
        destruct (St' i pr' o' k' Hpr' Ho' Ki') as [[-> _] _]. reflexivity.
      * apply nth_error_None in Ki'. rewrite (proj2 (nth_error_None outs' i)) by lia. reflexivity.
    + apply (IH (S j) rest prs' outs' ks'); auto; [lia| | |].
      * apply Forall_forall. intros br' Hbr'. rewrite Forall_forall in Fa', Fl.
        destruct (Fa' br' Hbr') as [_ [X Y]]. specialize (Fl _ (in_map br_block _ _ Hbr')).
        split; [lia|]. split; [congruence|exact Y].
      * intros i pr' o' k' A B C. exact (proj1 (St' i pr' o' k' A B C)).
      * intros i k' j' Ki' Hj'.
        assert (Hi : (i < length ks')%nat) by (apply nth_error_Some; congruence).
        destruct (nth_error prs' i) as [pr'|] eqn:Hpr'; [|apply nth_error_None in Hpr'; lia].
        destruct (nth_error outs' i) as [o'|] eqn:Ho'; [|apply nth_error_None in Ho'; lia].
        destruct (St' i pr' o' k' Hpr' Ho' Ki') as [_ [k [Ki Nn]]]. specialize (Wa i k j' Ki ltac:(lia)).
        cbn [find] in Wa. replace (Nat.eqb (br_block br) j') with false in Wa by (symmetry; apply Nat.eqb_neq; lia).
        unfold same_want in *. rewrite Nn. exact Wa.
Qed.
End Serve.

Section Session.
Context (E : env) (H : list segment) (F : tfile) (t : sty).
Hypothesis (Se : session E H F) (Sz : sized t) (Ad : addressable E (tf_bytes F)).
Local Notation V := (carrier t).

Lemma plan_dealt chans start plan : Forall (mentioned (all_objs H)) chans ->
  Forall (mixed_stored E (tf_bytes F) t H) chans ->
  Forall (fun br => length (br_chans br) = length chans /\ exists c s, In (Some (c, s)) (br_chans br)) plan ->
  (forall i p, nth_error chans i = Some p -> planned i plan = needed (locs_after H p) start) ->
  Forall (fun br => length (br_chans br) = length chans /\ exists b, dealt_br E (tf_bytes F) t (tf_ix F) br b) plan.
Proof.
  intros M Hst Sh Hn. destruct (C14_incremental E H F Se) as [_ [_ [_ [Hb [Gp _]]]]].
  pose proof (C18_sessions E H F (session_any _ _ _ Se)) as Va.
  apply Forall_forall. intros br Hbr. rewrite Forall_forall in Sh.
  destruct (Sh br Hbr) as [Ln [c0 [s0 Hc0]]]. split; [exact Ln|].
  assert (Ent : forall i ci si, nth_error (br_chans br) i = Some (Some (ci, si)) ->
     exists p l b m, nth_error chans i = Some p /\ In l (locs_after H p) /\ l_block l = br_block br /\ l_chan l = ci
       /\ si < l_n l /\ nth_error (blocks_after H) (br_block br) = Some b /\ mixed_block E (tf_bytes F) t b
       /\ nth_error (b_chans b) ci = Some m /\ supports t (rm_type m) = true /\ l_n l = rm_n m * whole_chunks b).
  { intros i ci si Hi. assert (Hl : (i < length chans)%nat) by (rewrite <- Ln; apply nth_error_Some; congruence).
    destruct (nth_error chans i) as [p|] eqn:Hp; [|apply nth_error_None in Hp; lia].
    pose proof (planned_in i plan br ci si Hbr Hi) as Pl. rewrite (Hn i p Hp) in Pl.
    apply needed_in in Pl. destruct Pl as [l [Hin [Lb [Lc Lt]]]].
    rewrite Forall_forall in Hst. specialize (Hst p (nth_error_In _ _ Hp)). unfold mixed_stored in Hst.
    rewrite Forall_forall in Hst. destruct (Hst l Hin ltac:(lia)) as [b [m [Hb1 [Hm [Ht Hw]]]]].
    pose proof (locs_located H p) as Lo. rewrite Forall_forall in Lo. destruct (Lo l Hin) as [b' [m' [Hb2 [Hm2 Hl2]]]].
    rewrite Hb1 in Hb2. injection Hb2 as <-. rewrite Hm in Hm2. injection Hm2 as <-.
    exists p, l, b, m. rewrite <- Lb, <- Lc.
    repeat (split; [first [assumption|reflexivity]|]).
    split; [now apply stored_as_supports|exact Hl2]. }
  apply In_nth_error in Hc0. destruct Hc0 as [i0 Hi0].
  destruct (Ent _ _ _ Hi0) as [p0 [l0 [b [m0 [Hp0 [Hl0 [Lb0 [Lc0 [Lt0 [Hb0 [Hw0 [Hm0 [Hs0 Ln0]]]]]]]]]]]]].
  exists b. unfold dealt_br. rewrite Hb. split; [assumption|].
  split; [intros K; rewrite K in Hm0; destruct c0; discriminate|]. split; [assumption|].
  intros i ci si Hi.
    destruct (Ent _ _ _ Hi) as [p [l [b' [m [_ [_ [_ [_ [Lt [Hb' [_ [Hm [Hsu Lm]]]]]]]]]]]]].
    rewrite Hb0 in Hb'. injection Hb' as <-. exists m. split; [exact Hm|]. split; [exact Hsu|]. lia.
Qed.

Lemma read_dealt chans start outs :
  Forall (mentioned (all_objs H)) chans -> Forall (mixed_stored E (tf_bytes F) t H) chans ->
  length outs = length chans ->
  read_channels_from E F t chans start outs
  = (map (tk_buf t) (dealt_served (tf_bytes F) t (blocks_after H) (takers H t chans start outs)), Ok tt).
Proof.
  intros M St Lo. destruct (C14_incremental E H F Se) as [_ [_ [_ [Hb _]]]].
  unfold read_channels_from, ix_read_channels_from. rewrite (lookup_ok E H F Se) by exact M. cbn [bind].
  destruct (plan_ok E H F Se chans start M) as [plan [Hp [Ps [Sh Hn]]]]. rewrite Hp. unfold execute_read_plan, dealt_served. rewrite <- Hb.
  pose proof (plan_dealt chans start plan M St Sh Hn) as Sk.
  assert (Lt : length (takers H t chans start outs) = length chans).
  { unfold takers. rewrite map_length, combine_length. lia. }
  assert (Nt : forall i k, nth_error (takers H t chans start outs) i = Some k ->
     exists p o, nth_error chans i = Some p /\ nth_error outs i = Some o /\ k = mkTaker t (needed (locs_after H p) start) 0 o).
  { intros i k Ki. assert (Hi : (i < length chans)%nat) by (rewrite <- Lt; apply nth_error_Some; congruence).
    destruct (nth_error chans i) as [p|] eqn:Pi; [|apply nth_error_None in Pi; lia].
    destruct (nth_error outs i) as [o|] eqn:Oi; [|apply nth_error_None in Oi; lia].
    exists p, o. do 2 (split; [reflexivity|]). unfold takers in Ki. rewrite nth_error_map, (combine_nth _ _ _ _ _ Pi Oi) in Ki.
    cbn [option_map fst snd] in Ki. congruence. }
  apply (execute_dealt E (tf_bytes F) t (tf_ix F) Sz Ad (length (ix_blocks (tf_ix F))) 0 plan); auto; try congruence.
  - rewrite map_length. congruence.
  - eapply Forall_impl; [|exact Sk]. cbv beta. intros br [L X]. split; [lia|]. split; [congruence|exact X].
  - intros i pr o k Hpr Ho Hk. destruct (Nt i k Hk) as [p [o' [_ [Oi ->]]]]. rewrite Ho in Oi. injection Oi as <-.
    rewrite nth_error_map, Ho in Hpr. injection Hpr as <-. split; [reflexivity|]. split; [reflexivity|].
    unfold complete. cbn [pr_read pr_target tk_count]. destruct (lenN o <=? 0) eqn:Q; [lia|reflexivity].
  - intros i k j Ki _. destruct (Nt i k Ki) as [p [o [Pi [_ ->]]]]. unfold same_want. cbn [tk_needs].
    rewrite <- (Hn i p Pi), (find_planned i j plan Ps).
    destruct (find _ plan) as [br|]; [|reflexivity]. destruct (nth_error (br_chans br) i) as [[[c s]|]|]; reflexivity.
Qed.
End Session.
