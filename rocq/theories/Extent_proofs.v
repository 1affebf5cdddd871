(** * Reads of one channel from blocks whose data are not whole chunks *)
From Verif Require Import Base Lib DataTypes MetaData DataBlock Index RawData ChannelReader
  SpecIndex SpecRead SpecUneven SpecExtent Block_proofs Request_proofs Plan_proofs Read_proofs Uneven_proofs.

Section Block.
Context (E : env) (f : list byte) (t : sty).
Hypothesis (Fx : fixed t) (Ad : addressable E f).
Local Notation V := (carrier t).
Local Notation sz := (size_bytes t).

(** [inter_read] takes the whole rows only. *)
Lemma inter_whole_rows e start blen es : 0 < rowtotal t es ->
  (exists rs, row_size E t es = Ok rs /\ rs = rowtotal t es) ->
  inter_read E f t e start blen es = inter_read E f t e start (blen / rowtotal t es * rowtotal t es) es.
Proof.
  intros P [rs [R ->]]. unfold inter_read. destruct (seek_to E start); cbn [bind]; [|reflexivity..]. rewrite R. cbn [bind].
  unfold udiv. replace (rowtotal t es =? 0) with false by lia. rewrite N.div_mul by lia. reflexivity.
Qed.

Lemma ragged_inter b reqs s : b_layout b = Interleaved -> b_chans b <> [] ->
  Forall (fun m => 0 < width (rm_type m)) (b_chans b) -> 0 < rows b -> s <= rows b ->
  b_start b + rows b * row_bytes (b_chans b) <= lenN f ->
  Forall (valid_req t (b_chans b)) reqs -> NoDup (map rq_chan reqs) -> Forall (fun q => rq_skip q = s) reqs ->
  let outs := map (fun q => firstn (rq_room q) (skipn (N.to_nat s) (block_samples f t b (rq_chan q) (rows b)))) reqs in
  exists k, counted Interleaved reqs (rows b - s) k
    /\ (s = 0 -> block_read E f t b reqs = (outs, Ok k))
    /\ block_read_skips E f t b reqs = (outs, Ok k).
Proof.
  intros Lay Hne Hw Rp Hs He Hv ND Hq outs.
  set (es := entries t (b_chans b) reqs).
  assert (F2 : Forall2 (rel t) es (b_chans b)) by (apply set_readable_rel; [exact Fx|now apply base_rel|exact Hv]).
  pose proof (rel_good t _ _ F2) as G.
  assert (Hes : es <> []).
  { intros K. rewrite K in F2. inversion F2. congruence. }
  pose proof (nreads_entries t (b_chans b) reqs ND Hv) as Nr. fold es in Nr.
  assert (Bp : build_record_plan t (b_chans b) reqs = Ok es).
  { unfold build_record_plan. rewrite validate_ok by exact Hv. reflexivity. }
  assert (Sk : map rq_skip reqs = repeat s (nreads t es)).
  { rewrite Nr. clear -Hq. induction Hq as [|q reqs Hq Q IH]; cbn [map length repeat]; [reflexivity|]. now rewrite Hq, IH. }
  assert (Cs0 : common_skip t 0 es).
  { intros x Hx o g r s' P. apply In_nth_error in Hx. destruct Hx as [j Hj].
    destruct (entries_at t (b_chans b) reqs j x ND Hj) as [m [_ [_ [[o' [q [_ [_ P']]]]|[b' P']]]]]; congruence. }
  assert (Rt : rowtotal t es = row_bytes (b_chans b)) by (eapply rel_row; exact F2).
  pose proof (rowtotal_pos t es Hes G) as Rpos.
  unfold block_read, block_read_skips. rewrite Bp, Lay.
  exists (N.min (N.of_nat (max_room t es)) (rows b - s)). split; [now apply counted_inter|].
  assert (Main : exists es', inter_read E f t (b_order b) (b_start b) (b_len b) (set_all_skips s es)
      = (es', Ok (N.min (N.of_nat (max_room t es)) (rows b - s))) /\ outputs reqs es' = outs).
  { pose proof (exts_skip t (wd t) s es 0) as X1.
    assert (G1 : Forall (good_entry t) (set_all_skips s es))
      by (eapply exts_forall; [|exact X1|exact G]; intros vs x x' A; apply ext_wd in A; tauto).
    assert (R1 : rowtotal t (set_all_skips s es) = rowtotal t es) by (eapply exts_rowtotal; exact X1).
    assert (Nn : set_all_skips s es <> []) by (unfold set_all_skips; intros K; apply map_eq_nil in K; contradiction).
    destruct Ad as [A1 A2].
    assert (Rw : row_bytes (b_chans b) <= rows b * row_bytes (b_chans b)) by nia.
    rewrite inter_whole_rows.
    2: rewrite R1; exact Rpos.
    2: { exists (rowtotal t (set_all_skips s es)). split; [|reflexivity]. apply row_size_ok; auto. rewrite R1, Rt. lia. }
    rewrite R1, Rt. fold (rows b).
    destruct (inter_read_ok E f t (b_order b) Fx Ad (b_start b) (rows b * row_bytes (b_chans b)) (set_all_skips s es) s (N.to_nat (rows b)))
      as [es' [R X]]; auto; try lia.
    { intros x Hx. apply (set_all_entry t s es x Hx). }
    exists es'. rewrite R, max_room_skip, N2Nat.id. split; [reflexivity|].
    assert (X' : exts t (wd t) (fun o _ => [] ++ skipn (N.to_nat s) (icol f t (b_order b) (b_start b) (rowtotal t es) (N.to_nat (rows b)) o)) 0 es es').
    { rewrite R1 in X. eapply exts_app; [apply wd_stable| |exact X1|exact X]. intros vs x x' o A. reflexivity. }
    cbn [app] in X'.
    rewrite (exts_outputs t (wd t) (fun o => skipn (N.to_nat s) (icol f t (b_order b) (b_start b) (rowtotal t es) (N.to_nat (rows b)) o))
               (b_chans b) reqs es' ND Hv X').
    unfold outs. apply map_ext_in. intros q Iq. do 2 f_equal.
    change (fold_right (fun y a => wd t y + a) 0 (firstn (rq_chan q) (entries t (b_chans b) reqs)))
      with (rowtotal t (firstn (rq_chan q) es)).
    rewrite (rel_row t _ _ (rel_firstn t _ _ F2 (rq_chan q))), Rt.
    unfold icol, block_samples. apply map_ext. intros k. unfold sample, sample_addr, at_. rewrite Lay.
    rewrite Forall_forall in Hv. destruct (Hv q Iq) as [m [Hm Hsu]]. rewrite Hm. destruct (width_sty t (rm_type m) Fx Hsu) as [Wm _]. now rewrite Wm. }
  destruct Main as [es' [R O]]. split.
  - intros ->. assert (Id : set_all_skips 0 es = es).
    { unfold set_all_skips. rewrite <- (map_id es) at 2. apply map_ext_in. intros x Hx. unfold set_skip.
      destruct (en_plan x) as [b'|o g r s'] eqn:P; [reflexivity|]. rewrite (Cs0 x Hx _ _ _ _ P) in P.
      destruct x as [l p]. cbn [en_len en_plan] in *. congruence. }
    rewrite Id in R. now rewrite R, O.
  - rewrite Sk, zip_repeat. now rewrite R, O.
Qed.

(** What one request for channel [ci] receives. *)
Definition taken (b : dblock) (ci : nat) (s : N) : list V :=
  skipn (N.to_nat (passed_over b ci s)) (block_samples f t b ci (extent b ci)).

Lemma ragged_single b ci room s m : ragged_block f b m ->
  nth_error (b_chans b) ci = Some m -> supports t (rm_type m) = true -> s < rm_n m * whole_chunks b ->
  let q := mkReq ci room s in
  let r := ([firstn room (taken b ci s)], Ok (N.min (N.of_nat room) (lenN (taken b ci s)))) in
  (s = 0 -> block_read E f t b [q] = r) /\ block_read_skips E f t b [q] = r.
Proof.
  intros Rb Hm Su Hs q r. unfold ragged_block in Rb. destruct (b_layout b) eqn:Lay.
  - destruct Rb as [Hw [Hr He]].
    assert (Hne : b_chans b <> []) by (intros K; rewrite K in Hm; now destruct ci).
    assert (Hv : Forall (valid_req t (b_chans b)) [q]) by (constructor; [exists m; auto|constructor]).
    assert (ND : NoDup (map rq_chan [q])) by (cbn [map]; constructor; [intros []|constructor]).
    destruct (ragged_inter b [q] s Lay Hne Hw ltac:(lia) ltac:(lia) He Hv ND ltac:(now constructor)) as [k [Ck [R0 Rs]]].
    assert (Tk : taken b ci s = skipn (N.to_nat s) (block_samples f t b (rq_chan q) (rows b))).
    { unfold taken, passed_over, extent. rewrite Lay, Hm. reflexivity. }
    assert (Kk : k = N.min (N.of_nat room) (lenN (taken b ci s))).
    { rewrite Tk. destruct Ck as [_ Ck]. specialize (Ck ltac:(discriminate)).
      destruct Ck as [q' [[<-|[]] [_ ->]]]. cbn [rq_room q]. f_equal. unfold lenN. rewrite skipn_length, block_samples_length. lia. }
    unfold r. rewrite Tk in *. rewrite <- Kk. split; [exact R0|exact Rs].
  - destruct (loose_single E f t Fx Ad b ci room s m Rb Hm Su ltac:(lia)) as [R0 Rs].
    assert (Tk : taken b ci s = offered f t b s q).
    { unfold taken, offered, extent, q. cbn [rq_chan]. rewrite Lay, Hm. reflexivity. }
    unfold r. rewrite Tk. split; [exact R0|exact Rs].
Qed.
Lemma ragged_none b m ci s : ragged_block f b m -> nth_error (b_chans b) ci = Some m -> s < rm_n m * whole_chunks b ->
  block_read E f t b [] = ([], Ok 0) /\ block_read_skips E f t b [] = ([], Ok 0).
Proof.
  intros Rb Hm Hs. unfold ragged_block in Rb. destruct (b_layout b) eqn:Lay; [|now apply loose_none].
  destruct Rb as [Hw [Hr He]].
  assert (Hne : b_chans b <> []) by (intros K; rewrite K in Hm; now destruct ci).
  destruct (ragged_inter b [] 0 Lay Hne Hw ltac:(lia) ltac:(lia) He ltac:(constructor) ltac:(constructor) ltac:(constructor)) as [k [[Ck _] [R0 Rs]]].
  rewrite (Ck eq_refl) in *. split; [now apply R0|exact Rs].
Qed.
End Block.

Section Single.
Context (E : env) (f : list byte) (t : sty) (ix : index).
Hypothesis (Fx : fixed t) (Ad : addressable E f).
Local Notation V := (carrier t).
Local Notation bs := (ix_blocks ix).

Definition tsamp (x : nat * nat * N) : list V :=
  let '(j, i, s) := x in match nth_error bs j with Some b => taken f t b i s | None => [] end.
Definition ragged_plan (plan : list blockread) : Prop :=
  Forall (fun br => exists b ci s m, br_chans br = [Some (ci, s)] /\ nth_error bs (br_block br) = Some b
     /\ ragged_block f b m /\ nth_error (b_chans b) ci = Some m /\ supports t (rm_type m) = true
     /\ s < rm_n m * whole_chunks b) plan.

Lemma execute_ragged (o0 D : list V) : forall plan r, ragged_plan plan ->
  (r <= length o0)%nat -> (r <= length D)%nat ->
  skipn r D = concat (map tsamp (planned 0 plan)) ->
  execute E f t ix plan [mkPr (N.of_nat r) (lenN o0)] [overlay o0 (firstn r D)]
  = ([overlay o0 (firstn (length o0) D)], Ok tt).
Proof.
  induction plan as [|br plan IH]; intros r Lp Ho Hd Hs.
  - cbn [execute]. do 2 f_equal. f_equal. cbn [planned flat_map map concat] in Hs.
    apply (f_equal (@length _)) in Hs. rewrite skipn_length in Hs. cbn [length] in Hs.
    rewrite !firstn_all2 by lia. reflexivity.
  - inversion Lp as [|y l [b [ci [s [m [Ec [Hb [Lb [Hm [Su Hle]]]]]]]]] Lp']; subst y l.
    unfold planned in Hs. cbn [flat_map] in Hs. fold (planned 0 plan) in Hs. rewrite Ec in Hs.
    cbn [nth_error app map concat] in Hs. unfold tsamp at 1 in Hs. rewrite Hb in Hs.
    cbn [execute]. unfold get_data_block. rewrite Hb, Ec. cbn [block_requests any_skip existsb store advance].
    unfold complete. cbn [pr_read pr_target].
    destruct (lenN o0 <=? N.of_nat r) eqn:C.
    + assert (r = length o0) by (unfold lenN in C; lia). subst r.
      destruct (ragged_none E f t Fx Ad b m ci s Lb Hm Hle) as [R1 R2].
      rewrite R1, R2. replace (if (0 <? s) || false then ([] : list (list V), Ok 0) else ([], Ok 0)) with ([] : list (list V), Ok 0)
        by now destruct ((0 <? s) || false).
      cbn [store advance]. unfold complete. cbn [pr_read pr_target]. rewrite ?C.
      cbn [forallb pr_read pr_target]. rewrite N.add_0_r, ?C. reflexivity.
    + set (room := N.to_nat (lenN o0 - N.of_nat r)).
      destruct (ragged_single E f t Fx Ad b ci room s m Lb Hm Su Hle) as [R1 R2].
      set (off := taken f t b ci s) in *.
      set (k := N.min (N.of_nat room) (lenN off)) in *.
      assert (Rd : (if (0 <? s) || false then block_read_skips E f t b [mkReq ci room s] else block_read E f t b [mkReq ci room s])
                   = ([firstn room off], Ok k)).
      { destruct (0 <? s) eqn:Q; cbn [orb]; [exact R2|]. apply R1. lia. }
      rewrite Rd. cbn [store advance]. unfold complete. cbn [pr_read pr_target]. rewrite ?C.
      cbn [forallb]. unfold complete. cbn [pr_read pr_target]. rewrite andb_true_r.
      assert (LD : length D = (r + (length off + length (concat (map tsamp (planned 0 plan)))))%nat).
      { apply (f_equal (@length _)) in Hs. rewrite skipn_length, app_length in Hs. lia. }
      assert (Go : firstn room off = firstn (Nat.min room (length off)) (skipn r D)).
      { rewrite Hs, firstn_app. replace (Nat.min room (length off) - length off)%nat with 0%nat by lia.
        cbn [firstn]. rewrite app_nil_r. destruct (Nat.le_gt_cases room (length off)).
        - f_equal. lia.
        - rewrite !firstn_all2 by lia. reflexivity. }
      assert (Rm : room = (length o0 - r)%nat) by (unfold room, lenN; lia).
      assert (Ek : N.to_nat k = Nat.min room (length off)) by (unfold k, lenN; lia).
      rewrite Go, overlay_splice by lia.
      destruct (lenN o0 <=? N.of_nat r + k) eqn:Q.
      * unfold lenN in Q. do 2 f_equal. f_equal. f_equal. lia.
      * replace (N.of_nat r + k) with (N.of_nat (r + Nat.min room (length off))) by lia.
        unfold lenN in Q. apply IH; auto; try lia.
        rewrite <- skipn_skipn, Hs. replace (Nat.min room (length off)) with (length off) by lia.
        apply skipn_app_exact.
Qed.
End Single.
