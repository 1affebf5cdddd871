(** * Channels with different buffers read from interleaved blocks of a file that has lost its end *)
From Coq Require Import Sorting.Sorted.
From Verif Require Import Base Lib DataTypes MetaData DataBlock Index RawData ChannelReader
  SpecIndex SpecCutFile Parse_proofs Cut_proofs Block_proofs CutFile_proofs Request_proofs SpecRead SpecArrive Plan_proofs Read_proofs MultiCut_proofs
  Short_proofs ShortStep_proofs Arrive_proofs ArriveRun_proofs.

Section Rows.
Context (E : env) (f x : list byte) (t : sty) (ix : index) (nch : nat).
Hypothesis (Fx : fixed t) (Ad : addressable E (f ++ x)).
Local Notation V := (carrier t).
Local Notation W := (f ++ x).
Local Notation bs := (ix_blocks ix).
Local Notation here := (fun a => present f t a = true).
Local Notation top prs := (list_max (map room_of prs)).

Lemma exec_rows : forall plan prs outs, readable_plan W t ix nch plan -> length prs = nch ->
  Forall (fun br => Forall (fun p => p <> None) (br_chans br)) plan ->
  Forall (fun br => forall b, nth_error bs (br_block br) = Some b -> b_layout b = Interleaved) plan ->
  (snd (execute E f t ix plan prs outs) = Ok tt
   <-> forall i pr, nth_error prs i = Some pr -> Forall here (rows_looked_at bs (planned i plan) (room_of pr) (top prs))).
Proof.
  induction plan as [|br rest IH]; intros prs outs R Lp A Il.
  - cbn [execute snd planned flat_map rows_looked_at]. split; [intros _ i pr _; constructor|reflexivity].
  - inversion R as [|y l [Ln [b [n [c [s Rb]]]]] R']; subst y l. inversion A as [|y l A1 A']; subst y l. inversion Il as [|y l I1 Il']; subst y l.
    destruct Rb as [Bb [Hn [Hc [Hne [Hu [Hbl [Hin [Hs [Hch [Hsk Hd]]]]]]]]]]. pose proof (I1 b Bb) as Lay. clear I1.
    set (reqs := block_requests (br_chans br) prs) in *.
    assert (Hv : Forall (valid_req t (b_chans b)) reqs).
    { apply Forall_forall. intros q Hq. apply in_requests in Hq. destruct Hq as [i [ci [si [pr' [Hi [_ [_ ->]]]]]]].
      destruct (Hch _ _ _ Hi) as [_ [m Hm]]. exists m. exact Hm. }
    assert (Hss : Forall (fun q => rq_skip q = s) reqs).
    { apply Forall_forall. intros q Hq. apply in_requests in Hq. destruct Hq as [i [ci [si [pr' [Hi [_ [_ ->]]]]]]].
      destruct (Hch _ _ _ Hi) as [Hx _]. exact Hx. }
    pose proof (distinct_nodup _ prs Hd) as ND. fold reqs in ND.
    assert (Each : forall i pr, nth_error prs i = Some pr -> exists ci, nth_error (br_chans br) i = Some (Some (ci, s))
              /\ (complete pr = false -> In (mkReq ci (room_of pr) s) reqs)
              /\ planned i (br :: rest) = (br_block br, ci, s) :: planned i rest
              /\ rest_places bs (br_block br, ci, s) = skipn (N.to_nat s) (places_in b ci (c * n))).
    { intros i pr Hi. assert (Li : (i < length (br_chans br))%nat) by (rewrite Ln, <- Lp; apply nth_error_Some; congruence).
      destruct (nth_error (br_chans br) i) as [p|] eqn:Hp; [|apply nth_error_None in Hp; lia].
      rewrite Forall_forall in A1. pose proof (A1 p (nth_error_In _ _ Hp)) as Np. destruct p as [[ci si]|]; [|congruence].
      destruct (Hch _ _ _ Hp) as [-> [m [Hm Sm]]]. exists ci. split; [reflexivity|]. split; [|split].
      - intros C. exact (requests_in (br_chans br) prs i ci s pr Hp Hi C).
      - unfold planned. cbn [flat_map]. now rewrite Hp.
      - unfold rest_places. rewrite Bb, Hm. unfold places_in. f_equal. do 3 f_equal.
        rewrite (whole_chunks_of b c); [|eapply Forall_impl; [|exact Hu]; cbv beta; tauto|apply (sub_bytes_pos n); assumption|exact Hbl].
        rewrite Forall_forall in Hu. rewrite (proj1 (Hu m (nth_error_In _ _ Hm))). lia. }
    assert (Top : list_max (map rq_room reqs) = top prs).
    { apply Nat.le_antisymm; apply list_max_le; apply Forall_forall; intros r Hr; apply in_map_iff in Hr.
      - destruct Hr as [q [<- Hq]]. apply in_requests in Hq. destruct Hq as [i [ci [si [pr [_ [Hp [_ ->]]]]]]]. cbn [rq_room].
        apply list_max_ge. apply (in_map room_of). eapply nth_error_In; eauto.
      - destruct Hr as [pr [<- Hpr]]. apply In_nth_error in Hpr. destruct Hpr as [i Hi].
        destruct (complete pr) eqn:C; [unfold complete in C; unfold room_of; lia|].
        destruct (Each i pr Hi) as [ci [_ [Hq _]]]. specialize (Hq C).
        exact (list_max_ge _ _ (in_map rq_room _ _ Hq)). }
    destruct (block_ok E W t b reqs s n c Fx Ad Hn Hc Hne Hu Hbl Hin Hv ND Hs) as [k [Ck [_ [R0 Rs]]]].
    set (G := fun q => firstn (rq_room q) (skipn (N.to_nat s) (block_samples W t b (rq_chan q) (c * n)))) in *.
    assert (RW : any_read E t W b reqs (any_skip (br_chans br)) = (map G reqs, Ok k)).
    { unfold any_read. destruct (any_skip (br_chans br)) eqn:As; [apply Rs; exact Hss|apply R0; now apply Hsk]. }
    destruct (block_cut E f x t Fx Ad b reqs s n c (any_skip (br_chans br)) Hn Hc Hne Hu Hbl Hin Hv ND Hs Hsk Hss) as [r [Rf [Kr Br]]].
    rewrite Lay, Top in Br.
    assert (Kk : reqs <> [] -> k = N.min (N.of_nat (top prs)) (c * n - s)).
    { intros Ne. destruct Ck as [_ Ck]. specialize (Ck Ne). rewrite Lay in Ck. destruct Ck as [q' [Hq' [Hm ->]]]. f_equal. f_equal.
      rewrite <- Top. apply Nat.le_antisymm; [exact (list_max_ge _ _ (in_map rq_room _ _ Hq'))|].
      apply list_max_le, Forall_forall. intros r' Hr. apply in_map_iff in Hr. destruct Hr as [q2 [<- Hq2]]. exact (Hm q2 Hq2). }
    assert (Lpl : forall ci, length (skipn (N.to_nat s) (places_in b ci (c * n))) = N.to_nat (c * n - s)).
    { intros ci. rewrite skipn_length. unfold places_in. rewrite map_length, seq_length. lia. }
    assert (Adv : forall i pr, nth_error prs i = Some pr ->
              nth_error (advance (br_chans br) k prs) i = Some (mkPr (pr_read pr + k) (pr_target pr))).
    { intros i pr Hi. destruct (Each i pr Hi) as [ci [Hc' _]]. now rewrite (nth_advance k _ _ _ _ _ Hc' Hi). }
    assert (La : length (advance (br_chans br) k prs) = nch) by (rewrite advance_length; exact Lp).
    (* the places of this block and those of the rest *)
    assert (Two : (forall i pr, nth_error prs i = Some pr -> Forall here (rows_looked_at bs (planned i (br :: rest)) (room_of pr) (top prs)))
        <-> (forall q, In q reqs -> Forall here (firstn (S (top prs)) (skipn (N.to_nat s) (places_in b (rq_chan q) (c * n)))))
            /\ (forall i pr, nth_error prs i = Some pr -> complete pr = false ->
                  Forall here (rows_looked_at bs (planned i rest) (room_of pr - N.to_nat (c * n - s)) (top prs - N.to_nat (c * n - s))))).
    { split.
      - intros X. split.
        + intros q Hq. apply in_requests in Hq. destruct Hq as [i [ci [si [pr [Hi [Hp [C ->]]]]]]]. cbn [rq_chan].
          specialize (X i pr Hp). destruct (Each i pr Hp) as [ci' [Hi' [_ [Pl Rp]]]]. rewrite Hi' in Hi. injection Hi as <- <-.
          rewrite Pl in X. cbn [rows_looked_at] in X. rewrite Rp in X.
          destruct (Nat.eqb (room_of pr) 0) eqn:Z; [unfold complete in C; unfold room_of in Z; lia|]. apply Forall_app in X. exact (proj1 X).
        + intros i pr Hp C. specialize (X i pr Hp). destruct (Each i pr Hp) as [ci' [Hi' [_ [Pl Rp]]]].
          rewrite Pl in X. cbn [rows_looked_at] in X. rewrite Rp, Lpl in X.
          destruct (Nat.eqb (room_of pr) 0) eqn:Z; [unfold complete in C; unfold room_of in Z; lia|]. apply Forall_app in X. exact (proj2 X).
      - intros [X Y] i pr Hp. destruct (Each i pr Hp) as [ci' [Hi' [Hq [Pl Rp]]]].
        rewrite Pl. cbn [rows_looked_at]. rewrite Rp, Lpl. destruct (Nat.eqb (room_of pr) 0) eqn:Z; [constructor|].
        assert (C : complete pr = false) by (unfold complete; unfold room_of in Z; lia).
        apply Forall_app. split; [exact (X _ (Hq C))|exact (Y i pr Hp C)]. }
    rewrite Two, <- Br. clear Two Br.
    cbn [execute]. unfold get_data_block. rewrite Bb. cbv zeta. fold reqs. rewrite any_read_is, Rf.
    destruct Kr as [[l ->]|[-> Kr]].
    + assert (Eq : l = k).
      { destruct (block_short E t f x b reqs (any_skip (br_chans br))) as [Q|[Q _]].
        - rewrite Rf, RW in Q. now injection Q.
        - rewrite Rf in Q. discriminate Q. }
      subst l.
      assert (Room' : forall i pr, nth_error prs i = Some pr -> complete pr = false -> reqs <> []).
      { intros i pr Hp C Z. destruct (Each i pr Hp) as [ci [_ [Hq _]]]. specialize (Hq C). rewrite Z in Hq. contradiction. }
      assert (Rows0 : forall nd m, rows_looked_at bs nd 0 m = []) by (intros [|q nd] m; reflexivity).
      destruct (forallb complete (advance (br_chans br) k prs)) eqn:C.
      * cbn [snd]. split; [|reflexivity]. intros _. split; [exact Logic.I|]. intros i pr Hp Cp.
        rewrite forallb_forall in C. specialize (C _ (nth_error_In _ _ (Adv i pr Hp))). unfold complete in C. cbn [pr_read pr_target] in C.
        rewrite (Kk (Room' i pr Hp Cp)) in C. replace (room_of pr - N.to_nat (c * n - s))%nat with 0%nat by (unfold room_of; lia).
        rewrite Rows0. constructor.
      * rewrite (IH _ _ R' La A' Il').
        (* somebody is not done, so the block was read to its end *)
        assert (Some_open : exists i pr, nth_error prs i = Some pr /\ (N.to_nat k < room_of pr)%nat).
        { apply Bool.not_true_iff_false in C. assert (X : exists pr', In pr' (advance (br_chans br) k prs) /\ complete pr' = false).
          { clear - C. induction (advance (br_chans br) k prs) as [|p l IHl]; [now contradiction C|]. cbn [forallb] in C.
            destruct (complete p) eqn:Cp; [|exists p; split; [now left|exact Cp]].
            destruct IHl as [p' [Hp' Cp']]; [exact C|]. exists p'. split; [now right|exact Cp']. }
          destruct X as [pr' [Hpr' Cp']]. apply In_nth_error in Hpr'. destruct Hpr' as [i Hi].
          assert (Li : (i < length prs)%nat) by (rewrite Lp, <- La; apply nth_error_Some; congruence).
          destruct (nth_error prs i) as [pr|] eqn:Hp; [|apply nth_error_None in Hp; lia].
          rewrite (Adv i pr Hp) in Hi. injection Hi as <-. exists i, pr. split; [exact Hp|].
          unfold complete in Cp'. cbn [pr_read pr_target] in Cp'. unfold room_of. lia. }
        destruct Some_open as [i0 [pr0 [Hp0 K0]]].
        assert (Ka : k = c * n - s).
        { assert (C0 : complete pr0 = false) by (unfold complete; unfold room_of in K0; lia).
          pose proof (Kk (Room' i0 pr0 Hp0 C0)) as Q.
          pose proof (list_max_ge _ _ (in_map room_of _ _ (nth_error_In _ _ Hp0))) as Q2. lia. }
        assert (TopA : top (advance (br_chans br) k prs) = (top prs - N.to_nat (c * n - s))%nat).
        { assert (MapA : map room_of (advance (br_chans br) k prs) = map (fun r => (r - N.to_nat k)%nat) (map room_of prs)).
          { apply nth_ext_error. intros i. rewrite map_map, !nth_error_map. destruct (nth_error prs i) as [pr|] eqn:Hp.
            - rewrite (Adv i pr Hp). cbn [option_map]. f_equal. unfold room_of. cbn [pr_read pr_target]. lia.
            - apply nth_error_None in Hp. rewrite (proj2 (nth_error_None _ _)) by lia. reflexivity. }
          rewrite MapA, <- Ka. generalize (map room_of prs). clear. induction l as [|a l IHl]; [reflexivity|].
          cbn [map list_max fold_right]. fold (list_max l). fold (list_max (map (fun r => (r - N.to_nat k)%nat) l)). rewrite IHl. lia. }
        rewrite TopA. split.
        -- intros X. split; [exact Logic.I|]. intros i pr Hp Cp. specialize (X i _ (Adv i pr Hp)). unfold room_of in X at 1. cbn [pr_read pr_target] in X.
           replace (N.to_nat (pr_target pr - (pr_read pr + k))) with (room_of pr - N.to_nat (c * n - s))%nat in X by (unfold room_of; lia). exact X.
        -- intros [_ X] i pr' Hpr'. assert (Li : (i < length prs)%nat) by (rewrite Lp, <- La; apply nth_error_Some; congruence).
           destruct (nth_error prs i) as [pr|] eqn:Hp; [|apply nth_error_None in Hp; lia].
           rewrite (Adv i pr Hp) in Hpr'. injection Hpr' as <-. unfold room_of at 1. cbn [pr_read pr_target].
           destruct (complete pr) eqn:Cp.
           ++ replace (N.to_nat (pr_target pr - (pr_read pr + k))) with 0%nat by (unfold complete in Cp; lia). rewrite Rows0. constructor.
           ++ replace (N.to_nat (pr_target pr - (pr_read pr + k))) with (room_of pr - N.to_nat (c * n - s))%nat by (unfold room_of; lia). now apply X.
    + cbn [recast eof snd]. split; [discriminate|]. intros [[] _].
Qed.
End Rows.
