(** * Channels in different interleaved blocks of a file that has lost its end *)
From Coq Require Import Sorting.Sorted.
From Verif Require Import Base Lib DataTypes MetaData DataBlock Index RawData ChannelReader
  SpecIndex SpecCutFile Parse_proofs Cut_proofs Block_proofs CutFile_proofs Request_proofs SpecRead SpecArrive Plan_proofs Read_proofs MultiCut_proofs
  Short_proofs ShortStep_proofs Arrive_proofs ArriveRun_proofs.

(** Samples of channel number [i] in the blocks [pre] of a plan (channel_reader.rs 145-200). *)
Definition used (bs : list dblock) (i : nat) (pre : list blockread) : nat :=
  length (concat (map (rest_places bs) (planned i pre))).
(** Rows of the block [br] behind [pre] that the buffers have room for (interleaved_multi_channel_read.rs 44-96). *)
Definition wanted (bs : list dblock) (rooms : list nat) (pre : list blockread) (br : blockread) : nat :=
  list_max (map (fun i => match nth_error (br_chans br) i with Some (Some _) => (nth i rooms 0%nat - used bs i pre)%nat | _ => 0%nat end)
                (seq 0 (length rooms))).

Section Any.
Context (E : env) (f x : list byte) (t : sty) (ix : index) (nch : nat).
Hypothesis (Fx : fixed t) (Ad : addressable E (f ++ x)).
Local Notation V := (carrier t).
Local Notation W := (f ++ x).
Local Notation bs := (ix_blocks ix).
Local Notation here := (fun a => present f t a = true).
Local Notation rooms prs := (map room_of prs).

(** The samples in the rows gone through are in the file (channel_reader.rs 145-200, interleaved_multi_channel_read.rs 44-96). *)
Definition all_rows (plan : list blockread) (rs : list nat) : Prop :=
  forall pre br post i ci s r, plan = pre ++ br :: post -> nth_error (br_chans br) i = Some (Some (ci, s)) -> nth_error rs i = Some r ->
    (used bs i pre < r)%nat -> Forall here (firstn (S (wanted bs rs pre br)) (rest_places bs (br_block br, ci, s))).

Lemma list_max_ext {A} (g h : A -> nat) L : (forall a, In a L -> g a = h a) -> list_max (map g L) = list_max (map h L).
Proof. intros K. f_equal. apply map_ext_in. exact K. Qed.

Lemma exec_any : forall plan prs outs, readable_plan W t ix nch plan -> length prs = nch ->
  Forall (fun br => forall b, nth_error bs (br_block br) = Some b -> b_layout b = Interleaved) plan ->
  (snd (execute E f t ix plan prs outs) = Ok tt <-> all_rows plan (rooms prs)).
Proof.
  induction plan as [|br rest IH]; intros prs outs R Lp Il.
  - cbn [execute snd]. split; [|reflexivity]. intros _ pre br post i ci s r K. destruct pre; discriminate.
  - inversion R as [|y l [Ln [b [n [c [s Rb]]]]] R']; subst y l. inversion Il as [|y l I1 Il']; subst y l.
    destruct Rb as [Bb [Hn [Hc [Hne [Hu [Hbl [Hin [Hs [Hch [Hsk Hd]]]]]]]]]]. pose proof (I1 b Bb) as Lay. clear I1.
    set (reqs := block_requests (br_chans br) prs) in *.
    assert (Hv : Forall (valid_req t (b_chans b)) reqs).
    { apply Forall_forall. intros q Hq. apply in_requests in Hq. destruct Hq as [i [ci [si [pr' [Hi [_ [_ ->]]]]]]].
      destruct (Hch _ _ _ Hi) as [_ [m Hm]]. exists m. exact Hm. }
    assert (Hss : Forall (fun q => rq_skip q = s) reqs).
    { apply Forall_forall. intros q Hq. apply in_requests in Hq. destruct Hq as [i [ci [si [pr' [Hi [_ [_ ->]]]]]]].
      destruct (Hch _ _ _ Hi) as [Hx _]. exact Hx. }
    pose proof (distinct_nodup _ prs Hd) as ND. fold reqs in ND.
    assert (Rp : forall i ci si, nth_error (br_chans br) i = Some (Some (ci, si)) -> si = s
              /\ rest_places bs (br_block br, ci, si) = skipn (N.to_nat s) (places_in b ci (c * n))).
    { intros i ci si Hp. destruct (Hch _ _ _ Hp) as [-> [m [Hm Sm]]]. split; [reflexivity|].
      unfold rest_places. rewrite Bb, Hm. unfold places_in. f_equal. do 3 f_equal.
      rewrite (whole_chunks_of b c); [|eapply Forall_impl; [|exact Hu]; cbv beta; tauto|apply (sub_bytes_pos n); assumption|exact Hbl].
      rewrite Forall_forall in Hu. rewrite (proj1 (Hu m (nth_error_In _ _ Hm))). lia. }
    set (M := wanted bs (rooms prs) [] br).
    assert (Top : list_max (map rq_room reqs) = M).
    { unfold M, wanted. apply Nat.le_antisymm; apply list_max_le; apply Forall_forall; intros r Hr; apply in_map_iff in Hr.
      - destruct Hr as [q [<- Hq]]. apply in_requests in Hq. destruct Hq as [i [ci [si [pr [Hi [Hp [_ ->]]]]]]]. cbn [rq_room].
        apply list_max_ge. apply in_map_iff. exists i. split.
        + rewrite Hi. unfold used. cbn [planned flat_map map concat length]. rewrite Nat.sub_0_r.
          apply nth_error_nth. now rewrite nth_error_map, Hp.
        + apply in_seq. rewrite map_length. split; [lia|]. cbn [Nat.add]. apply nth_error_Some. congruence.
      - destruct Hr as [i [<- Hi]]. destruct (nth_error (br_chans br) i) as [[[ci si]|]|] eqn:Hp; try lia.
        apply in_seq in Hi. rewrite map_length in Hi. destruct (nth_error prs i) as [pr|] eqn:Hpr; [|apply nth_error_None in Hpr; lia].
        rewrite (nth_error_nth (rooms prs) i (x := room_of pr)) by (now rewrite nth_error_map, Hpr).
        destruct (complete pr) eqn:C; [unfold complete in C; unfold room_of; lia|].
        pose proof (list_max_ge _ _ (in_map rq_room _ _ (requests_in (br_chans br) prs i ci si pr Hp Hpr C))) as Q. cbn [rq_room] in Q.
        fold reqs in Q. lia. }
    destruct (block_ok E W t b reqs s n c Fx Ad Hn Hc Hne Hu Hbl Hin Hv ND Hs) as [k [Ck [_ [R0 Rs]]]].
    set (G := fun q => firstn (rq_room q) (skipn (N.to_nat s) (block_samples W t b (rq_chan q) (c * n)))) in *.
    assert (RW : any_read E t W b reqs (any_skip (br_chans br)) = (map G reqs, Ok k)).
    { unfold any_read. destruct (any_skip (br_chans br)) eqn:As; [apply Rs; exact Hss|apply R0; now apply Hsk]. }
    destruct (block_cut E f x t Fx Ad b reqs s n c (any_skip (br_chans br)) Hn Hc Hne Hu Hbl Hin Hv ND Hs Hsk Hss) as [r [Rf [Kr Br]]].
    rewrite Lay, Top in Br.
    assert (Kk : reqs <> [] -> k = N.min (N.of_nat M) (c * n - s)).
    { intros Ne. destruct Ck as [_ Ck]. specialize (Ck Ne). rewrite Lay in Ck. destruct Ck as [q' [Hq' [Hm ->]]]. f_equal. f_equal.
      rewrite <- Top. apply Nat.le_antisymm; [exact (list_max_ge _ _ (in_map rq_room _ _ Hq'))|].
      apply list_max_le, Forall_forall. intros r' Hr. apply in_map_iff in Hr. destruct Hr as [q2 [<- Hq2]]. exact (Hm q2 Hq2). }
    assert (Lpl : forall ci, length (skipn (N.to_nat s) (places_in b ci (c * n))) = N.to_nat (c * n - s)).
    { intros ci. rewrite skipn_length. unfold places_in. rewrite map_length, seq_length. lia. }
    assert (La : length (advance (br_chans br) k prs) = nch) by (rewrite advance_length; exact Lp).
    set (rs' := rooms (advance (br_chans br) k prs)).
    (* what is left of the rooms *)
    assert (Left : forall i pr, nth_error prs i = Some pr -> nth_error rs' i = Some (room_of pr - used bs i [br])%nat).
    { intros i pr Hi. assert (Li : (i < length (br_chans br))%nat) by (rewrite Ln, <- Lp; apply nth_error_Some; congruence).
      destruct (nth_error (br_chans br) i) as [p|] eqn:Hp; [|apply nth_error_None in Hp; lia].
      unfold rs'. rewrite nth_error_map, (nth_advance k _ _ _ _ _ Hp Hi). cbn [option_map]. f_equal.
      unfold used, planned. cbn [flat_map]. rewrite Hp. destruct p as [[ci si]|]; cbn [app map concat].
      - destruct (Rp _ _ _ Hp) as [-> ->]. rewrite app_nil_r, Lpl. unfold room_of at 1. cbn [pr_read pr_target].
        destruct (complete pr) eqn:C; [unfold complete in C; unfold room_of; lia|].
        pose proof (requests_in (br_chans br) prs i ci s pr Hp Hi C) as Hq. fold reqs in Hq.
        assert (Ne : reqs <> []) by (intros Z; rewrite Z in Hq; contradiction).
        pose proof (list_max_ge _ _ (in_map rq_room _ _ Hq)) as Q. rewrite Top in Q. cbn [rq_room] in Q. rewrite (Kk Ne).
        unfold room_of in *. lia.
      - cbn [length]. lia. }
    assert (Used : forall i pre, used bs i (br :: pre) = (used bs i [br] + used bs i pre)%nat).
    { intros i pre. unfold used. change (br :: pre) with ([br] ++ pre). unfold planned. rewrite flat_map_app, map_app, concat_app, app_length. reflexivity. }
    assert (Len' : length rs' = length (rooms prs)) by (unfold rs'; rewrite !map_length; lia).
    assert (Want : forall pre br', wanted bs (rooms prs) (br :: pre) br' = wanted bs rs' pre br').
    { intros pre br'. unfold wanted. rewrite Len'. apply list_max_ext. intros i Hi. apply in_seq in Hi. rewrite map_length in Hi.
      destruct (nth_error prs i) as [pr|] eqn:Hpr; [|apply nth_error_None in Hpr; lia].
      rewrite (nth_error_nth (rooms prs) i (x := room_of pr)) by (now rewrite nth_error_map, Hpr).
      rewrite (nth_error_nth rs' i _ (Left i pr Hpr)), Used. destruct (nth_error (br_chans br') i) as [[?|]|]; lia. }
    (* the places of this block and those of the rest *)
    assert (Two : all_rows (br :: rest) (rooms prs)
        <-> (forall q, In q reqs -> Forall here (firstn (S M) (skipn (N.to_nat s) (places_in b (rq_chan q) (c * n))))) /\ all_rows rest rs').
    { split.
      - intros X. split.
        + intros q Hq. apply in_requests in Hq. destruct Hq as [i [ci [si [pr [Hi [Hp [C ->]]]]]]]. cbn [rq_chan].
          destruct (Rp _ _ _ Hi) as [-> <-]. apply (X [] br rest i ci s (room_of pr) eq_refl Hi); [now rewrite nth_error_map, Hp|].
          unfold used. cbn [planned flat_map map concat length]. unfold complete in C. unfold room_of. lia.
        + intros pre br' post i ci si r' Eq Hi Hr Lt. rewrite <- Want.
          assert (Li : (i < length prs)%nat) by (unfold rs' in Hr; rewrite Lp, <- La; rewrite <- (map_length room_of); apply nth_error_Some; congruence).
          destruct (nth_error prs i) as [pr|] eqn:Hpr; [|apply nth_error_None in Hpr; lia].
          rewrite (Left i pr Hpr) in Hr. injection Hr as <-.
          apply (X (br :: pre) br' post i ci si (room_of pr)); [now rewrite Eq|exact Hi|now rewrite nth_error_map, Hpr|]. rewrite Used. lia.
      - intros [X Y] pre br' post i ci si r' Eq Hi Hr Lt. rewrite nth_error_map in Hr.
        destruct (nth_error prs i) as [pr|] eqn:Hpr; [|discriminate]. injection Hr as <-.
        destruct pre as [|b0 pre].
        + cbn [app] in Eq. injection Eq as <- <-. destruct (Rp _ _ _ Hi) as [-> Es]. rewrite Es.
          unfold used in Lt. cbn [planned flat_map map concat length] in Lt.
          assert (C : complete pr = false) by (unfold complete; unfold room_of in Lt; lia).
          exact (X _ (requests_in (br_chans br) prs i ci s pr Hi Hpr C)).
        + cbn [app] in Eq. injection Eq as <- Eq. rewrite Want. rewrite Used in Lt.
          apply (Y pre br' post i ci si (room_of pr - used bs i [br])%nat Eq Hi (Left i pr Hpr)). lia. }
    rewrite Two, <- Br. clear Two Br.
    cbn [execute]. unfold get_data_block. rewrite Bb. cbv zeta. fold reqs. rewrite any_read_is, Rf.
    destruct Kr as [[l ->]|[-> Kr]].
    + assert (Eq : l = k).
      { destruct (block_short E t f x b reqs (any_skip (br_chans br))) as [Q|[Q _]].
        - rewrite Rf, RW in Q. now injection Q.
        - rewrite Rf in Q. discriminate Q. }
      subst l. destruct (forallb complete (advance (br_chans br) k prs)) eqn:C.
      * cbn [snd]. split; [|reflexivity]. intros _. split; [exact Logic.I|]. intros pre br' post i ci si r' _ _ Hr Lt. exfalso.
        unfold rs' in Hr. rewrite nth_error_map in Hr. destruct (nth_error (advance (br_chans br) k prs) i) as [pr|] eqn:Hpr; [|discriminate].
        injection Hr as <-. rewrite forallb_forall in C. specialize (C pr (nth_error_In _ _ Hpr)). unfold complete in C. unfold room_of in Lt. lia.
      * rewrite (IH _ _ R' La Il'). split; [intros X; split; [exact Logic.I|exact X]|]. intros [_ X]. exact X.
    + cbn [recast eof snd]. split; [discriminate|]. intros [[] _].
Qed.
End Any.
