(** * Reading several channels that do not disturb each other *)
From Coq Require Import Sorting.Sorted.
From Verif Require Import Base Lib DataTypes MetaData DataBlock Index RawData ChannelReader TdmsFile
  SpecIndex SpecSession SpecRead Block_proofs Request_proofs Plan_proofs Read_proofs.

Section Compat.
Context (f : list byte) (t : sty) (ix : index).
Hypothesis (Fx : fixed t).
Local Notation bs := (ix_blocks ix).

Definition in_br (i : nat) (br : blockread) : Prop := exists x, nth_error (br_chans br) i = Some (Some x).
(** The two channels are in the same blocks of the plan. *)
Definition kin (i j : nat) (plan : list blockread) : Prop :=
  forall br, In br plan -> (in_br i br <-> in_br j br).
(** The buffer has room for everything that is left. *)
Definition fits (i : nat) (plan : list blockread) (prs : list progress) : Prop :=
  forall pr, nth_error prs i = Some pr ->
    N.of_nat (length (concat (map (nsamp f t bs) (planned i plan)))) + pr_read pr <= pr_target pr.
Definition apart (plan : list blockread) (prs : list progress) : Prop :=
  forall br b i j, In br plan -> nth_error bs (br_block br) = Some b -> b_layout b = Contigious ->
    i <> j -> in_br i br -> in_br j br ->
    (kin i j plan /\ nth_error prs i = nth_error prs j) \/ (fits i plan prs /\ fits j plan prs).

Lemma fair_compat : forall plan nch prs, readable_plan f t ix nch plan -> length prs = nch -> apart plan prs ->
  fair_run f t ix plan prs.
Proof.
  induction plan as [|br plan IH]; intros nch prs R Lp A; cbn [fair_run]; [exact Logic.I|].
  inversion R as [|y l [Ln [b [n [c [s Rb]]]]] R']; subst y l.
  exists b, n, c, s. split; [exact Rb|]. split; [congruence|].
  destruct Rb as [Bb [Hn [Hc [Hne [Hu [Hbl [Hin [Hs [Hch [Hsk Hd]]]]]]]]]].
  assert (Len : forall i ci si, nth_error (br_chans br) i = Some (Some (ci, si)) ->
     length (nsamp f t bs (br_block br, ci, si)) = N.to_nat (c * n - s)).
  { intros i ci si Hi. destruct (Hch _ _ _ Hi) as [-> [m [Hm _]]].
    unfold nsamp, chan_samples. rewrite Bb, Hm, skipn_length, block_samples_length.
    rewrite (whole_chunks_of b c); [|eapply Forall_impl; [|exact Hu]; cbv beta; tauto|apply (sub_bytes_pos n); assumption|exact Hbl].
    rewrite Forall_forall in Hu. rewrite (proj1 (Hu m (nth_error_In _ _ Hm))). lia. }
  assert (Head : forall i ci si, nth_error (br_chans br) i = Some (Some (ci, si)) ->
     length (concat (map (nsamp f t bs) (planned i (br :: plan))))
     = (N.to_nat (c * n - s) + length (concat (map (nsamp f t bs) (planned i plan))))%nat).
  { intros i ci si Hi. unfold planned. cbn [flat_map]. rewrite Hi. cbn [app map concat]. rewrite app_length. now rewrite (Len _ _ _ Hi). }
  intros k Ck. pose proof (counted_le _ _ _ _ Ck) as Kle. split.
  - intros q Hq. destruct Ck as [_ Ck].
    assert (Ne : block_requests (br_chans br) prs <> []) by (intros Z; rewrite Z in Hq; contradiction).
    specialize (Ck Ne). destruct (b_layout b) eqn:Lay; destruct Ck as [q' [Hq' [Hm ->]]].
    + specialize (Hm q Hq). lia.
    + clear Hm. apply in_requests in Hq, Hq'.
      destruct Hq as [i [ci [si [pr [Hi [Hpr [_ ->]]]]]]]. destruct Hq' as [j [cj [sj [pr' [Hj [Hpr' [_ ->]]]]]]].
      cbn [rq_room]. destruct (Nat.eq_dec i j) as [->|Nij].
      { replace pr' with pr by congruence. lia. }
      assert (Ii : in_br i br) by (eexists; exact Hi). assert (Ij : in_br j br) by (eexists; exact Hj).
      destruct (A br b i j (or_introl eq_refl) Bb Lay Nij Ii Ij) as [[_ Q]|[_ Fj]].
      * replace pr' with pr by congruence. lia.
      * specialize (Fj pr' Hpr'). rewrite (Head _ _ _ Hj) in Fj. right. unfold room_of. lia.
  - intros _. apply (IH nch); auto; [now rewrite advance_length|].
    assert (Adv : forall i, in_br i br \/ nth_error (br_chans br) i = Some None \/ nth_error (br_chans br) i = None).
    { intros i. unfold in_br. destruct (nth_error (br_chans br) i) as [[x|]|]; eauto. }
    assert (NthA : forall i, nth_error (advance (br_chans br) k prs) i =
       match nth_error prs i with
       | None => None
       | Some pr => Some (match nth_error (br_chans br) i with Some (Some _) => mkPr (pr_read pr + k) (pr_target pr) | _ => pr end)
       end).
    { intros i. destruct (nth_error prs i) as [pr|] eqn:Hpr.
      - destruct (nth_error (br_chans br) i) as [p|] eqn:Hp.
        + rewrite (nth_advance k _ _ _ _ _ Hp Hpr). destruct p; reflexivity.
        + apply nth_error_None in Hp. assert (i < length prs)%nat by (apply nth_error_Some; congruence). lia.
      - apply nth_error_None. rewrite advance_length. now apply nth_error_None. }
    assert (Fits : forall i, fits i (br :: plan) prs -> fits i plan (advance (br_chans br) k prs)).
    { intros i Fi pr' Hpr'. rewrite NthA in Hpr'. destruct (nth_error prs i) as [pr|] eqn:Hpr; [|discriminate].
      specialize (Fi pr Hpr). destruct (nth_error (br_chans br) i) as [[[ci si]|]|] eqn:Hi.
      - injection Hpr' as <-. rewrite (Head _ _ _ Hi) in Fi. cbn [pr_read pr_target]. lia.
      - injection Hpr' as <-. unfold planned in Fi. cbn [flat_map] in Fi. rewrite Hi in Fi. exact Fi.
      - injection Hpr' as <-. unfold planned in Fi. cbn [flat_map] in Fi. rewrite Hi in Fi. exact Fi. }
    intros br' b' i j Hbr' Bb' Lay' Nij Ii Ij.
    destruct (A br' b' i j (or_intror Hbr') Bb' Lay' Nij Ii Ij) as [[Ki Q]|[Fi Fj]].
    + left. split; [intros x Hx; apply Ki; now right|]. rewrite !NthA, Q.
      destruct (nth_error prs j) as [pr|]; [|reflexivity]. f_equal.
      destruct (Ki br (or_introl eq_refl)) as [K1 K2].
      destruct (nth_error (br_chans br) i) as [[x|]|] eqn:Hi.
      * destruct K1 as [y Hy]; [eexists; exact Hi|]. now rewrite Hy.
      * destruct (nth_error (br_chans br) j) as [[y|]|] eqn:Hj; try reflexivity.
        destruct K2 as [x Hx]; [eexists; exact Hj|]. congruence.
      * destruct (nth_error (br_chans br) j) as [[y|]|] eqn:Hj; try reflexivity.
        destruct K2 as [x Hx]; [eexists; exact Hj|]. congruence.
    + right. split; apply Fits; assumption.
Qed.
End Compat.
