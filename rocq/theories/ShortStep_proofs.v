(** * Several channels read in step from a file that has lost its end *)
From Verif Require Import Base Lib DataTypes MetaData DataBlock Index RawData ChannelReader TdmsFile
  SpecIndex SpecSession SpecRead SpecMulti SpecShort Parse_proofs Cut_proofs Block_proofs Request_proofs Plan_proofs MultiCut_proofs
  Persist_proofs Short_proofs.

(** ** The buffers after two runs from the same state *)
(** [o1] holds the beginning [vs] of what [o2] holds from the place the channel has reached. *)
Definition ahead {A} (pr : progress) (o o1 o2 : list A) : Prop :=
  exists vs rest, lenN (vs ++ rest) <= pr_target pr - pr_read pr
    /\ o1 = splice o (pr_read pr) vs /\ o2 = splice o (pr_read pr) (vs ++ rest).
Inductive all_ahead {A} : list progress -> list (list A) -> list (list A) -> list (list A) -> Prop :=
| ahead_nil : all_ahead [] [] [] []
| ahead_cons pr o o1 o2 prs outs outs1 outs2 : ahead pr o o1 o2 -> all_ahead prs outs outs1 outs2 ->
    all_ahead (pr :: prs) (o :: outs) (o1 :: outs1) (o2 :: outs2).

Lemma ahead_refl {A} pr (o : list A) : ahead pr o o o.
Proof. exists [], []. cbn [app]. rewrite lenN_nil, !splice_nil. split; [lia|]. split; reflexivity. Qed.
Lemma all_ahead_refl {A} prs (outs : list (list A)) : fits prs outs -> all_ahead prs outs outs outs.
Proof. induction 1; constructor; [apply ahead_refl|assumption]. Qed.
(** A channel that is full gets nothing. *)
Lemma ahead_full {A} pr (o o1 o2 : list A) : complete pr = true -> ahead pr o o1 o2 -> o1 = o /\ o2 = o.
Proof.
  intros C (vs & rest & L & -> & ->). unfold complete in C. rewrite lenN_app in L. unfold lenN in L.
  assert (vs = []) by (destruct vs; [reflexivity|cbn [length] in L; lia]). subst vs.
  assert (rest = []) by (destruct rest; [reflexivity|cbn [length] in L; lia]). subst rest. cbn [app]. now rewrite splice_nil.
Qed.

(** What a block gives: no more than there is room for, and the whole room or as many as are counted. *)
Definition fairly {A} (k : N) (q : req) (m : list A) : Prop := (length m <= rq_room q)%nat /\ (N.of_nat (rq_room q) <= k \/ lenN m = k).

Lemma still_full pr k : complete pr = true -> complete (mkPr (pr_read pr + k) (pr_target pr)) = true.
Proof. unfold complete. cbn [pr_read pr_target]. lia. Qed.
Lemma now_full pr k : N.of_nat (N.to_nat (pr_target pr - pr_read pr)) <= k -> complete (mkPr (pr_read pr + k) (pr_target pr)) = true.
Proof. unfold complete. cbn [pr_read pr_target]. lia. Qed.
Lemma after_store {A} (k : N) : forall plans prs (outs got : list (list A)) outs1 outs2, fits prs outs ->
  Forall2 (fairly k) (block_requests plans prs) got ->
  all_ahead (advance plans k prs) (store plans prs outs got) outs1 outs2 -> all_ahead prs outs outs1 outs2.
Proof.
  induction plans as [|p plans IH]; intros prs outs got outs1 outs2 F G H; cbn [advance store block_requests] in *; [exact H|].
  destruct F as [|pr o prs outs T F]; [inversion H; subst; constructor|].
  destruct p as [[i s]|]; [destruct (complete pr) eqn:C|].
  - inversion H as [|? ? o1 o2 ? ? os1 os2 Ha Hr]; subst. constructor; [|now apply (IH prs outs got)].
    destruct (ahead_full _ _ _ _ (still_full _ k C) Ha) as [-> ->]. apply ahead_refl.
  - inversion G as [|q m reqs got' Hq G' Q1 Q2]; subst. inversion H as [|? ? o1 o2 ? ? os1 os2 Ha Hr]; subst.
    constructor; [|now apply (IH prs outs got')]. destruct Hq as [L [Hk|Hk]]; cbn [rq_room] in *.
    + destruct (ahead_full _ _ _ _ (now_full _ _ Hk) Ha) as [-> ->].
      exists m, []. rewrite app_nil_r. split; [unfold lenN; unfold complete in C; lia|]. split; reflexivity.
    + destruct Ha as (vs & rest & L2 & -> & ->). cbn [pr_read pr_target] in *. exists (m ++ vs), rest.
      unfold complete in C. rewrite lenN_app in L2. assert (lenN m <= pr_target pr - pr_read pr) by (unfold lenN; lia).
      rewrite <- app_assoc, !lenN_app. split; [lia|]. rewrite <- Hk.
      rewrite !splice_splice by (rewrite ?lenN_app; lia). split; reflexivity.
  - inversion H as [|? ? o1 o2 ? ? os1 os2 Ha Hr]; subst. constructor; [exact Ha|now apply (IH prs outs got)].
Qed.
Lemma before_store t (k : N) : forall plans prs outs (got1 got2 : list (list (carrier t))) outs1 outs2, fits prs outs ->
  Forall2 (begins t) got1 got2 -> Forall2 (fairly k) (block_requests plans prs) got2 ->
  all_ahead (advance plans k prs) (store plans prs outs got2) outs1 outs2 -> all_ahead prs outs (store plans prs outs got1) outs2.
Proof.
  induction plans as [|p plans IH]; intros prs outs got1 got2 outs1 outs2 F B G H; cbn [advance store block_requests] in *.
  - clear G B. induction H as [|pr o o1 o2 prs outs outs1 outs2 (vs & rest & L & -> & ->) H IH]; [constructor|]. inversion F; subst.
    constructor; [|now apply IH]. exists [], (vs ++ rest). cbn [app]. rewrite splice_nil. split; [exact L|]. split; reflexivity.
  - destruct F as [|pr o prs outs T F]; [inversion H; subst; constructor|].
    destruct p as [[i s]|]; [destruct (complete pr) eqn:C|].
    + inversion H as [|? ? o1 o2 ? ? os1 os2 Ha Hr]; subst. constructor; [|now apply (IH prs outs got1 got2 os1)].
      destruct (ahead_full _ _ _ _ (still_full _ k C) Ha) as [-> ->]. apply ahead_refl.
    + inversion G as [|q m reqs got' Hq G' Q1 Q2]; subst. inversion B as [|m1 m2 got1' got2' Hb B' Q1 Q2]; subst.
      inversion H as [|? ? o1 o2 ? ? os1 os2 Ha Hr]; subst.
      constructor; [|now apply (IH prs outs got1' got' os1)]. destruct Hb as [rest1 ->]. destruct Hq as [L [Hk|Hk]]; cbn [rq_room] in *.
      * destruct (ahead_full _ _ _ _ (now_full _ _ Hk) Ha) as [_ ->].
        exists m1, rest1. split; [unfold lenN; unfold complete in C; lia|]. split; reflexivity.
      * destruct Ha as (vs & rest & L2 & -> & ->). cbn [pr_read pr_target] in *. exists m1, (rest1 ++ vs ++ rest).
        unfold complete in C. rewrite lenN_app in L2. assert (lenN (m1 ++ rest1) <= pr_target pr - pr_read pr) by (unfold lenN; lia).
        rewrite app_assoc, !lenN_app in *. split; [lia|]. split; [reflexivity|]. rewrite <- Hk.
        rewrite <- (lenN_app m1), splice_splice by (rewrite ?lenN_app; lia). reflexivity.
    + inversion H as [|? ? o1 o2 ? ? os1 os2 Ha Hr]; subst. constructor; [|now apply (IH prs outs got1 got2 os1)].
      destruct Ha as (vs & rest & L & -> & ->). exists [], (vs ++ rest). cbn [app]. rewrite splice_nil. split; [exact L|]. split; reflexivity.
Qed.

(** ** Plans whose channels stay in step on the whole file *)
Section Run.
Context (E : env) (f g : list byte) (t : sty) (ix : index).
Hypothesis (Fx : fixed t) (Ad : addressable E (f ++ g)).
Local Notation V := (carrier t).
Local Notation W := (f ++ g).

Lemma fair_block br rest prs : fair_run W t ix (br :: rest) prs ->
  exists b k got, get_data_block ix (br_block br) = Some b
    /\ any_read E t W b (block_requests (br_chans br) prs) (any_skip (br_chans br)) = (got, Ok k)
    /\ Forall2 (fairly k) (block_requests (br_chans br) prs) got
    /\ (forallb complete (advance (br_chans br) k prs) = false -> fair_run W t ix rest (advance (br_chans br) k prs)).
Proof.
  intros [b [n [c [s [Rb [Lbr Fk]]]]]]. destruct Rb as [Bb [Hn [Hc [Hne [Hu [Hbl [Hin [Hs [Hch [Hsk Hd]]]]]]]]]].
  set (reqs := block_requests (br_chans br) prs) in *.
  assert (Hv : Forall (valid_req t (b_chans b)) reqs).
  { apply Forall_forall. intros q Hq. apply in_requests in Hq. destruct Hq as [i [ci [si [pr [Hi [_ [_ ->]]]]]]].
    destruct (Hch _ _ _ Hi) as [_ [m Hm]]. exists m. exact Hm. }
  assert (Hss : Forall (fun q => rq_skip q = s) reqs).
  { apply Forall_forall. intros q Hq. apply in_requests in Hq. destruct Hq as [i [ci [si [pr [Hi [_ [_ ->]]]]]]].
    destruct (Hch _ _ _ Hi) as [Hx _]. exact Hx. }
  destruct (block_ok E W t b reqs s n c Fx Ad Hn Hc Hne Hu Hbl Hin Hv (distinct_nodup _ _ Hd) Hs) as [k [Ck [_ [R0 Rs]]]].
  set (G := fun q => firstn (rq_room q) (skipn (N.to_nat s) (block_samples W t b (rq_chan q) (c * n)))) in *.
  exists b, k, (map G reqs). unfold get_data_block. split; [exact Bb|]. split.
  { unfold any_read. destruct (any_skip (br_chans br)) eqn:As; [apply Rs; exact Hss|apply R0; now apply Hsk]. }
  destruct (Fk k Ck) as [Fair Frest]. pose proof (counted_le _ _ _ _ Ck) as Kle. split; [|exact Frest].
  clear - Fair Kle. induction reqs as [|q reqs IH]; cbn [map]; constructor; [|apply IH; intros q' Hq'; apply Fair; now right].
  specialize (Fair q (or_introl eq_refl)). unfold fairly, G, lenN. rewrite firstn_length, skipn_length, block_samples_length.
  destruct Fair as [H|H]; [split; [lia|left; exact H]|]. split; [lia|].
  destruct (N.le_gt_cases (N.of_nat (rq_room q)) k); [left; assumption|right; lia].
Qed.
Lemma any_read_is h b reqs (s : bool) : (if s then block_read_skips E h t b reqs else block_read E h t b reqs) = any_read E t h b reqs s.
Proof. reflexivity. Qed.
Lemma fairly_room k reqs (got : list (list V)) : Forall2 (fairly k) reqs got -> Forall2 (fun q g => (length g <= rq_room q)%nat) reqs got.
Proof. induction 1 as [|q m reqs got [H _] _ IH]; constructor; assumption. Qed.
(** The run on the whole file succeeds and writes every channel once, in order. *)
Lemma fair_whole : forall plan prs outs, fair_run W t ix plan prs -> fits prs outs ->
  exists outs', execute E W t ix plan prs outs = (outs', Ok tt) /\ all_ahead prs outs outs' outs'.
Proof.
  induction plan as [|br rest IH]; intros prs outs Fr F; cbn [execute]; [exists outs; split; [reflexivity|now apply all_ahead_refl]|].
  destruct (fair_block br rest prs Fr) as (b & k & got & Gb & R & Fg & Fr'). rewrite Gb. cbv zeta. rewrite any_read_is, R.
  destruct (store_short t _ _ _ _ _ F (begins_refl t got) (fairly_room _ _ _ Fg)) as [F' _].
  destruct (forallb complete _) eqn:Cm.
  - eexists. split; [reflexivity|]. apply (after_store k (br_chans br) prs outs got); [exact F|exact Fg|].
    apply all_ahead_refl, fits_advance, F'.
  - destruct (IH _ _ (Fr' eq_refl) (fits_advance (br_chans br) k _ _ F')) as [outs' [X1 X2]]. exists outs'. split; [exact X1|].
    now apply (after_store k (br_chans br) prs outs got).
Qed.
Lemma fair_short : forall plan prs outs, fair_run W t ix plan prs -> fits prs outs ->
  exists outs1 r outs2, execute E f t ix plan prs outs = (outs1, r) /\ execute E W t ix plan prs outs = (outs2, Ok tt)
    /\ all_ahead prs outs outs1 outs2 /\ ((r = Ok tt /\ outs1 = outs2) \/ r = EOF).
Proof.
  induction plan as [|br rest IH]; intros prs outs Fr F; cbn [execute].
  - exists outs, (Ok tt), outs. do 2 (split; [reflexivity|]). split; [now apply all_ahead_refl|]. left; split; reflexivity.
  - destruct (fair_block br rest prs Fr) as (b & k & got & Gb & R & Fg & Fr'). rewrite Gb. cbv zeta. rewrite !any_read_is, R.
    destruct (store_short t _ _ _ _ _ F (begins_refl t got) (fairly_room _ _ _ Fg)) as [F' _].
    destruct (block_short E t f g b (block_requests (br_chans br) prs) (any_skip (br_chans br))) as [Q|[Q B]].
    + rewrite Q, R. destruct (forallb complete _) eqn:Cm.
      * eexists _, _, _. do 2 (split; [reflexivity|]). split; [|left; split; reflexivity].
        apply (after_store k (br_chans br) prs outs got); [exact F|exact Fg|]. apply all_ahead_refl, fits_advance, F'.
      * destruct (IH _ _ (Fr' eq_refl) (fits_advance (br_chans br) k _ _ F')) as (o1 & r & o2 & X1 & X2 & X3 & X4).
        exists o1, r, o2. do 2 (split; [assumption|]). split; [|exact X4]. now apply (after_store k (br_chans br) prs outs got).
    + rewrite R in B. destruct (any_read E t f b _ _) as [got1 r1]. cbn [fst snd] in *. subst r1. cbn [recast EOF].
      destruct (forallb complete _) eqn:Cm.
      * eexists _, _, _. do 2 (split; [reflexivity|]). split; [|right; reflexivity].
        eapply (before_store t k (br_chans br) prs outs got1 got); [exact F|exact B|exact Fg|]. apply all_ahead_refl, fits_advance, F'.
      * destruct (fair_whole rest _ _ (Fr' eq_refl) (fits_advance (br_chans br) k _ _ F')) as [outs' [X1 X2]].
        eexists _, _, outs'. split; [reflexivity|]. split; [exact X1|]. split; [|right; reflexivity].
        now apply (before_store t k (br_chans br) prs outs got1 got outs').
Qed.
End Run.

(** From the start of the read: first parts. *)
Lemma ahead_start {A} (outs outs1 outs2 : list (list A)) : all_ahead (map (fun o => mkPr 0 (lenN o)) outs) outs outs1 outs2 ->
  length outs1 = length outs /\ length outs2 = length outs
  /\ forall i o o1 o2, nth_error outs i = Some o -> nth_error outs1 i = Some o1 -> nth_error outs2 i = Some o2 ->
     exists n, (n <= length o)%nat /\ o1 = firstn n o2 ++ skipn n o.
Proof.
  revert outs1 outs2. induction outs as [|o outs IH]; intros outs1 outs2 H; cbn [map] in H.
  - inversion H; subst. repeat split; try reflexivity. intros [|i] o o1 o2 X; discriminate X.
  - inversion H as [|? ? o1 o2 ? ? os1 os2 Ha Hr]; subst. destruct (IH _ _ Hr) as [L1 [L2 K]]. cbn [length]. do 2 (split; [now f_equal|]).
    intros [|i] x x1 x2 X X1 X2; cbn [nth_error] in *; [|now apply (K i)]. injection X as <-. injection X1 as <-. injection X2 as <-.
    destruct Ha as (vs & rest & L & -> & ->). cbn [pr_read pr_target] in *. exists (length vs). rewrite lenN_app in L. unfold lenN in L.
    split; [lia|]. unfold splice. change (N.to_nat 0) with 0%nat. rewrite !firstn_O. cbn [app plus]. f_equal. symmetry. rewrite <- app_assoc. now rewrite firstn_app, Nat.sub_diag, firstn_O, app_nil_r, firstn_all.
Qed.
