(** * The read plan and its execution *)
From Coq Require Import Sorting.Sorted.
From Verif Require Import Base Lib DataTypes MetaData DataBlock Index RawData ChannelReader
  SpecIndex SpecRead Block_proofs Request_proofs.

(** ** The plan *)
Lemma min_block_none st : min_block st = None -> forall i c, nth_error st i = Some c -> fst c = [].
Proof.
  induction st as [|[ls s] st IH]; intros H i c Hi; [destruct i; discriminate|].
  cbn [min_block] in H. destruct ls as [|l ls].
  - destruct i as [|i]; cbn [nth_error] in Hi; [injection Hi as <-; reflexivity|eauto].
  - destruct (min_block st); discriminate.
Qed.
Lemma min_block_some st b : min_block st = Some b ->
  (exists i l ls s, nth_error st i = Some (l :: ls, s) /\ l_block l = b)
  /\ (forall i l ls s, nth_error st i = Some (l :: ls, s) -> (b <= l_block l)%nat).
Proof.
  revert b. induction st as [|[ls s] st IH]; intros b H; [discriminate|].
  cbn [min_block] in H. destruct ls as [|l ls].
  - destruct (IH b H) as [[i [l [ls [s' [A B]]]]] C]. split.
    + exists (S i), l, ls, s'. auto.
    + intros [|j] l' ls' s'' Hj; cbn [nth_error] in Hj; [discriminate|eauto].
  - destruct (min_block st) as [m|] eqn:M; injection H as <-.
    + destruct (IH m eq_refl) as [[i [l' [ls' [s' [A B]]]]] C]. split.
      * destruct (Nat.le_gt_cases (l_block l) m).
        -- exists 0%nat, l, ls, s. split; [reflexivity|lia].
        -- exists (S i), l', ls', s'. split; [exact A|lia].
      * intros [|j] l'' ls'' s'' Hj; cbn [nth_error] in Hj; [injection Hj as <- _ _; lia|].
        specialize (C _ _ _ _ Hj). lia.
    + split; [exists 0%nat, l, ls, s; auto|].
      intros [|j] l'' ls'' s'' Hj; cbn [nth_error] in Hj; [injection Hj as <- _ _; lia|].
      apply (min_block_none st M) in Hj. discriminate.
Qed.

Lemma total_step b st : (total_locs (map snd (map (plan_chan b) st)) <= total_locs st)%nat.
Proof.
  induction st as [|[ls s] st IH]; [reflexivity|]. unfold total_locs in *. cbn [map fold_right]. 
  destruct ls as [|l ls]; cbn [plan_chan snd fst length]; [lia|].
  destruct (Nat.eqb (l_block l) b); cbn [snd fst length]; lia.
Qed.
Lemma total_step_lt b st : (exists i l ls s, nth_error st i = Some (l :: ls, s) /\ l_block l = b) ->
  (total_locs (map snd (map (plan_chan b) st)) < total_locs st)%nat.
Proof.
  induction st as [|[ls s] st IH]; intros [i [l [ls' [s' [Hi Hb]]]]]; [destruct i; discriminate|].
  pose proof (total_step b st) as T. unfold total_locs in *. cbn [map fold_right].
  destruct i as [|i]; cbn [nth_error] in Hi.
  - injection Hi as -> _. cbn [plan_chan]. rewrite Hb, Nat.eqb_refl. cbn [snd fst length]. lia.
  - assert (T' := IH ltac:(exists i, l, ls', s'; auto)).
    destruct ls as [|l0 ls]; cbn [plan_chan snd fst length]; [lia|].
    destruct (Nat.eqb (l_block l0) b); cbn [snd fst length]; lia.
Qed.

Lemma plan_terminates : forall fuel st, (total_locs st < fuel)%nat -> exists plan, read_plan_loop fuel st = Ok plan.
Proof.
  induction fuel as [|fuel IH]; intros st H; [lia|]. cbn [read_plan_loop].
  destruct (min_block st) as [b|] eqn:M; [|eauto].
  destruct (min_block_some st b M) as [Hx _]. apply total_step_lt in Hx.
  destruct (IH (map snd (map (plan_chan b) st)) ltac:(lia)) as [p Hp]. rewrite Hp. cbn [bind]. eauto.
Qed.

Lemma plan_needed : forall fuel st plan, read_plan_loop fuel st = Ok plan ->
  forall i ls s, nth_error st i = Some (ls, s) -> planned i plan = needed ls s.
Proof.
  induction fuel as [|fuel IH]; intros st plan H i ls s Hi; [discriminate|]. cbn [read_plan_loop] in H.
  destruct (min_block st) as [b|] eqn:M.
  2:{ injection H as <-. apply (min_block_none st M) in Hi. cbn [fst] in Hi. now subst ls. }
  apply bind_ok in H. destruct H as [rest [Hr H]]. injection H as H.
  specialize (IH _ _ Hr i).
  assert (Hs : nth_error (map snd (map (plan_chan b) st)) i = Some (snd (plan_chan b (ls, s))))
    by (rewrite !nth_error_map, Hi; reflexivity).
  assert (Hp : nth_error (map fst (map (plan_chan b) st)) i = Some (fst (plan_chan b (ls, s))))
    by (rewrite !nth_error_map, Hi; reflexivity).
  assert (Pl : planned i plan = match fst (plan_chan b (ls, s)) with Some (c, k) => [(b, c, k)] | None => [] end
                                ++ planned i rest).
  { destruct (existsb _ _) eqn:Ex in H; subst plan.
    - unfold planned. cbn [flat_map br_chans br_block]. rewrite Hp. reflexivity.
    - destruct (fst (plan_chan b (ls, s))) as [[c k]|] eqn:P; [|reflexivity]. exfalso.
      apply not_true_iff_false in Ex. apply Ex. apply existsb_exists. exists (Some (c, k)).
      split; [eapply nth_error_In; exact Hp|reflexivity]. }
  rewrite Pl. clear Pl Hp. destruct ls as [|l ls]; cbn [plan_chan] in *.
  - cbn [fst snd] in *. cbn [app needed]. now apply IH in Hs.
  - cbn [needed]. destruct (Nat.eqb (l_block l) b) eqn:K.
    + apply Nat.eqb_eq in K. subst b. cbn [fst snd] in *. apply IH in Hs. rewrite Hs.
      destruct (l_n l <=? s) eqn:Q; [reflexivity|]. cbn [app]. replace (s - l_n l) with 0 by lia. reflexivity.
    + cbn [fst snd app] in *. apply IH in Hs. rewrite Hs. reflexivity.
Qed.

Lemma plan_shape : forall fuel st plan, read_plan_loop fuel st = Ok plan ->
  Forall (fun br => length (br_chans br) = length st /\ exists c s, In (Some (c, s)) (br_chans br)) plan.
Proof.
  induction fuel as [|fuel IH]; intros st plan H; [discriminate|]. cbn [read_plan_loop] in H.
  destruct (min_block st) as [b|] eqn:M; [|injection H as <-; constructor].
  apply bind_ok in H. destruct H as [rest [Hr H]]. injection H as H.
  specialize (IH _ _ Hr). rewrite !map_length in IH.
  destruct (existsb _ _) eqn:Ex in H; subst plan; [|exact IH]. constructor; [|exact IH].
  cbn [br_chans]. split; [now rewrite !map_length|].
  apply existsb_exists in Ex. destruct Ex as [[[c s]|] [Hin X]]; [eauto|discriminate].
Qed.

Lemma plan_ascending : forall fuel st plan, Forall (fun c => ascending (fst c)) st ->
  read_plan_loop fuel st = Ok plan ->
  StronglySorted lt (map br_block plan)
  /\ forall br, In br plan -> exists i ls s l, nth_error st i = Some (ls, s) /\ In l ls /\ l_block l = br_block br.
Proof.
  induction fuel as [|fuel IH]; intros st plan Hs H; [discriminate|]. cbn [read_plan_loop] in H.
  destruct (min_block st) as [b|] eqn:M; [|injection H as <-; split; [constructor|contradiction]].
  apply bind_ok in H. destruct H as [rest [Hr H]]. injection H as H.
  destruct (min_block_some st b M) as [Hex Hmin].
  set (st' := map snd (map (plan_chan b) st)) in *.
  assert (St : forall i ls s, nth_error st' i = Some (ls, s) ->
     exists ls0 s0, nth_error st i = Some (ls0, s0) /\ ascending ls
       /\ (forall l, In l ls -> In l ls0 /\ (b < l_block l)%nat)).
  { intros i ls s Hi. unfold st', chst in Hi. rewrite !nth_error_map in Hi.
    destruct (nth_error st i) as [[ls0 s0]|] eqn:Nst in Hi; cbn [option_map] in Hi; [|discriminate Hi]. injection Hi as Hi.
    exists ls0, s0. split; [exact Nst|].
    assert (As : ascending ls0) by (rewrite Forall_forall in Hs; apply (Hs (ls0, s0)); eapply nth_error_In; eauto).
    destruct ls0 as [|l ls0]; cbn [plan_chan snd] in Hi.
    - injection Hi as <- _. split; [exact As|contradiction].
    - specialize (Hmin _ _ _ _ Nst). unfold ascending in As. cbn [map] in As. inversion As as [|y ys A1 A2]; subst.
      rewrite Forall_forall in A2.
      destruct (Nat.eqb (l_block l) b) eqn:K; cbn [snd] in Hi; injection Hi as <- _.
      + apply Nat.eqb_eq in K. split; [exact A1|]. intros l' Hl'. split; [now right|].
        rewrite <- K. apply A2. now apply in_map.
      + apply Nat.eqb_neq in K. split; [exact As|]. intros l' Hl'. split; [exact Hl'|].
        destruct Hl' as [<-|Hl']; [lia|]. specialize (A2 (l_block l') (in_map l_block _ _ Hl')). lia. }
  assert (Hs' : Forall (fun c => ascending (fst c)) st').
  { apply Forall_forall. intros [ls s] Hin. apply In_nth_error in Hin. destruct Hin as [i Hi].
    destruct (St i ls s Hi) as [_ [_ [_ [A _]]]]. exact A. }
  destruct (IH st' rest Hs' Hr) as [A B].
  assert (B' : forall br, In br rest -> (b < br_block br)%nat
     /\ exists i ls s l, nth_error st i = Some (ls, s) /\ In l ls /\ l_block l = br_block br).
  { intros br Hb. destruct (B br Hb) as [i [ls [s [l [Hi [Hl El]]]]]].
    destruct (St i ls s Hi) as [ls0 [s0 [H0 [_ H1]]]]. destruct (H1 l Hl) as [H2 H3]. split; [lia|].
    exists i, ls0, s0, l. auto. }
  destruct (existsb _ _) in H; subst plan.
  - split.
    + cbn [map br_block]. constructor; [exact A|]. apply Forall_forall. intros x Hx. apply in_map_iff in Hx.
      destruct Hx as [br [<- Hb]]. apply B'. exact Hb.
    + intros br [<-|Hb]; [|apply B'; exact Hb]. cbn [br_block].
      destruct Hex as [i [l [ls [s [Hi El]]]]]. exists i, (l :: ls), s, l. split; [exact Hi|]. split; [now left|exact El].
  - split; [exact A|]. intros br Hb. apply B'. exact Hb.
Qed.

(** ** Samples of needed locations *)
Section Samples.
Context (f : list byte) (t : sty) (bs : list dblock).
Local Notation V := (carrier t).

(** Samples of channel [i] of a block. *)
Definition chan_samples (b : dblock) (i : nat) : list V :=
  match nth_error (b_chans b) i with
  | Some m => block_samples f t b i (rm_n m * whole_chunks b)
  | None => []
  end.
Definition nsamp (x : nat * nat * N) : list V :=
  let '(j, i, s) := x in
  match nth_error bs j with Some b => skipn (N.to_nat s) (chan_samples b i) | None => [] end.

Lemma block_samples_length b i n : length (block_samples f t b i n) = N.to_nat n.
Proof. unfold block_samples. now rewrite map_length, seq_length. Qed.
Lemma located_samples l : located bs l ->
  loc_samples f t bs l = nsamp (l_block l, l_chan l, 0) /\ length (loc_samples f t bs l) = N.to_nat (l_n l).
Proof.
  intros [b [m [B [M L]]]]. unfold loc_samples, nsamp, chan_samples. rewrite B, M, L. cbn [skipn N.to_nat].
  split; [reflexivity|]. apply block_samples_length.
Qed.
Lemma samples_length ls : Forall (located bs) ls ->
  length (samples_at f t bs ls) = N.to_nat (fold_right (fun l a => l_n l + a) 0 ls).
Proof.
  unfold samples_at. induction 1 as [|l ls Hl F IH]; [reflexivity|]. cbn [map concat fold_right].
  rewrite app_length, IH. destruct (located_samples l Hl) as [_ L]. rewrite L. lia.
Qed.

Lemma needed_samples ls : Forall (located bs) ls -> forall s,
  concat (map nsamp (needed ls s)) = skipn (N.to_nat s) (samples_at f t bs ls).
Proof.
  unfold samples_at. induction 1 as [|l ls Hl F IH]; intros s; cbn [needed map concat]; [now rewrite skipn_nil|].
  destruct (located_samples l Hl) as [E1 L1]. rewrite skipn_app, L1. destruct (l_n l <=? s) eqn:Q.
  - rewrite IH. rewrite (skipn_all2 (loc_samples f t bs l)) by lia. cbn [app]. f_equal. lia.
  - cbn [map concat]. rewrite IH. replace (N.to_nat s - N.to_nat (l_n l))%nat with 0%nat by lia.
    cbn [skipn N.to_nat]. f_equal. rewrite E1. unfold nsamp. destruct (nth_error bs (l_block l)); [|now rewrite skipn_nil].
    reflexivity.
Qed.
End Samples.

Lemma whole_chunks_of b c : Forall (fun m => 0 < width (rm_type m)) (b_chans b) -> 0 < sub_bytes (b_chans b) ->
  chunks b c -> whole_chunks b = c.
Proof.
  intros W P L. unfold whole_chunks.
  assert (Eq : chunk_bytes (b_chans b) = sub_bytes (b_chans b)).
  { clear L P. unfold chunk_bytes, sub_bytes. induction W as [|m ms Hm W IH]; [reflexivity|]. cbn [fold_right].
    now rewrite IH, width_dtype. }
  rewrite Eq. replace (sub_bytes (b_chans b) =? 0) with false by lia. unfold chunks in L.
  destruct (b_layout b); [rewrite L; apply N.div_mul; lia|exact L].
Qed.
Lemma sub_bytes_pos n ms : 0 < n -> ms <> [] -> Forall (fun m => rm_n m = n /\ 0 < width (rm_type m)) ms -> 0 < sub_bytes ms.
Proof.
  intros Hn Hne F. destruct ms as [|m ms]; [congruence|]. inversion F as [|y l [A B] F']; subst.
  unfold sub_bytes. cbn [fold_right]. nia.
Qed.

(** ** Executing a plan *)
Lemma nth_advance k : forall plans prs i p pr, nth_error plans i = Some p -> nth_error prs i = Some pr ->
  nth_error (advance plans k prs) i =
  Some (match p with Some _ => mkPr (pr_read pr + k) (pr_target pr) | None => pr end).
Proof.
  induction plans as [|p0 plans IH]; intros prs i p pr Hp Hpr; [destruct i; discriminate|].
  destruct prs as [|pr0 prs]; [destruct i; discriminate|]. destruct i as [|i]; cbn [advance nth_error] in *.
  - injection Hp as ->. injection Hpr as ->. destruct p; reflexivity.
  - eauto.
Qed.
Lemma advance_length k : forall plans prs, length (advance plans k prs) = length prs.
Proof.
  induction plans as [|p plans IH]; intros [|pr prs]; cbn [advance length]; try reflexivity. now rewrite IH.
Qed.

Definition room_of (pr : progress) : nat := N.to_nat (pr_target pr - pr_read pr).

Lemma in_requests q : forall plans prs, In q (block_requests plans prs) ->
  exists i c s pr, nth_error plans i = Some (Some (c, s)) /\ nth_error prs i = Some pr
    /\ complete pr = false /\ q = mkReq c (room_of pr) s.
Proof.
  induction plans as [|p plans IH]; intros [|pr prs] H; cbn [block_requests] in H; try contradiction.
  assert (Rest : In q (block_requests plans prs) -> exists i c s pr0, nth_error (p :: plans) i = Some (Some (c, s))
     /\ nth_error (pr :: prs) i = Some pr0 /\ complete pr0 = false /\ q = mkReq c (room_of pr0) s).
  { intros X. destruct (IH prs X) as [i [c [s [pr0 [A [B [C D]]]]]]]. exists (S i), c, s, pr0. auto. }
  destruct p as [[c s]|]; [|auto]. destruct (complete pr) eqn:K; [auto|].
  destruct H as [<-|H]; [|auto]. exists 0%nat, c, s, pr. auto.
Qed.
Lemma requests_in : forall plans prs i c s pr, nth_error plans i = Some (Some (c, s)) -> nth_error prs i = Some pr ->
  complete pr = false -> In (mkReq c (room_of pr) s) (block_requests plans prs).
Proof.
  induction plans as [|p plans IH]; intros [|pr0 prs] i c s pr Hp Hpr K; try (destruct i; discriminate).
  destruct i as [|i]; cbn [nth_error block_requests] in *.
  - injection Hp as ->. injection Hpr as ->. rewrite K. now left.
  - specialize (IH _ _ _ _ _ Hp Hpr K). destruct p as [[c' s']|]; [|auto].
    destruct (complete pr0); [auto|now right].
Qed.

(** No two channels are the same channel of the block. *)
Definition distinct_chans (plans : list (option (nat * N))) : Prop :=
  forall i j c s s', nth_error plans i = Some (Some (c, s)) -> nth_error plans j = Some (Some (c, s')) -> i = j.

Lemma distinct_nodup : forall plans prs, distinct_chans plans -> NoDup (map rq_chan (block_requests plans prs)).
Proof.
  induction plans as [|p plans IH]; intros [|pr prs] D; cbn [block_requests map]; try constructor.
  assert (D' : distinct_chans plans).
  { intros i j c s s' Hi Hj. assert (X : S i = S j) by (eapply D; cbn [nth_error]; eauto). congruence. }
  destruct p as [[c s]|]; [|auto]. destruct (complete pr); [auto|]. cbn [map rq_chan]. constructor; [|auto].
  intros H. apply in_map_iff in H. destruct H as [q [Hq Hin]]. apply in_requests in Hin.
  destruct Hin as [i [c' [s' [pr' [Hi [_ [_ ->]]]]]]]. cbn [rq_chan] in Hq. subst c'.
  assert (X : 0%nat = S i) by (eapply D; cbn [nth_error]; eauto). discriminate.
Qed.

Lemma nth_store {A} (G : req -> list A) : forall plans prs outs i p pr o,
  nth_error plans i = Some p -> nth_error prs i = Some pr -> nth_error outs i = Some o ->
  nth_error (store plans prs outs (map G (block_requests plans prs))) i =
  Some (match p with
        | Some (c, s) => if complete pr then o else splice o (pr_read pr) (G (mkReq c (room_of pr) s))
        | None => o
        end).
Proof.
  induction plans as [|p0 plans IH]; intros prs outs i p pr o Hp Hpr Ho; [destruct i; discriminate|].
  destruct prs as [|pr0 prs]; [destruct i; discriminate|]. destruct outs as [|o0 outs]; [destruct i; discriminate|].
  cbn [store block_requests]. destruct p0 as [[c0 s0]|].
  - destruct (complete pr0) eqn:K.
    + destruct i as [|i]; cbn [nth_error] in *.
      * injection Hp as <-. injection Hpr as <-. injection Ho as <-. now rewrite K.
      * now apply IH.
    + cbn [map]. destruct i as [|i]; cbn [nth_error] in *.
      * injection Hp as <-. injection Hpr as <-. injection Ho as <-. now rewrite K.
      * now apply IH.
  - destruct i as [|i]; cbn [nth_error] in *.
    + injection Hp as <-. injection Hpr as <-. injection Ho as <-. reflexivity.
    + now apply IH.
Qed.
Lemma store_length {A} : forall plans prs (outs got : list (list A)), length (store plans prs outs got) = length outs.
Proof.
  induction plans as [|p plans IH]; intros [|pr prs] [|o outs] got; cbn [store length]; try reflexivity.
  destruct p as [x|]; [|cbn [length]; now rewrite IH]. destruct (complete pr); [cbn [length]; now rewrite IH|].
  destruct got; cbn [length]; [reflexivity|now rewrite IH].
Qed.

Lemma overlay_splice {A} (o0 D : list A) r k : (r + k <= length o0)%nat -> (r + k <= length D)%nat ->
  splice (overlay o0 (firstn r D)) (N.of_nat r) (firstn k (skipn r D)) = overlay o0 (firstn (r + k) D).
Proof.
  intros H1 H2. unfold splice, overlay. rewrite Nat2N.id, !firstn_length, skipn_length.
  replace (Nat.min r (length D)) with r by lia. replace (Nat.min k (length D - r)) with k by lia.
  replace (Nat.min (r + k) (length D)) with (r + k)%nat by lia.
  assert (Lr : length (firstn r D) = r) by (rewrite firstn_length; lia).
  assert (F1 : firstn r (firstn r D ++ skipn r o0) = firstn r D).
  { rewrite <- Lr at 1. apply firstn_app_exact. }
  assert (F2 : skipn (r + k) (firstn r D ++ skipn r o0) = skipn (r + k) o0).
  { rewrite skipn_app, Lr. rewrite skipn_all2 by lia. cbn [app]. rewrite skipn_skipn. f_equal. lia. }
  rewrite F1, F2, app_assoc. f_equal.
  rewrite <- (firstn_skipn r (firstn (r + k) D)). rewrite firstn_firstn, skipn_firstn_comm.
  replace (Nat.min r (r + k)) with r by lia. replace (r + k - r)%nat with k by lia. reflexivity.
Qed.

Section Execute.
Context (E : env) (f : list byte) (t : sty) (ix : index).
Hypothesis (Fx : fixed t) (Ad : addressable E f).
Local Notation V := (carrier t).
Local Notation bs := (ix_blocks ix).

(** The block of [br] is whole, stores type [t] in the planned channels, and
    all of them skip [s] samples. *)
Definition readable_block (br : blockread) (b : dblock) (n c s : N) : Prop :=
  nth_error bs (br_block br) = Some b
  /\ 0 < n /\ 0 < c /\ b_chans b <> []
  /\ Forall (fun m => rm_n m = n /\ 0 < width (rm_type m)) (b_chans b)
  /\ chunks b c /\ b_start b + c * sub_bytes (b_chans b) <= lenN f
  /\ s <= c * n
  /\ (forall i ci si, nth_error (br_chans br) i = Some (Some (ci, si)) ->
        si = s /\ exists m, nth_error (b_chans b) ci = Some m /\ supports t (rm_type m) = true)
  /\ (any_skip (br_chans br) = false -> s = 0)
  /\ distinct_chans (br_chans br).

(** Whatever count is reported, every channel advances by what it received. *)
Fixpoint fair_run (plan : list blockread) (prs : list progress) : Prop :=
  match plan with
  | [] => True
  | br :: rest =>
    exists b n c s, readable_block br b n c s
      /\ length (br_chans br) = length prs
      /\ forall k, counted (b_layout b) (block_requests (br_chans br) prs) (c * n - s) k ->
         (forall q, In q (block_requests (br_chans br) prs) -> N.of_nat (rq_room q) <= k \/ k = c * n - s)
         /\ (forallb complete (advance (br_chans br) k prs) = false -> fair_run rest (advance (br_chans br) k prs))
  end.

(** State of a channel whose samples from the start on are [D] and whose buffer
    was [o0]. *)
Definition inv1 (D o0 : list V) (nd : list (nat * nat * N)) (pr : progress) (o : list V) : Prop :=
  pr_target pr = lenN o0
  /\ ((complete pr = true /\ lenN o0 <= lenN D /\ o = overlay o0 (firstn (length o0) D))
      \/ (complete pr = false /\ pr_read pr <= lenN D
          /\ o = overlay o0 (firstn (N.to_nat (pr_read pr)) D)
          /\ skipn (N.to_nat (pr_read pr)) D = concat (map (nsamp f t bs) nd))).

Lemma inv1_end D o0 pr o : inv1 D o0 [] pr o -> o = overlay o0 (firstn (length o0) D).
Proof.
  intros [T [[_ [_ H]]|[C [R [H S]]]]]; [exact H|]. rewrite H. f_equal.
  cbn [map concat] in S. apply (f_equal (@length _)) in S. rewrite skipn_length in S. cbn [length] in S.
  unfold complete in C. unfold lenN in *. rewrite !firstn_all2 by lia. reflexivity.
Qed.

Lemma counted_le lay reqs avail k : counted lay reqs avail k -> k <= avail.
Proof.
  intros [Z H]. destruct reqs as [|q reqs].
  - rewrite Z by reflexivity. apply N.le_0_l.
  - destruct lay; destruct H as [q' [_ [_ ->]]]; try discriminate; lia.
Qed.

Lemma execute_ok (data outs0 : list (list V)) : length data = length outs0 -> forall plan prs outs,
  fair_run plan prs -> length prs = length outs0 -> length outs = length outs0 ->
  (forall i D o0 pr o, nth_error data i = Some D -> nth_error outs0 i = Some o0 -> nth_error prs i = Some pr ->
     nth_error outs i = Some o -> inv1 D o0 (planned i plan) pr o) ->
  exists outs', execute E f t ix plan prs outs = (outs', Ok tt) /\ length outs' = length outs0
    /\ forall i D o0, nth_error data i = Some D -> nth_error outs0 i = Some o0 ->
         nth_error outs' i = Some (overlay o0 (firstn (length o0) D)).
Proof.
  intros Ld. induction plan as [|br rest IH]; intros prs outs Fr Lp Lo HI.
  - exists outs. cbn [execute]. split; [reflexivity|]. split; [exact Lo|]. intros i D o0 HD H0.
    assert (Hi : (i < length outs0)%nat) by (apply nth_error_Some; congruence).
    destruct (nth_error prs i) as [pr|] eqn:Hpr; [|apply nth_error_None in Hpr; lia].
    destruct (nth_error outs i) as [o|] eqn:Ho; [|apply nth_error_None in Ho; lia].
    f_equal. eapply inv1_end. exact (HI i D o0 pr o HD H0 Hpr Ho).
  - destruct Fr as [b [n [c [s [Rb [Lbr Fk]]]]]].
    destruct Rb as [Bb [Hn [Hc [Hne [Hu [Hbl [Hin [Hs [Hch [Hsk Hd]]]]]]]]]].
    set (reqs := block_requests (br_chans br) prs) in *.
    assert (Hv : Forall (valid_req t (b_chans b)) reqs).
    { apply Forall_forall. intros q Hq. apply in_requests in Hq. destruct Hq as [i [ci [si [pr [Hi [_ [_ ->]]]]]]].
      destruct (Hch _ _ _ Hi) as [_ [m Hm]]. exists m. exact Hm. }
    assert (Hss : Forall (fun q => rq_skip q = s) reqs).
    { apply Forall_forall. intros q Hq. apply in_requests in Hq. destruct Hq as [i [ci [si [pr [Hi [_ [_ ->]]]]]]].
      destruct (Hch _ _ _ Hi) as [Hx _]. exact Hx. }
    destruct (block_ok E f t b reqs s n c Fx Ad Hn Hc Hne Hu Hbl Hin Hv (distinct_nodup _ _ Hd) Hs)
      as [k [Ck [_ [R0 Rs]]]].
    set (G := fun q => firstn (rq_room q) (skipn (N.to_nat s) (block_samples f t b (rq_chan q) (c * n)))) in *.
    cbn [execute]. unfold get_data_block. rewrite Bb.
    assert (Rd : (if any_skip (br_chans br) then block_read_skips E f t b reqs else block_read E f t b reqs)
                 = (map G reqs, Ok k)).
    { destruct (any_skip (br_chans br)) eqn:As; [apply Rs; exact Hss|apply R0; now apply Hsk]. }
    fold reqs. rewrite Rd.
    destruct (Fk k Ck) as [Fair Frest]. pose proof (counted_le _ _ _ _ Ck) as Kle.
    set (prs' := advance (br_chans br) k prs) in *.
    set (outs' := store (br_chans br) prs outs (map G reqs)).
    assert (Lp' : length prs' = length outs0) by (unfold prs'; now rewrite advance_length).
    assert (Lo' : length outs' = length outs0) by (unfold outs'; now rewrite store_length).
    assert (HI' : forall i D o0 pr' o', nth_error data i = Some D -> nth_error outs0 i = Some o0 ->
        nth_error prs' i = Some pr' -> nth_error outs' i = Some o' -> inv1 D o0 (planned i rest) pr' o').
    { intros i D o0 pr' o' HD H0 Hpr' Ho'.
      assert (Hi : (i < length outs0)%nat) by (apply nth_error_Some; congruence).
      destruct (nth_error prs i) as [pr|] eqn:Hpr; [|apply nth_error_None in Hpr; lia].
      destruct (nth_error outs i) as [o|] eqn:Ho; [|apply nth_error_None in Ho; lia].
      destruct (nth_error (br_chans br) i) as [p|] eqn:Hp; [|apply nth_error_None in Hp; lia].
      unfold prs' in Hpr'. rewrite (nth_advance k _ _ _ _ _ Hp Hpr) in Hpr'. injection Hpr' as <-.
      unfold outs', reqs in Ho'. rewrite (nth_store G _ _ _ _ _ _ _ Hp Hpr Ho) in Ho'. injection Ho' as <-.
      specialize (HI i D o0 pr o HD H0 Hpr Ho). unfold planned in HI. cbn [flat_map] in HI.
      fold (planned i rest) in HI. rewrite Hp in HI.
      destruct p as [[ci si]|]; [|exact HI].
      destruct (Hch _ _ _ Hp) as [-> [m [Hm Sm]]].
      destruct HI as [T [[C [Le Eo]]|[C [Rle [Eo Sk]]]]].
      + rewrite C. split; [exact T|]. left. split; [|auto]. unfold complete in *. cbn [pr_read pr_target]. lia.
      + rewrite C. pose proof C as C'. unfold complete in C'.
        cbn [map concat app] in Sk.
        assert (Nb : nsamp f t bs (br_block br, ci, s) = skipn (N.to_nat s) (block_samples f t b ci (c * n))).
        { unfold nsamp, chan_samples. rewrite Bb, Hm. f_equal. f_equal.
          rewrite (whole_chunks_of b c); [|eapply Forall_impl; [|exact Hu]; cbv beta; tauto|apply (sub_bytes_pos n); assumption|exact Hbl].
          rewrite Forall_forall in Hu. rewrite (proj1 (Hu m (nth_error_In _ _ Hm))). lia. }
        set (blk := skipn (N.to_nat s) (block_samples f t b ci (c * n))) in *.
        assert (Lb : length blk = N.to_nat (c * n - s)).
        { unfold blk. rewrite skipn_length, block_samples_length. lia. }
        rewrite Nb in Sk.
        set (r := N.to_nat (pr_read pr)) in *.
        assert (Er : pr_read pr = N.of_nat r) by lia.
        assert (LD : length D = (r + (length blk + length (concat (map (nsamp f t bs) (planned i rest)))))%nat).
        { apply (f_equal (@length _)) in Sk. rewrite skipn_length, app_length in Sk. unfold lenN in Rle. lia. }
        assert (Qin : In (mkReq ci (room_of pr) s) reqs) by (eapply requests_in; eauto).
        specialize (Fair _ Qin). cbn [rq_room] in Fair.
        assert (Rm : room_of pr = (length o0 - r)%nat) by (unfold room_of; rewrite T; unfold lenN; lia).
        assert (Kl : N.of_nat (length o0) > N.of_nat r) by (rewrite T in C'; unfold lenN in C'; lia).
        assert (Go : G (mkReq ci (room_of pr) s) = firstn (Nat.min (length o0 - r) (length blk)) (skipn r D)).
        { unfold G. cbn [rq_room rq_chan]. rewrite Rm, Sk. fold blk.
          rewrite firstn_app. replace (Nat.min (length o0 - r) (length blk) - length blk)%nat with 0%nat by lia.
          cbn [firstn]. rewrite app_nil_r. destruct (Nat.le_gt_cases (length o0 - r) (length blk)).
          - f_equal. lia.
          - rewrite !firstn_all2 by lia. reflexivity. }
        rewrite Go, Eo, Er, overlay_splice by lia.
        split; [exact T|]. cbn [pr_read pr_target]. unfold complete. cbn [pr_read pr_target].
        destruct (pr_target pr <=? N.of_nat r + k) eqn:Q.
        * left. split; [reflexivity|]. rewrite T in Q. unfold lenN in *.
          split; [lia|]. do 2 f_equal. lia.
        * right. rewrite T in Q. unfold lenN in *.
          assert (Kk : k = c * n - s) by (destruct Fair as [Fa|Fa]; [exfalso; rewrite Rm in Fa; lia|exact Fa]).
          assert (Ek : N.to_nat (N.of_nat r + k) = (r + length blk)%nat) by lia.
          rewrite Ek. split; [reflexivity|]. split; [lia|]. split; [do 2 f_equal; lia|].
          rewrite <- skipn_skipn, Sk, skipn_app_exact. reflexivity. }
    destruct (forallb complete prs') eqn:Fc.
    + exists outs'. split; [reflexivity|]. split; [exact Lo'|]. intros i D o0 HD H0.
      assert (Hi : (i < length outs0)%nat) by (apply nth_error_Some; congruence).
      destruct (nth_error prs' i) as [pr|] eqn:Hpr; [|apply nth_error_None in Hpr; lia].
      destruct (nth_error outs' i) as [o|] eqn:Ho; [|apply nth_error_None in Ho; lia].
      destruct (HI' i D o0 pr o HD H0 Hpr Ho) as [_ [[_ [_ X]]|[C _]]]; [now rewrite X|].
      rewrite forallb_forall in Fc. rewrite (Fc pr (nth_error_In _ _ Hpr)) in C. discriminate.
    + apply (IH prs' outs' (Frest eq_refl) Lp' Lo' HI').
Qed.
End Execute.
