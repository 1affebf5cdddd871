(** * Claim C61: reading a channel from blocks with different numbers of values
      per channel *)
From Coq Require Import Strings.String Sorting.Sorted.
From Verif Require Import Base Lib DataTypes MetaData Maps DataBlock Index RawData ChannelReader TdmsFile
  SpecIndex SpecSession SpecRead SpecUneven Block_proofs Request_proofs Plan_proofs Read_proofs Session_proofs
  Uneven_proofs Thm_Index Vectors Thm_Read Thm_Multi.
Close Scope string_scope.

Lemma loose_planned E H F t p start plan :
  session E H F -> loosely_stored (tf_bytes F) t H p ->
  Forall (fun br => length (br_chans br) = 1%nat /\ exists c s, In (Some (c, s)) (br_chans br)) plan ->
  planned 0 plan = needed (locs_after H p) start ->
  loose_plan (tf_bytes F) t (tf_ix F) plan.
Proof.
  intros Se St Sh Hn. destruct (C14_incremental E H F Se) as [_ [_ [_ [Hb _]]]].
  apply Forall_forall. intros br Hbr. rewrite Forall_forall in Sh. destruct (Sh br Hbr) as [Ln [c [s Hc]]].
  destruct (br_chans br) as [|x [|]] eqn:Ec; try discriminate. destruct Hc as [->|[]].
  pose proof (planned_in 0 plan br c s Hbr ltac:(rewrite Ec; reflexivity)) as Pl. rewrite Hn in Pl.
  apply needed_in in Pl. destruct Pl as [l [Hl [Lb [Lc Lt]]]].
  unfold loosely_stored in St. rewrite Forall_forall in St. destruct (St l Hl) as [b [m [B1 [W [M T]]]]].
  pose proof (locs_located H p) as Lo. rewrite Forall_forall in Lo. destruct (Lo l Hl) as [b' [m' [B2 [M2 L2]]]].
  rewrite B1 in B2. injection B2 as <-. rewrite M in M2. injection M2 as <-.
  exists b, c, s, m. rewrite Hb. rewrite <- Lb, <- Lc. split; [now rewrite Lc|]. do 3 (split; [assumption|]).
  split; [now apply stored_as_supports|lia].
Qed.

(** ** C61 The exact result of a single-channel read *)
Theorem C61_uneven_window : forall E H F t p start out,
  session E H F -> fixed t -> addressable E (tf_bytes F) ->
  mentioned (all_objs H) p -> loosely_stored (tf_bytes F) t H p ->
  read_channel_from E F t p start out
  = (overlay out (firstn (length out) (delivered (tf_bytes F) t (blocks_after H) (locs_after H p) start)), Ok tt).
Proof.
  intros E H F t p start out Se Fx Ad M St. unfold read_channel_from.
  destruct (session_locs E H F p Se M) as [-> _].
  assert (Mf : Forall (mentioned (all_objs H)) [p]) by (repeat constructor; exact M).
  destruct (plan_ok E H F Se [p] start Mf) as [plan [Hp [Ps [Sh Hn]]]]. cbn [map length repeat] in Hp. rewrite Hp.
  specialize (Hn 0%nat p eq_refl). cbn [length] in Sh.
  destruct (C14_incremental E H F Se) as [_ [_ [_ [Hb _]]]].
  unfold execute_read_plan. cbn [map].
  pose proof (execute_single E (tf_bytes F) t (tf_ix F) Fx Ad out
    (delivered (tf_bytes F) t (blocks_after H) (locs_after H p) start) plan 0
    (loose_planned E H F t p start plan Se St Sh Hn) (Nat.le_0_l _) (Nat.le_0_l _)) as X.
  change (N.of_nat 0) with 0 in X. cbn [firstn skipn] in X. unfold overlay at 1 in X. cbn [app length skipn] in X. rewrite X; [reflexivity|].
  rewrite Hn. unfold delivered. f_equal. apply map_ext. intros [[j i] s]. unfold dsamp. rewrite Hb.
  destruct (nth_error (blocks_after H) j) as [b|]; reflexivity.
Qed.

(** The window is the requested one if the first block read passes over exactly
    the samples that it should. *)
Definition straight (H : list segment) (p : str) (start : N) : Prop :=
  forall j i s b, hd_error (needed (locs_after H p) start) = Some (j, i, s) ->
    nth_error (blocks_after H) j = Some b -> passed_over b i s = s.

Lemma passed_over_0 b i : passed_over b i 0 = 0.
Proof.
  unfold passed_over. destruct (b_layout b); [reflexivity|]. destruct (b_chans b) as [|m0 ms]; [reflexivity|].
  destruct (nth_error (m0 :: ms) i) as [m|]; [|reflexivity].
  destruct (N.eq_dec (rm_n m0) 0) as [->|Z]; [cbn; lia|]. rewrite N.div_0_l, N.mod_0_l by exact Z. lia.
Qed.
Lemma delivered_nsamp f t bs ls start :
  (forall j i s b, hd_error (needed ls start) = Some (j, i, s) -> nth_error bs j = Some b -> passed_over b i s = s) ->
  delivered f t bs ls start = concat (map (nsamp f t bs) (needed ls start)).
Proof.
  unfold delivered. intros S0. f_equal.
  assert (One : forall j i s, (forall b, nth_error bs j = Some b -> passed_over b i s = s) ->
    match nth_error bs j with
     | Some b => match nth_error (b_chans b) i with
                 | Some m => skipn (N.to_nat (passed_over b i s)) (block_samples f t b i (rm_n m * whole_chunks b))
                 | None => [] end
     | None => [] end = nsamp f t bs (j, i, s)).
  { intros j i s Q. unfold nsamp, chan_samples. destruct (nth_error bs j) as [b|]; [|reflexivity].
    rewrite (Q b eq_refl). destruct (nth_error (b_chans b) i); [reflexivity|now rewrite skipn_nil]. }
  assert (Rest : forall ls s j i k, In (j, i, k) (tl (needed ls s)) -> k = 0).
  { clear. induction ls as [|l ls IH]; intros s j i k Hin; cbn [needed tl] in Hin; [contradiction|].
    destruct (l_n l <=? s); [eauto|]. cbn [tl] in Hin. eapply needed_0; eauto. }
  specialize (Rest ls start). destruct (needed ls start) as [|[[j i] s] r]; [reflexivity|]. cbn [map tl hd_error] in *. f_equal.
  - apply One. intros b Hb. now apply (S0 j i s b).
  - apply map_ext_in. intros [[j' i'] s'] Hin. apply One. intros b _. rewrite (Rest _ _ _ Hin). apply passed_over_0.
Qed.

Theorem C61_straight : forall E H F t p start out,
  session E H F -> fixed t -> addressable E (tf_bytes F) ->
  mentioned (all_objs H) p -> loosely_stored (tf_bytes F) t H p -> straight H p start ->
  read_channel_from E F t p start out
  = (overlay out (firstn (length out) (skipn (N.to_nat start) (samples_after (tf_bytes F) t H p))), Ok tt).
Proof.
  intros E H F t p start out Se Fx Ad M St Sr. rewrite (C61_uneven_window E H F) by assumption.
  rewrite (delivered_nsamp _ _ _ _ _ Sr), needed_samples by apply locs_located. reflexivity.
Qed.

(** Reads from the start, reads from the first sample of a block, and reads
    that start in a block whose first channel has as many values as this one,
    are such reads. *)
Definition before (ls : list loc) : N := fold_right (fun l a => l_n l + a) 0 ls.
Theorem C61_block_start : forall H p ls1 ls2, locs_after H p = ls1 ++ ls2 -> straight H p (before ls1).
Proof.
  intros H p ls1 ls2 Eq j i s b Hd _. rewrite Eq in Hd. clear Eq.
  assert (X : needed (ls1 ++ ls2) (before ls1) = needed ls2 0).
  { clear Hd. induction ls1 as [|l ls1 IH]; [reflexivity|]. cbn [app needed before fold_right]. fold (before ls1).
    replace (l_n l <=? l_n l + before ls1) with true by lia. replace (l_n l + before ls1 - l_n l) with (before ls1) by lia. exact IH. }
  rewrite X in Hd. destruct (needed ls2 0) as [|x r] eqn:Nd; [discriminate|]. cbn [hd_error] in Hd. injection Hd as ->.
  assert (s = 0) by (eapply (needed_0 ls2); rewrite Nd; left; reflexivity). subst s. apply passed_over_0.
Qed.
Theorem C61_from_zero : forall H p, straight H p 0.
Proof. intros H p. apply (C61_block_start H p [] _ eq_refl). Qed.
Theorem C61_even_block : forall H p start,
  (forall j i s b m0 m ms, hd_error (needed (locs_after H p) start) = Some (j, i, s) ->
     nth_error (blocks_after H) j = Some b -> b_layout b = Contigious ->
     b_chans b = m0 :: ms -> nth_error (b_chans b) i = Some m -> 0 < rm_n m0 /\ rm_n m = rm_n m0) ->
  straight H p start.
Proof.
  intros H p start Q j i s b Hd Hb. unfold passed_over. destruct (b_layout b) eqn:Lay; [reflexivity|].
  destruct (b_chans b) as [|m0 ms] eqn:Eb; [reflexivity|]. destruct (nth_error (m0 :: ms) i) as [m|] eqn:Hm; [|reflexivity].
  destruct (Q j i s b m0 m ms Hd Hb Lay Eb ltac:(now rewrite Eb)) as [Pz ->].
  pose proof (N.mod_lt s (rm_n m0) ltac:(lia)). pose proof (N.div_mod s (rm_n m0) ltac:(lia)). lia.
Qed.

(** The condition is not only sufficient: a read that is not straight delivers
    a different number of samples when the buffer has room for all of them. *)
Theorem C61_count : forall E H F t p start out j i s b m,
  session E H F -> fixed t -> addressable E (tf_bytes F) ->
  mentioned (all_objs H) p -> loosely_stored (tf_bytes F) t H p ->
  hd_error (needed (locs_after H p) start) = Some (j, i, s) ->
  nth_error (blocks_after H) j = Some b -> nth_error (b_chans b) i = Some m ->
  passed_over b i s <> s ->
  exists got, read_channel_from E F t p start out = (overlay out (firstn (length out) got), Ok tt)
    /\ lenN got <> lenN (skipn (N.to_nat start) (samples_after (tf_bytes F) t H p)).
Proof.
  intros E H F t p start out j i s b m Se Fx Ad M St Hd Hb Hm Ne.
  exists (delivered (tf_bytes F) t (blocks_after H) (locs_after H p) start).
  split; [now apply C61_uneven_window|].
  assert (Sb : s < rm_n m * whole_chunks b).
  { destruct (needed (locs_after H p) start) as [|x r] eqn:Nd; [discriminate|]. injection Hd as ->.
    assert (Hin : In (j, i, s) (needed (locs_after H p) start)) by (rewrite Nd; now left).
    apply needed_in in Hin. destruct Hin as [l [Hl [Lb [Lc Lt]]]].
    pose proof (locs_located H p) as Lo. rewrite Forall_forall in Lo. destruct (Lo l Hl) as [b' [m' [B2 [M2 L2]]]].
    rewrite Lb, Hb in B2. injection B2 as <-. rewrite Lc, Hm in M2. injection M2 as <-. lia. }
  unfold samples_after. rewrite <- (needed_samples (tf_bytes F) t (blocks_after H) (locs_after H p) (locs_located H p) start).
  unfold delivered.
  assert (Rest : forall ls s j i k, In (j, i, k) (tl (needed ls s)) -> k = 0).
  { clear. induction ls as [|l ls IH]; intros s j i k Hin; cbn [needed tl] in Hin; [contradiction|].
    destruct (l_n l <=? s); [eauto|]. cbn [tl] in Hin. eapply needed_0; eauto. }
  specialize (Rest (locs_after H p) start).
  destruct (needed (locs_after H p) start) as [|[[j' i'] s'] r]; [discriminate|]. cbn [hd_error tl] in *. injection Hd as -> -> ->.
  cbn [map concat]. rewrite Hb, Hm. unfold nsamp at 1, chan_samples at 1. rewrite Hb, Hm.
  assert (Eq : map (fun x => let '(j, i, s) := x in
     match nth_error (blocks_after H) j with
     | Some b => match nth_error (b_chans b) i with
                 | Some m => skipn (N.to_nat (passed_over b i s)) (block_samples (tf_bytes F) t b i (rm_n m * whole_chunks b))
                 | None => [] end
     | None => [] end) r = map (nsamp (tf_bytes F) t (blocks_after H)) r).
  { apply map_ext_in. intros [[j' i'] s'] Hin. rewrite (Rest _ _ _ Hin).
    unfold nsamp, chan_samples. destruct (nth_error (blocks_after H) j') as [b'|]; [|reflexivity].
    rewrite passed_over_0. now destruct (nth_error (b_chans b') i'). }
  rewrite Eq. unfold lenN. rewrite !app_length, !skipn_length, !block_samples_length. lia.
Qed.

(** A test for the hypothesis on concrete files. *)
Definition loose_check (len : N) (b : dblock) : bool :=
  match b_layout b with
  | Interleaved => whole_check len b
  | Contigious =>
    match b_chans b with
    | [] => false
    | m0 :: _ =>
      let c := b_len b / sub_bytes (b_chans b) in
      (0 <? rm_n m0) && (0 <? c) && forallb (fun m => 0 <? width (rm_type m)) (b_chans b)
      && (b_start b + c * sub_bytes (b_chans b) <=? len)
    end
  end.
Lemma loose_check_ok f b : loose_check (lenN f) b = true -> loose_block f b.
Proof.
  unfold loose_check, loose_block, chunks. destruct (b_layout b); [apply whole_check_ok|].
  destruct (b_chans b) as [|m0 ms] eqn:Eb; [discriminate|]. rewrite !andb_true_iff. intros [[[H1 H2] H3] H4].
  exists m0, ms, (b_len b / sub_bytes (m0 :: ms)). split; [reflexivity|].
  split; [now apply N.ltb_lt|]. split; [now apply N.ltb_lt|].
  split; [|split; [reflexivity|now apply N.leb_le]].
  apply Forall_forall. intros m Hm. rewrite forallb_forall in H3. apply N.ltb_lt. now apply H3.
Qed.
Definition loosely_check (t : sty) (len : N) (bs : list dblock) (l : loc) : bool :=
  match nth_error bs (l_block l) with
  | Some b =>
    match nth_error (b_chans b) (l_chan l) with
    | Some m => loose_check len b && existsb (dtype_eqb (rm_type m)) (stored_as t)
    | None => false
    end
  | None => false
  end.
Lemma session_loosely E f F H t p ls : tdms_new E f = Ok F -> session E H F ->
  get_positions (tf_ix F) p = Some ls ->
  forallb (loosely_check t (lenN (tf_bytes F)) (ix_blocks (tf_ix F))) ls = true ->
  mentioned (all_objs H) p /\ loosely_stored (tf_bytes F) t H p.
Proof.
  intros O Se G C. destruct (C14_incremental E H F Se) as [_ [_ [_ [Hb [Gp Gn]]]]].
  assert (M : mentioned (all_objs H) p).
  { destruct (in_dec (list_eq_dec Byte.byte_eq_dec) p (map om_path (all_objs H))) as [|Hn]; [assumption|].
    rewrite (Gn p Hn) in G. discriminate. }
  split; [exact M|]. rewrite (Gp p M) in G. injection G as <-. unfold loosely_stored. apply Forall_forall. intros l Hl.
  rewrite forallb_forall in C. specialize (C l Hl). unfold loosely_check in C. rewrite Hb in C.
  destruct (nth_error (blocks_after H) (l_block l)) as [b|]; [|discriminate].
  destruct (nth_error (b_chans b) (l_chan l)) as [m|] eqn:Hm; [|discriminate].
  apply andb_true_iff in C. destruct C as [W Tt]. exists b, m. split; [reflexivity|].
  split; [now apply loose_check_ok|]. split; [exact Hm|].
  apply existsb_exists in Tt. destruct Tt as [d [Hd Eq]]. replace (rm_type m) with d; [exact Hd|].
  destruct d, (rm_type m); reflexivity || discriminate.
Qed.

(** Two segments, the channel [y] with more values than the first channel in
    one and fewer in the other. *)
Definition uneven2_file : list byte :=
  seg_uneven 1 3 [100; 1; 2; 3; 101; 4; 5; 6]%Z ++ seg_uneven 3 2 [102; 103; 104; 7; 8; 105; 106; 107; 9; 10]%Z.
Definition uneven2_F : tfile := open_bytes dbg uneven2_file.
Example C61_case :
  (exists H, session dbg H uneven2_F /\ fixed SI32 /\ addressable dbg (tf_bytes uneven2_F)
    /\ mentioned (all_objs H) (ch "g" "y") /\ loosely_stored (tf_bytes uneven2_F) SI32 H (ch "g" "y")
    /\ straight H (ch "g" "y") 6 /\ ~ straight H (ch "g" "y") 2
    /\ samples_after (tf_bytes uneven2_F) SI32 H (ch "g" "y") = [1; 2; 3; 4; 5; 6; 7; 8; 9; 10]%Z
    /\ delivered (tf_bytes uneven2_F) SI32 (blocks_after H) (locs_after H (ch "g" "y")) 1 = [4; 5; 6; 7; 8; 9; 10]%Z
    /\ delivered (tf_bytes uneven2_F) SI32 (blocks_after H) (locs_after H (ch "g" "y")) 9 = [9; 10]%Z)
  /\ read_channel_from dbg uneven2_F SI32 (ch "g" "y") 0 [0; 0; 0; 0; 0; 0; 0]%Z = ([1; 2; 3; 4; 5; 6; 7]%Z, Ok tt)
  /\ read_channel_from dbg uneven2_F SI32 (ch "g" "y") 6 [0; 0; 0; 0; 0]%Z = ([7; 8; 9; 10; 0]%Z, Ok tt)
  /\ read_channel_from dbg uneven2_F SI32 (ch "g" "y") 1 [0; 0; 0; 0; 0]%Z = ([4; 5; 6; 7; 8]%Z, Ok tt)
  /\ read_channel_from dbg uneven2_F SI32 (ch "g" "y") 9 [0; 0; 0]%Z = ([9; 10; 0]%Z, Ok tt).
Proof.
  split; [|vm_compute; repeat split; reflexivity].
  assert (O : tdms_new dbg uneven2_file = Ok uneven2_F) by (vm_compute; reflexivity).
  destruct (C14_open_is_session _ _ _ O) as [H [_ [Se _]]]. exists H. split; [exact Se|].
  assert (G : get_positions (tf_ix uneven2_F) (ch "g" "y") = Some [mkLoc 0 1 6; mkLoc 1 1 4]) by (vm_compute; reflexivity).
  destruct (session_loosely dbg _ _ H SI32 _ _ O Se G) as [M St]; [vm_compute; reflexivity|].
  pose proof (session_locs_is _ _ _ _ _ _ O Se M G) as Lo.
  destruct (C14_incremental _ _ _ Se) as [_ [_ [_ [Hb _]]]].
  split; [repeat split; discriminate|]. split; [vm_compute; repeat split; discriminate|].
  split; [exact M|]. split; [exact St|].
  split; [apply (C61_block_start H _ [mkLoc 0 1 6] [mkLoc 1 1 4] Lo)|].
  split.
  { intros X. unfold straight in X. rewrite Lo, <- Hb in X.
    remember (ix_blocks (tf_ix uneven2_F)) as bs eqn:Ebs. vm_compute in Ebs. subst bs.
    specialize (X 0%nat 1%nat 2 _ eq_refl eq_refl). vm_compute in X. discriminate. }
  unfold samples_after. rewrite Lo, <- Hb. split; [|split]; vm_compute; reflexivity.
Qed.

Print Assumptions C61_uneven_window.
Print Assumptions C61_straight.
Print Assumptions C61_block_start.
Print Assumptions C61_from_zero.
Print Assumptions C61_even_block.
Print Assumptions C61_count.
