(** * Claim C98: reading a channel from blocks with channels of any types *)
From Coq Require Import Strings.String.
From Verif Require Import Base Lib DataTypes MetaData Maps DataBlock Index RawData ChannelReader TdmsFile
  SpecIndex SpecSession SpecRead SpecUneven SpecSeen Block_proofs Request_proofs Plan_proofs Read_proofs Session_proofs
  Uneven_proofs Seen_proofs Index_proofs Deliver_proofs Thm_Index Vectors Thm_Read Thm_Multi Thm_Uneven Thm_Extent.
Close Scope string_scope.

Lemma seen_planned E H F t p start plan :
  session E H F -> seen_stored E (tf_bytes F) t H p ->
  Forall (fun br => length (br_chans br) = 1%nat /\ exists c s, In (Some (c, s)) (br_chans br)) plan ->
  planned 0 plan = needed (locs_after H p) start ->
  seen_plan E (tf_bytes F) t (tf_ix F) plan.
Proof.
  intros Se St Sh Hn. destruct (C14_incremental E H F Se) as [_ [_ [_ [Hb _]]]].
  apply Forall_forall. intros br Hbr. rewrite Forall_forall in Sh. destruct (Sh br Hbr) as [Ln [c [s Hc]]].
  destruct (br_chans br) as [|x [|]] eqn:Ec; try discriminate. destruct Hc as [->|[]].
  pose proof (planned_in 0 plan br c s Hbr ltac:(rewrite Ec; reflexivity)) as Pl. rewrite Hn in Pl.
  apply needed_in in Pl. destruct Pl as [l [Hl [Lb [Lc Lt]]]].
  unfold seen_stored in St. rewrite Forall_forall in St. destruct (St l Hl ltac:(lia)) as [b [m [B1 W]]].
  pose proof (locs_located H p) as Lo. rewrite Forall_forall in Lo. destruct (Lo l Hl) as [b' [m' [B2 [M2 L2]]]].
  rewrite B1 in B2. injection B2 as <-. pose proof W as [M _]. rewrite M in M2. injection M2 as <-.
  exists b, c, s, m. rewrite Hb. rewrite <- Lb, <- Lc. split; [now rewrite Lc|]. do 2 (split; [assumption|]). lia.
Qed.

(** ** C98 The exact result of a single-channel read *)
Theorem C98_window : forall E H F t p start out,
  session E H F -> t <> SExt -> t <> SStr -> addressable E (tf_bytes F) ->
  mentioned (all_objs H) p -> seen_stored E (tf_bytes F) t H p -> out <> [] ->
  read_channel_from E F t p start out
  = (overlay out (firstn (length out) (seen (tf_bytes F) t (blocks_after H) (locs_after H p) start)), Ok tt).
Proof.
  intros E H F t p start out Se X1 X2 Ad M St Ne. unfold read_channel_from.
  destruct (session_locs E H F p Se M) as [-> _].
  assert (Mf : Forall (mentioned (all_objs H)) [p]) by (repeat constructor; exact M).
  destruct (plan_ok E H F Se [p] start Mf) as [plan [Hp [Ps [Sh Hn]]]]. cbn [map length repeat] in Hp. rewrite Hp.
  specialize (Hn 0%nat p eq_refl). cbn [length] in Sh.
  destruct (C14_incremental E H F Se) as [_ [_ [_ [Hb _]]]].
  unfold execute_read_plan. cbn [map].
  assert (L0 : (0 < length out)%nat) by (destruct out; [congruence|cbn [length]; lia]).
  pose proof (execute_seen E (tf_bytes F) t (tf_ix F) (conj X1 X2) Ad out
    (seen (tf_bytes F) t (blocks_after H) (locs_after H p) start) plan 0
    (seen_planned E H F t p start plan Se St Sh Hn) L0 (Nat.le_0_l _)) as X.
  change (N.of_nat 0) with 0 in X. cbn [firstn skipn] in X. unfold overlay at 1 in X. cbn [app length skipn] in X. rewrite X; [reflexivity|].
  rewrite Hn. unfold seen. f_equal. apply map_ext. intros [[j i] s]. unfold gsamp, got. rewrite Hb. reflexivity.
Qed.

(** The places where a read looks for the samples are those where they are
    exactly if there is no timestamp channel before this one in the block and,
    unless there is only one chunk or row, none after it. *)
Definition stray (b : dblock) (m : rawmeta) : Prop :=
  rm_type m = Timestamp /\ (b_layout b = Contigious -> 0 < rm_n m).
Definition steps (b : dblock) (ws : list (N * N)) : N :=
  b_len b / match b_layout b with Interleaved => in_row ws | Contigious => in_chunk ws end.

Lemma in_chunk_app a c : in_chunk (a ++ c) = in_chunk a + in_chunk c.
Proof. unfold in_chunk. induction a as [|x a IH]; cbn [app fold_right]; [reflexivity|]. rewrite IH. lia. Qed.
Lemma in_row_app a c : in_row (a ++ c) = in_row a + in_row c.
Proof. unfold in_row. induction a as [|x a IH]; cbn [app fold_right]; [reflexivity|]. rewrite IH. lia. Qed.
Lemma real_reckoned d : (d = Timestamp /\ real_width d = reckoned d + 8) \/ (d <> Timestamp /\ real_width d = reckoned d).
Proof. destruct d; (left; split; reflexivity) || (right; split; [discriminate|reflexivity]). Qed.
Lemma row_plain b ms : b_layout b = Interleaved ->
  in_row (map plain ms) <= in_row (real_widths ms)
  /\ (in_row (map plain ms) = in_row (real_widths ms) <-> Forall (fun m => ~ stray b m) ms).
Proof.
  intros Lay. unfold in_row, real_widths. induction ms as [|m ms [I1 I2]]; cbn [map fold_right plain snd].
  - split; [lia|]. split; [constructor|reflexivity].
  - destruct (real_reckoned (rm_type m)) as [[D R]|[D R]]; rewrite R.
    + split; [lia|]. split; [lia|]. intros F. inversion F as [|x l K _]; subst. exfalso. apply K. split; [exact D|congruence].
    + split; [lia|]. split.
      * intros Eq. constructor; [intros [K _]; contradiction|]. apply I2. lia.
      * intros F. inversion F as [|x l _ F']; subst. apply I2 in F'. lia.
Qed.
Lemma chunk_plain b ms : b_layout b = Contigious ->
  in_chunk (map plain ms) <= in_chunk (real_widths ms)
  /\ (in_chunk (map plain ms) = in_chunk (real_widths ms) <-> Forall (fun m => ~ stray b m) ms).
Proof.
  intros Lay. unfold in_chunk, real_widths. induction ms as [|m ms [I1 I2]]; cbn [map fold_right plain fst snd].
  - split; [lia|]. split; [constructor|reflexivity].
  - destruct (real_reckoned (rm_type m)) as [[D R]|[D R]]; rewrite R.
    + rewrite N.mul_add_distr_l. split; [lia|]. split.
      * intros Eq. constructor; [|apply I2; lia]. intros [_ K]. specialize (K Lay). lia.
      * intros F. inversion F as [|x l K F']; subst. apply I2 in F'.
        assert (rm_n m = 0) by (destruct (N.eq_0_gt_0_cases (rm_n m)); [assumption|]; exfalso; apply K; split; auto). lia.
    + split; [lia|]. split.
      * intros Eq. constructor; [intros [K _]; contradiction|]. apply I2. lia.
      * intros F. inversion F as [|x l _ F']; subst. apply I2 in F'. lia.
Qed.
Lemma split_at {A} : forall (l : list A) i x, nth_error l i = Some x -> l = firstn i l ++ [x] ++ skipn (S i) l.
Proof.
  induction l as [|y l IH]; intros [|i] x H; try discriminate; cbn [nth_error firstn skipn app] in *.
  - now injection H as ->.
  - f_equal. exact (IH i x H).
Qed.
Lemma own_real t d : t <> SExt -> t <> SStr -> In d (stored_as t) -> own_width t = real_width d.
Proof.
  intros X1 X2 K. destruct t; try (exfalso; congruence); cbn [stored_as In] in K;
    repeat (destruct K as [<-|K]; [reflexivity|]); contradiction.
Qed.

Theorem C98_places : forall E f t b i m, t <> SExt -> t <> SStr ->
  seen_block E f t b i m -> 0 < rm_n m ->
  let ws := seen_widths t i (b_chans b) in
  (forall k, k < count_with b ws i -> addr_with b ws i k = addr_with b (real_widths (b_chans b)) i k)
  <-> (Forall (fun m => ~ stray b m) (firstn i (b_chans b))
       /\ (steps b ws <= 1 \/ Forall (fun m => ~ stray b m) (skipn (S i) (b_chans b)))).
Proof.
  intros E f t b i m X1 X2 [Hm [Ht [Hw Rb]]] Np ws.
  pose proof (own_real t _ X1 X2 Ht) as Ow.
  set (A := firstn i (b_chans b)). set (C := skipn (S i) (b_chans b)).
  assert (Er : real_widths (b_chans b) = real_widths A ++ [(rm_n m, own_width t)] ++ real_widths C).
  { rewrite (split_at _ _ _ Hm) at 1. unfold real_widths. rewrite !map_app. cbn [map]. now rewrite Ow. }
  assert (Es : ws = map plain A ++ [(rm_n m, own_width t)] ++ map plain C).
  { unfold ws, seen_widths. rewrite Hm, firstn_map, skipn_map. reflexivity. }
  assert (LA : length A = i).
  { unfold A. rewrite firstn_length. assert (i < length (b_chans b))%nat by (apply nth_error_Some; congruence). lia. }
  assert (Nth : forall P Q : list (N * N), length P = i -> nth_error (P ++ [(rm_n m, own_width t)] ++ Q) i = Some (rm_n m, own_width t)).
  { intros P Q L. rewrite nth_error_app2, L, Nat.sub_diag by lia. reflexivity. }
  assert (Fs : forall P Q : list (N * N), length P = i -> firstn i (P ++ [(rm_n m, own_width t)] ++ Q) = P).
  { intros P Q L. rewrite <- L. apply firstn_app_exact. }
  assert (N1 : nth_error ws i = Some (rm_n m, own_width t)) by (rewrite Es; apply Nth; now rewrite map_length).
  assert (N2 : nth_error (real_widths (b_chans b)) i = Some (rm_n m, own_width t))
    by (rewrite Er; apply Nth; unfold real_widths; now rewrite map_length).
  assert (F1 : firstn i ws = map plain A) by (rewrite Es; apply Fs; now rewrite map_length).
  assert (F2 : firstn i (real_widths (b_chans b)) = real_widths A) by (rewrite Er; apply Fs; unfold real_widths; now rewrite map_length).
  unfold addr_with, count_with, steps. rewrite N1, N2, F1, F2. fold ws in Rb.
  destruct (b_layout b) eqn:Lay.
  - destruct (row_plain b A Lay) as [A1 A2]. destruct (row_plain b C Lay) as [C1 C2].
    assert (T1 : in_row ws = in_row (map plain A) + (own_width t + in_row (map plain C)))
      by (rewrite Es, !in_row_app; unfold in_row at 2; cbn [fold_right snd]; lia).
    assert (T2 : in_row (real_widths (b_chans b)) = in_row (real_widths A) + (own_width t + in_row (real_widths C)))
      by (rewrite Er, !in_row_app; unfold in_row at 2; cbn [fold_right snd]; lia).
    destruct Rb as [Rp _]. set (R := b_len b / in_row ws) in *. clearbody R. split.
    + intros K. pose proof (K 0 Rp) as K0. rewrite !N.mul_0_l in K0.
      assert (QA : in_row (map plain A) = in_row (real_widths A)) by lia. split; [now apply A2|].
      destruct (N.le_gt_cases R 1) as [|G1]; [now left|right]. apply C2.
      pose proof (K 1 G1) as K1. rewrite !N.mul_1_l in K1. lia.
    + intros [QA QC]. apply A2 in QA. intros k Hk. destruct QC as [QC|QC].
      * assert (k = 0) by lia. subst k. lia.
      * apply C2 in QC. rewrite T1, T2, QA, QC. reflexivity.
  - destruct (chunk_plain b A Lay) as [A1 A2]. destruct (chunk_plain b C Lay) as [C1 C2].
    assert (T1 : in_chunk ws = in_chunk (map plain A) + (rm_n m * own_width t + in_chunk (map plain C)))
      by (rewrite Es, !in_chunk_app; unfold in_chunk at 2; cbn [fold_right fst snd]; lia).
    assert (T2 : in_chunk (real_widths (b_chans b)) = in_chunk (real_widths A) + (rm_n m * own_width t + in_chunk (real_widths C)))
      by (rewrite Er, !in_chunk_app; unfold in_chunk at 2; cbn [fold_right fst snd]; lia).
    destruct Rb as [Rp _]. set (R := b_len b / in_chunk ws) in *. clearbody R. split.
    + intros K. pose proof (K 0 ltac:(nia)) as K0. rewrite N.div_0_l, N.mod_0_l, !N.mul_0_l in K0 by lia.
      assert (QA : in_chunk (map plain A) = in_chunk (real_widths A)) by lia. split; [now apply A2|].
      destruct (N.le_gt_cases R 1) as [|G1]; [now left|right]. apply C2.
      pose proof (K (rm_n m) ltac:(nia)) as K1. rewrite N.div_same, N.mod_same, !N.mul_1_l, !N.mul_0_l in K1 by lia. lia.
    + intros [QA QC]. apply A2 in QA. intros k Hk. destruct QC as [QC|QC].
      * assert (k < rm_n m) by nia. rewrite N.div_small by assumption. rewrite QA. lia.
      * apply C2 in QC. rewrite T1, T2, QA, QC. reflexivity.
Qed.

(** A channel with no timestamp channel beside it: a read from the start gives
    all its samples. *)
Definition alone (b : dblock) (i : nat) : Prop :=
  forall j m, j <> i -> nth_error (b_chans b) j = Some m -> rm_type m <> Timestamp.
Definition stored_values (f : list byte) (t : sty) (bs : list dblock) (ls : list loc) : list (carrier t) :=
  concat (map (fun l => if 0 <? l_n l
                        then match nth_error bs (l_block l) with
                             | Some b => samples_with f t b (real_widths (b_chans b)) (l_chan l)
                             | None => [] end
                        else []) ls).
Lemma alone_widths t b i m : t <> SExt -> t <> SStr -> alone b i -> nth_error (b_chans b) i = Some m -> In (rm_type m) (stored_as t) ->
  seen_widths t i (b_chans b) = real_widths (b_chans b).
Proof.
  intros X1 X2 Al Hm Ht. unfold seen_widths. rewrite Hm, firstn_map, skipn_map.
  rewrite (split_at _ _ _ Hm) at 3. unfold real_widths. rewrite !map_app. cbn [map].
  rewrite (own_real t _ X1 X2 Ht).
  assert (Q : forall m', rm_type m' <> Timestamp -> plain m' = (rm_n m', real_width (rm_type m'))).
  { intros m' D. unfold plain. destruct (real_reckoned (rm_type m')) as [[D' _]|[_ ->]]; [contradiction|reflexivity]. }
  f_equal; [|f_equal]; apply map_ext_in; intros m' K; apply Q; apply In_nth_error in K; destruct K as [j Hj].
  - assert (j < i)%nat.
    { assert (L : (j < length (firstn i (b_chans b)))%nat) by (apply nth_error_Some; congruence). rewrite firstn_length in L. lia. }
    apply (Al j m'); [lia|]. exact (Index_proofs.nth_error_firstn _ _ _ _ Hj).
  - apply (Al (S i + j)%nat m'); [lia|]. rewrite <- Deliver_proofs.skipn_at. exact Hj.
Qed.

Theorem C98_alone : forall E H F t p out,
  session E H F -> t <> SExt -> t <> SStr -> addressable E (tf_bytes F) ->
  mentioned (all_objs H) p -> seen_stored E (tf_bytes F) t H p -> out <> [] ->
  (forall l b, In l (locs_after H p) -> 0 < l_n l -> nth_error (blocks_after H) (l_block l) = Some b -> alone b (l_chan l)) ->
  read_channel E F t p out
  = (overlay out (firstn (length out) (stored_values (tf_bytes F) t (blocks_after H) (locs_after H p))), Ok tt).
Proof.
  intros E H F t p out Se X1 X2 Ad M St Ne Al. unfold read_channel. rewrite (C98_window E H F) by assumption.
  do 4 f_equal. unfold seen, stored_values.
  unfold seen_stored in St. revert St Al. generalize (locs_after H p). intros ls St Al.
  induction ls as [|l ls IH]; [reflexivity|]. cbn [needed map concat]. inversion St as [|x y S1 S2]; subst x y.
  assert (IH' := IH S2 (fun l' b Hl => Al l' b (or_intror Hl))). clear IH.
  destruct (l_n l <=? 0) eqn:Q.
  - replace (0 <? l_n l) with false by lia. replace (0 - l_n l) with 0 by lia. exact IH'.
  - replace (0 <? l_n l) with true by lia. cbn [map concat]. rewrite IH'. f_equal.
    destruct (S1 ltac:(lia)) as [b [m [Hb [Hm [Ht _]]]]]. rewrite Hb, passed_over_0. change (N.to_nat 0) with 0%nat. cbn [skipn].
    f_equal. eapply alone_widths; eauto. apply (Al l b); [now left|lia|exact Hb].
Qed.

(** But the length of a channel of timestamps that has its blocks for itself is
    twice the number of them. *)
Theorem C98_double : forall H f p,
  Forall (fun l => 0 < l_n l -> exists b m c, nth_error (blocks_after H) (l_block l) = Some b /\ l_chan l = 0%nat
            /\ b_chans b = [m] /\ rm_type m = Timestamp /\ 0 < rm_n m /\ b_len b = c * (rm_n m * 16)) (locs_after H p) ->
  length_after H p = 2 * lenN (stored_values f STime (blocks_after H) (locs_after H p)).
Proof.
  intros H f p St. unfold length_after. rewrite <- (locs_sum p H []). fold (locs_after H p).
  unfold stored_values. pose proof (locs_located H p) as Lo. revert St Lo. generalize (locs_after H p). intros ls St Lo.
  induction ls as [|l ls IH]; [reflexivity|]. inversion St as [|x y S1 S2]; subst x y. inversion Lo as [|x y L1 L2]; subst x y.
  cbn [map concat fold_right]. unfold lenN in *. rewrite app_length, Nat2N.inj_add, N.mul_add_distr_l, <- (IH S2 L2). f_equal.
  destruct (0 <? l_n l) eqn:Q; [|cbn [length]; lia].
  destruct (S1 ltac:(lia)) as [b [m [c [Hb [Lc [Eb [Tm [Np Bl]]]]]]]]. rewrite Hb.
  destruct L1 as [b' [m' [Hb' [Hm' Ln]]]]. rewrite Hb in Hb'. injection Hb' as <-.
  rewrite Lc, Eb in Hm'. injection Hm' as <-.
  assert (W : whole_chunks b = 2 * c).
  { unfold whole_chunks, chunk_bytes. rewrite Eb. cbn [fold_right]. rewrite Tm. cbn [dtype_size]. cbv zeta.
    replace (rm_n m * 8 + 0 =? 0) with false by lia. rewrite Bl.
    replace (c * (rm_n m * 16)) with (2 * c * (rm_n m * 8 + 0)) by lia. apply N.div_mul. lia. }
  rewrite samples_with_length, N2Nat.id. unfold count_with. rewrite Lc, Eb. unfold real_widths. cbn [map nth_error]. rewrite Tm.
  cbn [real_width in_row in_chunk fold_right fst snd].
  destruct (b_layout b).
  - replace (b_len b / (16 + 0)) with (c * rm_n m).
    + rewrite Ln, W. lia.
    + rewrite Bl. replace (c * (rm_n m * 16)) with (c * rm_n m * (16 + 0)) by lia. symmetry. apply N.div_mul. lia.
  - replace (b_len b / (rm_n m * 16 + 0)) with c.
    + rewrite Ln, W. lia.
    + rewrite Bl, N.add_0_r. symmetry. apply N.div_mul. lia.
Qed.

(** A timestamp channel alone; then one beside numbers; the numbers are read
    from wrong places in the second chunk. *)
Definition seen_check (E : env) (len : N) (t : sty) (b : dblock) (i : nat) (m : rawmeta) : bool :=
  let ws := seen_widths t i (b_chans b) in
  forallb (fun m => 0 <? reckoned (rm_type m)) (b_chans b)
  && existsb (dtype_eqb (rm_type m)) (stored_as t)
  && match b_layout b with
     | Interleaved => (0 <? b_len b / in_row ws) && (b_start b + b_len b / in_row ws * in_row ws <=? len)
                      && (b_start b + rm_n m * whole_chunks b * in_row ws <=? N.min (2 ^ 63 - 1) (seek_max E))
     | Contigious => (0 <? b_len b / in_chunk ws) && (b_start b + b_len b / in_chunk ws * in_chunk ws <=? len)
                     && match b_chans b with [] => false | m0 :: _ => 0 <? rm_n m0 end
     end.
Lemma seen_check_ok E f t b i m : nth_error (b_chans b) i = Some m -> seen_check E (lenN f) t b i m = true -> seen_block E f t b i m.
Proof.
  intros Hm. unfold seen_check, seen_block. cbv zeta. rewrite !andb_true_iff. intros [[H1 H2] H3].
  split; [exact Hm|]. split.
  { apply existsb_exists in H2. destruct H2 as [d [Hd Eq]]. replace (rm_type m) with d; [exact Hd|].
    destruct d, (rm_type m); reflexivity || discriminate. }
  split.
  { apply Forall_forall. intros x Hx. rewrite forallb_forall in H1. apply N.ltb_lt. now apply H1. }
  destruct (b_layout b); rewrite !andb_true_iff in H3; destruct H3 as [[H3 H4] H5].
  - split; [now apply N.ltb_lt|]. split; now apply N.leb_le.
  - split; [now apply N.ltb_lt|]. split; [now apply N.leb_le|]. destruct (b_chans b) as [|m0 ms]; [discriminate|].
    exists m0, ms. split; [reflexivity|now apply N.ltb_lt].
Qed.

Definition times_file : list byte :=
  tf_bytes (fst (write_channels dbg STime empty_file [ch "g" "a"] [1; 2; 3] Contigious))
  ++ tf_bytes (fst (write_channels dbg STime empty_file [ch "g" "a"] [4; 5] Interleaved)).
Definition times_F : tfile := open_bytes dbg times_file.
Example C98_case :
  (exists H, session dbg H times_F /\ addressable dbg (tf_bytes times_F)
    /\ mentioned (all_objs H) (ch "g" "a") /\ seen_stored dbg (tf_bytes times_F) STime H (ch "g" "a")
    /\ (forall l b, In l (locs_after H (ch "g" "a")) -> 0 < l_n l -> nth_error (blocks_after H) (l_block l) = Some b -> alone b (l_chan l))
    /\ length_after H (ch "g" "a") = 10
    /\ stored_values (tf_bytes times_F) STime (blocks_after H) (locs_after H (ch "g" "a")) = [1; 2; 3; 4; 5]
    /\ seen (tf_bytes times_F) STime (blocks_after H) (locs_after H (ch "g" "a")) 5 = [4; 5]
    /\ seen (tf_bytes times_F) STime (blocks_after H) (locs_after H (ch "g" "a")) 7 = [5]
    /\ seen (tf_bytes times_F) STime (blocks_after H) (locs_after H (ch "g" "a")) 9 = [])
  /\ read_channel dbg times_F STime (ch "g" "a") [0; 0; 0; 0; 0; 0] = ([1; 2; 3; 4; 5; 0], Ok tt)
  /\ read_channel_from dbg times_F STime (ch "g" "a") 5 [0; 0; 0] = ([4; 5; 0], Ok tt)
  /\ read_channel_from dbg times_F STime (ch "g" "a") 9 [0; 0; 0] = ([0; 0; 0], Ok tt).
Proof.
  split; [|vm_compute; repeat split; reflexivity].
  assert (O : tdms_new dbg times_file = Ok times_F) by (vm_compute; reflexivity).
  destruct (C14_open_is_session _ _ _ O) as [H [_ [Se _]]]. exists H. split; [exact Se|].
  assert (G : get_positions (tf_ix times_F) (ch "g" "a") = Some [mkLoc 0 0 6; mkLoc 1 0 4]) by (vm_compute; reflexivity).
  destruct (C14_incremental _ _ _ Se) as [_ [_ [_ [Hb _]]]].
  pose proof (positions_mentioned _ _ _ _ _ Se G) as M.
  pose proof (session_locs_is _ _ _ _ _ _ O Se M G) as Lo.
  assert (Hbs : exists b0 b1 m0 m1, blocks_after H = [b0; b1] /\ b_chans b0 = [m0] /\ b_chans b1 = [m1]
    /\ seen_check dbg (lenN (tf_bytes times_F)) STime b0 0 m0 = true
    /\ seen_check dbg (lenN (tf_bytes times_F)) STime b1 0 m1 = true).
  { rewrite <- Hb.
    exists (mkBlock 68 48 Contigious [mkRaw Timestamp 3 None] LittleE), (mkBlock 184 32 Interleaved [mkRaw Timestamp 2 None] LittleE),
      (mkRaw Timestamp 3 None), (mkRaw Timestamp 2 None). vm_compute. repeat split; reflexivity. }
  split; [vm_compute; repeat split; discriminate|]. split; [exact M|].
  split; [|split; [|split; [|]]].
  - destruct Hbs as [b0 [b1 [m0 [m1 [Eb [M0 [M1 [R0 R1]]]]]]]].
    unfold seen_stored. rewrite Lo, Eb. repeat constructor; intros _.
    + exists b0, m0. split; [reflexivity|]. apply seen_check_ok; [now rewrite M0|exact R0].
    + exists b1, m1. split; [reflexivity|]. apply seen_check_ok; [now rewrite M1|exact R1].
  - destruct Hbs as [b0 [b1 [m0 [m1 [Eb [M0 [M1 _]]]]]]]. rewrite Lo, Eb. intros l b Hl _ Hlb j m Nj Hj. clear -Hl Hlb Nj Hj M0 M1.
    destruct Hl as [<-|[<-|[]]]; cbn [l_block l_chan nth_error] in *; injection Hlb as <-; rewrite ?M0, ?M1 in Hj;
      destruct j as [|[|]]; discriminate || congruence.
  - unfold length_after. rewrite <- (locs_sum _ H []). fold (locs_after H (ch "g" "a")). rewrite Lo. reflexivity.
  - rewrite Lo, <- Hb. split; [|split; [|split]]; vm_compute; reflexivity.
Qed.
(** Timestamps after the channel and two chunks: places differ. *)
Example C98_places_case :
  let b := mkBlock 28 88 Contigious [mkRaw I32 1 None; mkRaw Timestamp 2 None] LittleE in
  seen_block dbg (repeat Byte.x00 200) SI32 b 0 (mkRaw I32 1 None)
  /\ steps b (seen_widths SI32 0 (b_chans b)) = 4 /\ stray b (mkRaw Timestamp 2 None)
  /\ addr_with b (seen_widths SI32 0 (b_chans b)) 0 1 = 48
  /\ addr_with b (real_widths (b_chans b)) 0 1 = 64.
Proof.
  cbv zeta. split; [apply seen_check_ok; [reflexivity|vm_compute; reflexivity]|].
  split; [vm_compute; reflexivity|]. split; [split; [reflexivity|intros _; reflexivity]|]. split; vm_compute; reflexivity.
Qed.

Print Assumptions C98_window.
Print Assumptions C98_places.
Print Assumptions C98_alone.
Print Assumptions C98_double.
