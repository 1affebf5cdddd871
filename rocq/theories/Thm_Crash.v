(** * C86 After a crash inside the data of a call, exactly the values that had
      arrived are given back *)
From Coq Require Import Strings.String.
From Verif Require Import Base Lib DataTypes MetaData Maps DataBlock Index RawData ChannelReader TdmsFile Vectors
  SpecCodec SpecIndex SpecSession SpecRead SpecWrite SpecLocal SpecCutFile Codec_proofs Segment_proofs Index_proofs History_proofs
  Session_proofs Block_proofs Request_proofs Plan_proofs Read_proofs Add_proofs Thm_Index Thm_Read Write_proofs
  Step_proofs Program_proofs Thm_Write Reopen_proofs Thm_Reopen CutFile_proofs CutRead_proofs
  SpecExact Exact_proofs Thm_Exact Thm_CutFile SpecAppend Thm_Append SpecCrash.
Close Scope string_scope.
Local Notation a := (ch "g" "a").
Local Notation b := (ch "g" "b").
Local Notation c := (ch "g" "c").

(** ** How many values have arrived *)
Lemma arrived_iff lay n i k sz d j : 0 < sz -> 0 < k -> i < n -> j < k ->
  place lay n k i j * sz + sz <= d <-> j < arrived lay n i k sz d.
Proof.
  intros Ps Pk Hi Hj. unfold arrived, place. destruct lay.
  - assert (Q : (j * n + i) * sz + sz <= d <-> j * n + i + 1 <= d / sz).
    { split; intros X.
      - apply N.div_le_lower_bound; lia.
      - pose proof (N.mul_div_le d sz). nia. }
    rewrite Q. set (q := d / sz). split; intros X.
    + assert (j + 1 <= (q + n - 1 - i) / n); [|lia]. apply N.div_le_lower_bound; nia.
    + assert (X' : j + 1 <= (q + n - 1 - i) / n) by lia. pose proof (N.mul_div_le (q + n - 1 - i) n). nia.
  - rewrite N.div_small, N.mod_small by lia. replace (0 * (n * k) + i * k + j) with (i * k + j) by lia.
    split; intros X.
    + assert (j + 1 <= (d - i * k * sz) / sz); [|lia]. apply N.div_le_lower_bound; [lia|]. nia.
    + assert (X' : j + 1 <= (d - i * k * sz) / sz) by lia. pose proof (N.mul_div_le (d - i * k * sz) sz). nia.
Qed.
Lemma arrived_le lay n i k sz d : arrived lay n i k sz d <= k.
Proof. unfold arrived. destruct lay; lia. Qed.

(** ** Lists *)
Lemma while_count {A} (P : A -> bool) (g : nat -> A) m : forall len s,
  (forall j, (s <= j < s + len)%nat -> P (g j) = Nat.ltb j m) ->
  while P (map g (seq s len)) = map g (seq s (Nat.min len (m - s)))
  /\ forallb P (map g (seq s len)) = Nat.leb len (m - s).
Proof.
  induction len as [|len IH]; intros s Hj; [split; reflexivity|]. cbn [seq map while forallb].
  rewrite (Hj s) by lia. destruct (Nat.ltb s m) eqn:Q.
  - destruct (IH (S s)) as [I1 I2]; [intros j Q2; apply Hj; lia|]. rewrite I1, I2.
    replace (m - s)%nat with (S (m - S s)) by lia. split; reflexivity.
  - replace (m - s)%nat with 0%nat by lia. split; reflexivity.
Qed.
Lemma while_holds {A} (P : A -> bool) (l : list A) : forallb P (while P l) = true.
Proof. induction l as [|x l IH]; [reflexivity|]. cbn [while]. destruct (P x) eqn:Q; [|reflexivity]. cbn [forallb]. now rewrite Q, IH. Qed.
Lemma skipn_seq' s : forall n x, skipn s (seq x n) = seq (x + s) (n - s).
Proof.
  induction s as [|s IH]; intros n x; [now rewrite Nat.add_0_r, Nat.sub_0_r|].
  destruct n; [reflexivity|]. cbn [seq skipn]. rewrite IH. f_equal. lia.
Qed.
Lemma firstn_seq' s : forall n x, firstn s (seq x n) = seq x (Nat.min s n).
Proof. induction s as [|s IH]; intros [|n] x; try reflexivity. cbn [seq firstn Nat.min]. now rewrite IH. Qed.
Lemma behind_nil bs : forall ls s n, fold_right (fun l a => l_n l + a) 0 ls <= s + n -> behind bs ls s n = [].
Proof.
  induction ls as [|l ls IH]; intros s n Q; cbn [behind fold_right] in *; [reflexivity|].
  destruct (l_n l <=? s) eqn:K; [apply IH; lia|]. destruct (n <=? l_n l - s) eqn:K2; [|apply IH; lia].
  destruct (nth_error bs (l_block l)) as [b0|]; [|reflexivity]. destruct (b_layout b0); [|reflexivity].
  replace (n <? l_n l - s) with false by lia. now rewrite andb_false_r.
Qed.

Lemma same_split {A} : forall (u v x y : list A), length u = length x -> u ++ v = x ++ y -> u = x /\ v = y.
Proof.
  induction u as [|w u IH]; intros v [|z x] y L Q; try discriminate; [split; [reflexivity|exact Q]|].
  cbn [app] in Q. injection Q as -> Q. destruct (IH v x y) as [-> ->]; [now injection L|exact Q|]. split; reflexivity.
Qed.

(** In a file that holds all samples of a channel, they are all present. *)
Lemma all_present f t H p : fixed t -> stored f t H p -> forallb (present f t) (places_after H p) = true.
Proof.
  intros Fx St. apply forallb_forall. intros q Hq. unfold places_after in Hq. apply in_concat in Hq. destruct Hq as [qs [Hqs Hq]].
  apply in_map_iff in Hqs. destruct Hqs as [l [<- Hl]]. unfold stored in St. rewrite Forall_forall in St.
  destruct (St l Hl) as [b0 [m [Hb [Wb [Hm Ht]]]]]. pose proof (locs_located H p) as Ll. rewrite Forall_forall in Ll.
  destruct (Ll l Hl) as [b1 [m1 [Hb1 [Hm1 Hn1]]]]. rewrite Hb in Hb1. injection Hb1 as <-. rewrite Hm in Hm1. injection Hm1 as <-.
  unfold loc_places in Hq. rewrite Hb in Hq. apply in_map_iff in Hq. destruct Hq as [j [<- Hj]]. apply in_seq in Hj.
  destruct (C35_inside f b0 (l_chan l) (N.of_nat j) m Wb Hm ltac:(lia)) as [_ [_ X]].
  destruct (width_sty t (rm_type m) Fx (proj1 (stored_as_supports t _) Ht)) as [W _].
  unfold present. cbn [snd]. rewrite W. lia.
Qed.

(** ** C86 *)
(** A data call that does not continue the channel list succeeds on a file as
    opened; then the file is cut after byte [n], inside the data of the call.
    The cut file opens and reports the lengths of the whole file.  A read of the
    rest of a channel of the call, from any sample on, gives its earlier samples
    and those values of the call that had arrived, leaves the buffer behind them
    as it was, and succeeds exactly if nothing it asks for is missing. *)
Theorem C86_cut_call : forall E f H F e t lay k chans vs F' n i p start out,
  tdms_new E f = Ok F -> file_segments E f H -> ix_next (tf_ix F) = lenN f ->
  fixed t -> NoDup chans -> chans <> [] -> 0 < k -> values_for t k chans vs ->
  good_call E (CallChans e t chans vs lay) -> ~ continues (active_after H) chans ->
  write_channels_e E e t F chans vs lay = (F', Ok tt) -> addressable E (tf_bytes F') ->
  let head := lenN (tf_bytes F') - lenN chans * k * size_bytes t in
  head <= N.of_nat n -> (n <= length (tf_bytes F'))%nat ->
  nth_error chans i = Some p -> stored f t H p ->
  let got := arrived lay (lenN chans) (N.of_nat i) k (size_bytes t) (N.of_nat n - head) in
  let all := samples_after f t H p ++ firstn (N.to_nat got) (dealt lay (length chans) i vs) in
  length_after H p + k <= start + lenN out ->
  exists Fc, tdms_new E (firstn n (tf_bytes F')) = Ok Fc
  /\ (forall q, channel_length E Fc q = channel_length E F' q)
  /\ read_channel_from E Fc t p start out
     = (overlay out (skipn (N.to_nat start) all),
        if (got =? k) || (length_after H p + k <=? start) then Ok tt else Err (EIo UnexpectedEof)).
Proof.
  intros E f H F e t lay k chans vs F' n i p start out Op Fs Hn Fx Nd Ne Pk Vf Gc Nc Ew Ad head Hh Hnl Hi St got all Cov.
  pose proof (ss_open E f F H Fs Op) as Se. destruct (tdms_new_ok _ _ _ Op) as [_ Ef]. subst f.
  assert (Ex : exact_end H F) by (unfold exact_end; now rewrite <- (proj1 (C20_true_addresses _ _ _ Se))).
  destruct (val_count t k chans Nd Ne Pk vs Vf) as [Dv [Dk Nv]]. destruct Vf as [Rv Lv].
  destruct (natural_size t Fx) as [_ [_ [Pz Sa]]].
  assert (Ds : described_call H t lay (lenN vs / lenN chans) chans) by now left.
  assert (Lf : lenN (tf_bytes F') < 2 ^ 64) by (destruct Ad as [A1 _]; change (2 ^ 64) with (2 ^ 63 + 2 ^ 63); lia).
  destruct (write_step E e H F t chans vs lay Se Ex Fx Rv Nd Ne Nv Dv Ds F' (Ok tt) Ew Lf)
    as [_ [s1 [bs1 [Wr1 [Eb1 [_ [_ [_ [_ [_ [_ [_ [_ [Sm1 _]]]]]]]]]]]]]].
  assert (Se1 : session E (H ++ [s1]) F') by (eapply ss_write; eauto).
  destruct (Sm1 i p Hi St) as [St1 Eq1].
  destruct (the_segment E e H F t chans vs lay Se Fx Nd Ne Dv)
    as [omit [s [bs [Est [Ho [_ [Traw [Tint [Tbig [Snext [Ebyt [Lbs [So [Ac0 _]]]]]]]]]]]]]].
  destruct omit; [exfalso; apply Nc; now apply Ho|].
  destruct (the_described E H F t chans vs lay Se Fx Ne Dv Nv Ds false s Ho So Ac0) as [Act [_ [LfN [_ [_ [_ Men]]]]]].
  assert (Wr : wrote E F s F' (Ok tt)) by (eapply wrote_chans; eauto).
  assert (Se' : session E (H ++ [s]) F') by (eapply ss_write; eauto).
  assert (Eb : tf_bytes F' = tf_bytes F ++ bs).
  { unfold write_channels_e in Ew. rewrite Est in Ew. destruct (add_segment E (tf_ix F) s). injection Ew as <- _. reflexivity. }
  assert (Um : Forall (fun x => rm_n x = k /\ In (rm_type x) (stored_as t)) (active_formats (H ++ [s]))).
  { unfold active_formats. rewrite Act. apply Forall_forall. intros x Hx. apply in_map_iff in Hx.
    destruct Hx as [q [<- Hq]]. rewrite (LfN Nc q Hq). unfold call_meta. cbn [rm_n rm_type]. rewrite Dk. auto. }
  assert (Dn : (lenN vs / lenN chans) mod k = 0) by (rewrite Dk; apply N.mod_same; lia).
  assert (Hp : In p chans) by (eapply nth_error_In; eauto). pose proof (Men p Hp) as Me.
  (* the two histories have the same blocks and locations *)
  destruct (C14_incremental _ _ _ Se1) as [_ [_ [_ [B1 [P1 N1]]]]]. destruct (C14_incremental _ _ _ Se') as [_ [_ [_ [B2 [P2 N2]]]]].
  assert (Me1 : mentioned (all_objs (H ++ [s1])) p).
  { destruct (in_dec (list_eq_dec Byte.byte_eq_dec) p (map om_path (all_objs (H ++ [s1])))) as [|Hx]; [assumption|].
    specialize (N1 p Hx). rewrite (P2 p Me) in N1. discriminate. }
  assert (Ebl : blocks_after (H ++ [s1]) = blocks_after (H ++ [s])) by congruence.
  assert (Elo : locs_after (H ++ [s1]) p = locs_after (H ++ [s]) p) by (specialize (P1 p Me1); specialize (P2 p Me); congruence).
  assert (Eq : samples_after (tf_bytes F') t (H ++ [s]) p = samples_after (tf_bytes F) t H p ++ dealt lay (length chans) i vs).
  { rewrite <- Eq1. unfold samples_after. now rewrite Ebl, Elo. }
  assert (St' : stored (tf_bytes F') t (H ++ [s]) p).
  { unfold stored in *. rewrite <- Elo. eapply Forall_impl; [|exact St1]. now rewrite Ebl. }
  clear Se1 B1 P1 N1 Me1 Ebl Elo Sm1 St1 Eq1 Wr1 Eb1 s1 bs1.
  (* the new places *)
  destruct (uniform_sizes e H t chans vs lay Fx Ne Nv Dv s k Tint Snext Act Pk Dn Um) as [Pc [Kc [Wc [Bl [_ [Sb [Ch [Nb Fa]]]]]]]].
  destruct (uniform_locs e H t chans vs lay Fx Nd Ne Nv Dv s k Traw Tint Snext Act Pk Dn Um p) as [Lo _].
  specialize (Lo i Hi). rewrite Dk in *.
  assert (Nbk : nth_error (blocks_after (H ++ [s])) (length (blocks_after H)) = Some (block_of H s)).
  { rewrite blocks_after_snoc, Traw, nth_error_app2 by lia. now rewrite Nat.sub_diag. }
  assert (Hil : (i < length chans)%nat) by (apply nth_error_Some; congruence).
  pose proof (uniform_len H chans s Act) as Lm.
  assert (Hd : head = lenN (tf_bytes F) + 28 + sg_raw s).
  { unfold head. rewrite Eb, lenN_app, Lbs, Snext, Lv. lia. }
  set (g := fun j : nat => (e, head + place lay (lenN chans) k (N.of_nat i) (N.of_nat j) * size_bytes t)).
  assert (Pl : places_after (H ++ [s]) p = places_after H p ++ map g (seq 0 (N.to_nat k))).
  { unfold places_after. rewrite Lo, map_app, concat_app. f_equal.
    - f_equal. apply map_ext_in. intros l Hl. unfold loc_places. pose proof (locs_located H p) as Ll. rewrite Forall_forall in Ll.
      destruct (Ll l Hl) as [b1 [m1 [Hb1 _]]]. rewrite Hb1, blocks_after_snoc.
      now rewrite (nth_error_app_l _ _ _ _ Hb1).
    - cbn [map concat]. rewrite app_nil_r. unfold loc_places. cbn [l_block l_chan l_n]. rewrite Nbk.
      apply map_ext. intros j. unfold g. f_equal.
      + unfold block_of. cbn [b_order]. rewrite Tbig. destruct e; reflexivity.
      + pose proof (uniform_ms H t Fx s k Um) as U.
        rewrite (uniform_addr (block_of H s) k (size_bytes t) i (N.of_nat j) U) by (change (b_chans (block_of H s)) with (active_formats (H ++ [s])); lia).
        change (b_chans (block_of H s)) with (active_formats (H ++ [s])).
        replace (lenN (active_formats (H ++ [s]))) with (lenN chans) by (unfold lenN; now rewrite Lm).
        unfold block_of. cbn [b_start b_layout]. rewrite Tint, Hd. unfold exact_end in Ex. rewrite Ex. destruct lay; reflexivity. }
  (* the cut file *)
  assert (Zl : zero_if_left_out E (active_after H) (CallChans e t chans vs lay)) by now left.
  assert (Hs : lenN (tf_bytes F) <= seek_max E) by (destruct Ad as [_ A2]; rewrite Eb, lenN_app in A2; lia).
  destruct (C46_cut_partial E _ H F _ F' Op Fs Hn Hs Gc Zl Ew) as [hd [Hd1 [Hd2 [_ Cu]]]].
  assert (Hhd : hd = head).
  { specialize (Hd2 Nc). unfold head. cbn [data_bytes] in Hd2. rewrite (data_len e t vs Fx) in Hd2. rewrite <- Hd2, Lv. lia. }
  subst hd. assert (Hnn : (length (tf_bytes F) <= n <= length (tf_bytes F'))%nat) by (unfold lenN in Hd1; lia).
  specialize (Cu n Hnn). cbv zeta in Cu. replace (N.of_nat n <? lenN (tf_bytes F) + 4) with false in Cu by lia.
  replace (N.of_nat n <? head) with false in Cu by lia.
  set (cut := firstn n (tf_bytes F')) in *. set (Fc := mkTF (tf_ix F') cut) in *. exists Fc. split; [exact Cu|].
  split; [reflexivity|].
  destruct (C14_open_is_session _ _ _ Cu) as [HF [_ [Sc _]]].
  destruct (C14_incremental _ _ _ Sc) as [_ [_ [_ [B3 [P3 N3]]]]].
  change (tf_ix Fc) with (tf_ix F') in *. change (tf_bytes Fc) with cut in *.
  assert (Mf : mentioned (all_objs HF) p).
  { destruct (in_dec (list_eq_dec Byte.byte_eq_dec) p (map om_path (all_objs HF))) as [|Hx]; [assumption|].
    specialize (N3 p Hx). rewrite (P2 p Me) in N3. discriminate. }
  assert (Ebl : blocks_after HF = blocks_after (H ++ [s])) by congruence.
  assert (Elo : locs_after HF p = locs_after (H ++ [s]) p) by (specialize (P3 p Mf); specialize (P2 p Me); congruence).
  destruct (C81_whole E (tf_bytes F') t (H ++ [s]) p Fx Ad St') as [Vs La].
  assert (Lt : Forall (laid_out E t HF) (touched (locs_after HF p) start (lenN out))).
  { rewrite Elo. rewrite Forall_forall in *. intros l Hl. specialize (La l (touched_incl _ _ _ _ Hl)).
    unfold laid_out in *. now rewrite Ebl. }
  pose proof (C81_cut_reads E HF Fc t p start out Sc Fx Mf Lt) as R. cbv zeta in R. rewrite R. clear R.
  change (tf_bytes Fc) with cut. unfold places_after. rewrite Ebl, Elo. fold (places_after (H ++ [s]) p).
  assert (Lh : length_after H p = fold_right (fun l a => l_n l + a) 0 (locs_after H p)).
  { unfold length_after. rewrite <- (locs_sum p H []). reflexivity. }
  assert (Sum : fold_right (fun l a => l_n l + a) 0 (locs_after (H ++ [s]) p) = length_after H p + k).
  { rewrite Lo, fold_right_app. cbn [fold_right l_n]. rewrite Lh. generalize (locs_after H p).
    induction l as [|x l IH]; cbn [fold_right]; lia. }
  rewrite behind_nil by (rewrite Sum; exact Cov). rewrite app_nil_r.
  assert (LPO : length (places_after H p) = N.to_nat (length_after H p)).
  { rewrite Lh. apply places_length. apply locs_located. }
  assert (Lp : length (places_after (H ++ [s]) p) = N.to_nat (length_after H p + k)).
  { rewrite Pl, app_length, map_length, seq_length. lia. }
  rewrite (firstn_all2 (n := length out)) by (rewrite skipn_length, Lp; unfold lenN in Cov; lia).
  rewrite Pl, skipn_app, LPO.
  (* old places are all present *)
  assert (Lc : lenN cut = N.of_nat n) by (unfold cut, lenN; rewrite firstn_length; lia).
  assert (PO : forallb (present cut t) (skipn (N.to_nat start) (places_after H p)) = true).
  { apply forallb_forall. intros q Hq. pose proof (all_present _ t H p Fx St) as Q. rewrite forallb_forall in Q.
    specialize (Q q). unfold present in *. rewrite Lc.
    assert (In q (places_after H p)) by (rewrite <- (firstn_skipn (N.to_nat start) (places_after H p)); apply in_or_app; now right).
    specialize (Q H0). unfold lenN in *. lia. }
  set (s0 := (N.to_nat start - N.to_nat (length_after H p))%nat).
  rewrite skipn_map, skipn_seq'. cbn [plus].
  destruct (while_count (present cut t) g (N.to_nat got) (N.to_nat k - s0) s0) as [W1 W2].
  { intros j Hj. unfold present, g. cbn [snd]. rewrite Lc.
    pose proof (arrived_iff lay (lenN chans) (N.of_nat i) k (size_bytes t) (N.of_nat n - head) (N.of_nat j) Pz Pk
      ltac:(unfold lenN; lia) ltac:(lia)) as Q. fold got in Q. destruct (Nat.ltb j (N.to_nat got)) eqn:J; lia. }
  pose proof (arrived_le lay (lenN chans) (N.of_nat i) k (size_bytes t) (N.of_nat n - head)) as Gk. fold got in Gk.
  rewrite forallb_app, PO, W2, (while_app (present cut t)), PO, W1. cbn [andb].
  f_equal.
  2:{ unfold s0. destruct (Nat.leb _ _) eqn:Q1, ((got =? k) || _) eqn:Q2; try reflexivity; exfalso; lia. }
  f_equal.
  assert (Va : forall q, present cut t q = true -> value_at cut t q = value_at (tf_bytes F') t q).
  { intros q Pq. unfold present in Pq. unfold value_at. f_equal.
    rewrite <- (firstn_skipn n (tf_bytes F')). fold cut. symmetry. apply slice_app_l. lia. }
  rewrite map_app. unfold all. rewrite skipn_app.
  rewrite Pl, map_app, Eq in Vs.
  assert (Ls : length (samples_after (tf_bytes F) t H p) = N.to_nat (length_after H p)).
  { pose proof (samples_count (tf_bytes F) t H p) as Q. rewrite <- Lh in Q. unfold lenN in Q. lia. }
  assert (V1 : map (value_at (tf_bytes F') t) (places_after H p) = samples_after (tf_bytes F) t H p
     /\ map (value_at (tf_bytes F') t) (map g (seq 0 (N.to_nat k))) = dealt lay (length chans) i vs).
  { apply same_split; [|exact Vs]. rewrite map_length. lia. }
  destruct V1 as [V1 V2]. rewrite <- V1, <- V2, map_length, LPO. fold s0. f_equal.
  - rewrite skipn_map. apply map_ext_in. intros q Hq. apply Va. rewrite forallb_forall in PO. now apply PO.
  - set (m := Nat.min (N.to_nat k - s0) (N.to_nat got - s0)) in *.
    assert (Q : skipn s0 (firstn (N.to_nat got) (map (value_at (tf_bytes F') t) (map g (seq 0 (N.to_nat k)))))
                = map (value_at (tf_bytes F') t) (map g (seq s0 m))).
    { rewrite (map_map g (value_at (tf_bytes F') t)), firstn_map', firstn_seq', skipn_map, skipn_seq', map_map. cbn [plus].
      f_equal. f_equal. unfold m. clearbody s0 got. clear. lia. }
    etransitivity; [|symmetry; exact Q].
    assert (P' : forallb (present cut t) (map g (seq s0 m)) = true).
    { rewrite <- W1. apply while_holds. }
    rewrite forallb_forall in P'. apply map_ext_in. intros q Hq. apply Va. now apply P'.
Qed.

(** The file and the call of [C46_case]: two values each for [c] and [b];
    the file is cut four bytes before its end. *)
Example C86_case : exists H,
  tdms_new dbg (tf_bytes C44_F) = Ok C44_F /\ file_segments dbg (tf_bytes C44_F) H
  /\ ix_next (tf_ix C44_F) = lenN (tf_bytes C44_F)
  /\ fixed SI32 /\ NoDup [c; b] /\ values_for SI32 2 [c; b] [1; 2; 3; 4]%Z
  /\ good_call dbg (CallChans BigE SI32 [c; b] [1; 2; 3; 4]%Z Contigious)
  /\ ~ continues (active_after H) [c; b]
  /\ write_channels_e dbg BigE SI32 C44_F [c; b] [1; 2; 3; 4]%Z Contigious = (C46_after, Ok tt)
  /\ addressable dbg (tf_bytes C46_after)
  /\ lenN (tf_bytes C46_after) - lenN [c; b] * 2 * size_bytes SI32 = 473
  /\ stored (tf_bytes C44_F) SI32 H b
  /\ arrived Contigious 2 0 2 4 (485 - 473) = 2 /\ arrived Contigious 2 1 2 4 (485 - 473) = 1
  /\ arrived Interleaved 2 0 2 4 (485 - 473) = 2 /\ arrived Interleaved 2 1 2 4 (485 - 473) = 1
  /\ (let Fc := open_bytes dbg (firstn 485 (tf_bytes C46_after)) in
      channel_length dbg Fc b = Ok (Some 6)
      /\ read_channel_from dbg Fc SI32 b 3 (repeat 9%Z 4) = ([11; 3; 9; 9]%Z, Err (EIo UnexpectedEof))
      /\ read_channel_from dbg Fc SI32 c 1 (repeat 9%Z 4) = ([8; 1; 2; 9]%Z, Ok tt)).
Proof.
  assert (O : tdms_new dbg (tf_bytes C44_F) = Ok C44_F) by (vm_compute; reflexivity).
  destruct (C14_open_is_session _ _ _ O) as [H [Fs [Se _]]]. exists H. split; [exact O|]. split; [exact Fs|].
  split; [vm_compute; reflexivity|]. split; [repeat split; discriminate|].
  split; [repeat constructor; cbn; intuition discriminate|].
  split; [split; [repeat constructor; vm_compute; intuition discriminate|reflexivity]|].
  split; [cbn [good_call]; good_strs|]. split.
  { destruct (C14_incremental _ _ _ Se) as [Ha _]. rewrite <- Ha.
    replace (map a_path (ix_active (tf_ix C44_F))) with [b] by (vm_compute; reflexivity). not_continues. }
  split; [vm_compute; reflexivity|]. split; [vm_compute; split; [reflexivity|discriminate]|].
  split; [vm_compute; reflexivity|].
  destruct (get_positions (tf_ix C44_F) b) as [ls|] eqn:G; [|vm_compute in G; discriminate].
  destruct (session_stored dbg _ _ H SI32 b ls O Se G) as [M St].
  { vm_compute in G. injection G as <-. vm_compute. reflexivity. }
  all: try (vm_compute; reflexivity).
  split; [exact St|]. vm_compute. repeat split; reflexivity.
Qed.
Print Assumptions C86_cut_call.
