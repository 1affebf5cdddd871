(** * Claims C28-C33, C35, C36: reading channels *)
From Coq Require Import Strings.String Sorting.Sorted.
From Verif Require Import Base Lib DataTypes MetaData Maps DataBlock Index RawData ChannelReader TdmsFile
  SpecIndex SpecSession SpecRead Block_proofs Request_proofs Plan_proofs Read_proofs Session_proofs
  Thm_Index Vectors.
Close Scope string_scope.

Lemma overlay_app {A} (o1 o2 v : list A) :
  overlay (o1 ++ o2) (firstn (length (o1 ++ o2)) v)
  = overlay o1 (firstn (length o1) v) ++ overlay o2 (firstn (length o2) (skipn (length o1) v)).
Proof.
  unfold overlay. destruct (Nat.le_gt_cases (length v) (length o1)) as [Hv|Hv].
  - rewrite (skipn_all2 v) by lia. rewrite !firstn_nil. cbn [app length skipn].
    rewrite !firstn_all2 by (rewrite ?app_length; lia). rewrite <- app_assoc. f_equal.
    rewrite skipn_app. f_equal. now replace (length v - length o1)%nat with 0%nat by lia.
  - rewrite (firstn_length_le v) with (n := length o1) by lia. rewrite skipn_all.
    rewrite app_nil_r, app_length. rewrite <- firstn_skipn with (n := length o1) (l := firstn _ v) at 1.
    rewrite firstn_firstn, skipn_firstn_comm. replace (Nat.min (length o1) (length o1 + length o2)) with (length o1) by lia.
    replace (length o1 + length o2 - length o1)%nat with (length o2) by lia. rewrite <- app_assoc. f_equal. f_equal.
    rewrite !firstn_length, skipn_length, skipn_app. rewrite (skipn_all2 o1) by lia. cbn [app]. f_equal. lia.
Qed.

(** ** C28 Single-channel reads return the requested window of samples *)
Theorem C28_window : forall E H F t p start out,
  session E H F -> fixed t -> addressable E (tf_bytes F) ->
  mentioned (all_objs H) p -> stored (tf_bytes F) t H p ->
  read_channel_from E F t p start out
  = (overlay out (firstn (length out) (skipn (N.to_nat start) (samples_after (tf_bytes F) t H p))), Ok tt).
Proof.
  intros E H F t p start out Se Fx Ad M St. unfold read_channel_from.
  destruct (session_locs E H F p Se M) as [-> _].
  assert (Mf : Forall (mentioned (all_objs H)) [p]) by (repeat constructor; exact M).
  destruct (plan_ok E H F Se [p] start Mf) as [plan [Hp [Ps [Sh Hn]]]]. cbn [map length repeat] in Hp. rewrite Hp.
  assert (R : readable_plan (tf_bytes F) t (tf_ix F) 1 plan).
  { apply (plan_readable E H F t Se [p] start plan); auto.
    - constructor; [intros []|constructor].
    - intros br Hbr. destruct (br_chans br) as [|x [|y l]] eqn:Eb.
      + exists 0. intros [|i]; discriminate.
      + destruct x as [[c s]|].
        * exists s. intros [|[|i]] c' si Hi; cbn [nth_error] in Hi; congruence.
        * exists 0. intros [|[|i]]; discriminate.
      + rewrite Forall_forall in Sh. destruct (Sh _ Hbr) as [L _]. rewrite Eb in L. discriminate. }
  rewrite (execute_plan E H F t Se Fx Ad [p] start [out] plan); auto.
  apply fair_single; auto.
Qed.

(** A test for the hypotheses on concrete files. *)
Definition whole_check (len : N) (b : dblock) : bool :=
  match b_chans b with
  | [] => false
  | m0 :: _ =>
    let n := rm_n m0 in
    let c := b_len b / sub_bytes (b_chans b) in
    (0 <? n) && (0 <? c) && forallb (fun m => (rm_n m =? n) && (0 <? width (rm_type m))) (b_chans b)
    && match b_layout b with Interleaved => b_len b =? c * sub_bytes (b_chans b) | Contigious => true end
    && (b_start b + c * sub_bytes (b_chans b) <=? len)
  end.
Lemma whole_check_ok f b : whole_check (lenN f) b = true -> whole_block f b.
Proof.
  unfold whole_check, whole_block. destruct (b_chans b) as [|m0 ms] eqn:Eb; [discriminate|]. rewrite <- Eb in *.
  rewrite !andb_true_iff. intros [[[[H1 H2] H3] H4] H5].
  exists (rm_n m0), (b_len b / sub_bytes (b_chans b)).
  split; [now apply N.ltb_lt|]. split; [now apply N.ltb_lt|]. split; [congruence|].
  split.
  - apply Forall_forall. intros m Hm. rewrite forallb_forall in H3. specialize (H3 m Hm).
    apply andb_true_iff in H3. destruct H3 as [A B]. split; [now apply N.eqb_eq|now apply N.ltb_lt].
  - split; [|now apply N.leb_le]. unfold chunks. destruct (b_layout b); [now apply N.eqb_eq|reflexivity].
Qed.
Definition stored_check (t : sty) (len : N) (bs : list dblock) (l : loc) : bool :=
  match nth_error bs (l_block l) with
  | Some b =>
    match nth_error (b_chans b) (l_chan l) with
    | Some m => whole_check len b && existsb (dtype_eqb (rm_type m)) (stored_as t)
    | None => false
    end
  | None => false
  end.
Lemma session_stored E f F H t p ls : tdms_new E f = Ok F -> session E H F ->
  get_positions (tf_ix F) p = Some ls ->
  forallb (stored_check t (lenN (tf_bytes F)) (ix_blocks (tf_ix F))) ls = true ->
  mentioned (all_objs H) p /\ stored (tf_bytes F) t H p.
Proof.
  intros O Se G C. destruct (C14_incremental E H F Se) as [_ [_ [_ [Hb [Gp Gn]]]]].
  assert (M : mentioned (all_objs H) p).
  { destruct (in_dec (list_eq_dec Byte.byte_eq_dec) p (map om_path (all_objs H))) as [|Hn]; [assumption|].
    rewrite (Gn p Hn) in G. discriminate. }
  split; [exact M|]. rewrite (Gp p M) in G. injection G as <-. unfold stored. apply Forall_forall. intros l Hl.
  rewrite forallb_forall in C. specialize (C l Hl). unfold stored_check in C. rewrite Hb in C.
  destruct (nth_error (blocks_after H) (l_block l)) as [b|]; [|discriminate].
  destruct (nth_error (b_chans b) (l_chan l)) as [m|] eqn:Hm; [|discriminate].
  apply andb_true_iff in C. destruct C as [W Tt]. exists b, m. split; [reflexivity|].
  split; [now apply whole_check_ok|]. split; [exact Hm|].
  apply existsb_exists in Tt. destruct Tt as [d [Hd Eq]]. replace (rm_type m) with d; [exact Hd|].
  destruct d, (rm_type m); reflexivity || discriminate.
Qed.

(** Three segments: a, b interleaved, big-endian; c, a contiguous in three
    chunks of two values; then a and b contiguous. *)
Definition seg_i32 (e : endian) (inter : bool) (chans : list str) (n : N) (vs : list Z) : list byte :=
  fst (write_segment e (mkToc false false false inter false true)
         (Some (map (fun p => mkObj p [] (RIRaw (mkRaw I32 n None))) chans))
         (Some (slice_block e SI32 vs))).
Definition read_file : list byte :=
  seg_i32 BigE true [ch "g" "a"; ch "g" "b"] 3 [1; 101; 2; 102; 3; 103]%Z
  ++ seg_i32 LittleE false [ch "g" "c"; ch "g" "a"] 2 [201; 202; 4; 5; 203; 204; 6; 7; 205; 206; 8; 9]%Z
  ++ seg_i32 LittleE false [ch "g" "b"; ch "g" "a"] 2 [104; 105; 10; 11]%Z.
Definition read_F : tfile := open_bytes dbg read_file.

Example C28_case :
  exists H, session dbg H read_F /\ fixed SI32 /\ addressable dbg (tf_bytes read_F)
    /\ mentioned (all_objs H) (ch "g" "a") /\ stored (tf_bytes read_F) SI32 H (ch "g" "a")
    /\ samples_after (tf_bytes read_F) SI32 H (ch "g" "a") = [1; 2; 3; 4; 5; 6; 7; 8; 9; 10; 11]%Z
    /\ read_channel_from dbg read_F SI32 (ch "g" "a") 2 [0; 0; 0; 0]%Z = ([3; 4; 5; 6]%Z, Ok tt)
    /\ read_channel_from dbg read_F SI32 (ch "g" "a") 8 [0; 0; 0; 0]%Z = ([9; 10; 11; 0]%Z, Ok tt).
Proof.
  assert (O : tdms_new dbg read_file = Ok read_F) by (vm_compute; reflexivity).
  destruct (C14_open_is_session _ _ _ O) as [H [_ [Se _]]]. exists H. split; [exact Se|].
  destruct (session_stored dbg _ _ H SI32 (ch "g" "a") [mkLoc 0 0 3; mkLoc 1 1 6; mkLoc 2 1 2] O Se) as [M St];
    [vm_compute; reflexivity..|].
  split; [repeat split; discriminate|]. split; [vm_compute; repeat split; discriminate|].
  split; [exact M|]. split; [exact St|].
  split; [|split; vm_compute; reflexivity].
  destruct (C14_incremental _ _ _ Se) as [_ [_ [_ [Hb [Gp _]]]]]. specialize (Gp _ M).
  unfold samples_after. rewrite <- Hb. replace (locs_after H (ch "g" "a")) with [mkLoc 0 0 3; mkLoc 1 1 6; mkLoc 2 1 2].
  - vm_compute. reflexivity.
  - clear -Gp. assert (X : get_positions (tf_ix read_F) (ch "g" "a") = Some [mkLoc 0 0 3; mkLoc 1 1 6; mkLoc 2 1 2])
      by (vm_compute; reflexivity). congruence.
Qed.

(** The hypothesis that all channels of a block have the same number of values
    cannot be dropped: for contiguous blocks the skip is computed with the
    length of the block's first channel
    (contigious_multi_channel_read.rs 63-69). *)
Definition seg_uneven (n1 n2 : N) (vs : list Z) : list byte :=
  fst (write_segment LittleE (mkToc false false false false false true)
         (Some [mkObj (ch "g" "x") [] (RIRaw (mkRaw I32 n1 None)); mkObj (ch "g" "y") [] (RIRaw (mkRaw I32 n2 None))])
         (Some (slice_block LittleE SI32 vs))).
Definition uneven_file : list byte := seg_uneven 1 3 [100; 1; 2; 3; 101; 4; 5; 6]%Z.
Theorem C28_uneven_refuted :
  exists H F p start out, session dbg H F /\ mentioned (all_objs H) p /\ addressable dbg (tf_bytes F)
    /\ samples_after (tf_bytes F) SI32 H p = [1; 2; 3; 4; 5; 6]%Z
    /\ start = 1 /\ out = [0; 0; 0]%Z
    /\ read_channel_from dbg F SI32 p start out = ([4; 5; 6]%Z, Ok tt)
    /\ read_channel_from dbg F SI32 p 0 out = ([1; 2; 3]%Z, Ok tt).
Proof.
  set (F := open_bytes dbg uneven_file).
  assert (O : tdms_new dbg uneven_file = Ok F) by (vm_compute; reflexivity).
  destruct (C14_open_is_session _ _ _ O) as [H [_ [Se _]]]. exists H, F, (ch "g" "y"), 1, [0; 0; 0]%Z.
  destruct (C14_incremental _ _ _ Se) as [_ [_ [_ [Hb [Gp Gn]]]]].
  assert (X : get_positions (tf_ix F) (ch "g" "y") = Some [mkLoc 0 1 6]) by (vm_compute; reflexivity).
  assert (M : mentioned (all_objs H) (ch "g" "y")).
  { destruct (in_dec (list_eq_dec Byte.byte_eq_dec) (ch "g" "y") (map om_path (all_objs H))) as [|Hn]; [assumption|].
    rewrite (Gn _ Hn) in X. discriminate. }
  specialize (Gp _ M). split; [exact Se|]. split; [exact M|].
  split; [vm_compute; repeat split; discriminate|]. split; [|vm_compute; repeat split; reflexivity].
  unfold samples_after. rewrite <- Hb. replace (locs_after H (ch "g" "y")) with [mkLoc 0 1 6] by congruence.
  vm_compute. reflexivity.
Qed.

(** ** C29 Windowed reads compose *)
Theorem C29_compose : forall E H F t p a o1 o2,
  session E H F -> fixed t -> addressable E (tf_bytes F) ->
  mentioned (all_objs H) p -> stored (tf_bytes F) t H p ->
  exists v1 v2,
    read_channel_from E F t p a o1 = (v1, Ok tt)
    /\ read_channel_from E F t p (a + lenN o1) o2 = (v2, Ok tt)
    /\ read_channel_from E F t p a (o1 ++ o2) = (v1 ++ v2, Ok tt)
    /\ length v1 = length o1 /\ length v2 = length o2.
Proof.
  intros E H F t p a o1 o2 Se Fx Ad M St. rewrite !(C28_window E H F) by assumption.
  do 2 eexists. split; [reflexivity|]. split; [reflexivity|]. split.
  - rewrite overlay_app. do 3 f_equal. rewrite Lib.skipn_skipn. do 2 f_equal. unfold lenN. lia.
  - unfold overlay. rewrite !app_length, !skipn_length, !firstn_length. lia.
Qed.
Theorem C29_read_channel : forall E F t p out, read_channel E F t p out = read_channel_from E F t p 0 out.
Proof. reflexivity. Qed.
(** The buffers beyond the end of the channel keep their contents. *)
Theorem C29_past_end : forall E H F t p start out,
  session E H F -> fixed t -> addressable E (tf_bytes F) ->
  mentioned (all_objs H) p -> stored (tf_bytes F) t H p ->
  lenN (samples_after (tf_bytes F) t H p) <= start ->
  read_channel_from E F t p start out = (out, Ok tt).
Proof.
  intros E H F t p start out Se Fx Ad M St L. rewrite (C28_window E H F) by assumption.
  rewrite skipn_all2 by (unfold lenN in L; lia). now rewrite firstn_nil.
Qed.
Example C29_case :
  read_channel_from dbg read_F SI32 (ch "g" "a") 2 [0; 0]%Z = ([3; 4]%Z, Ok tt)
  /\ read_channel_from dbg read_F SI32 (ch "g" "a") 4 [0; 0; 0]%Z = ([5; 6; 7]%Z, Ok tt)
  /\ read_channel_from dbg read_F SI32 (ch "g" "a") 2 ([0; 0] ++ [0; 0; 0])%Z = ([3; 4; 5; 6; 7]%Z, Ok tt)
  /\ read_channel_from dbg read_F SI32 (ch "g" "a") 11 [7]%Z = ([7]%Z, Ok tt).
Proof. vm_compute. repeat split; reflexivity. Qed.

(** ** C30 Multi-channel reads agree with single-channel reads *)
(** What single-channel reads give. *)
Definition singly (E : env) (F : tfile) (t : sty) (chans : list str) (start : N)
           (outs : list (list (carrier t))) : list (list (carrier t)) :=
  map (fun po => fst (read_channel_from E F t (fst po) start (snd po))) (combine chans outs).
(** All channels are in the same blocks with the same numbers of samples. *)
Definition aligned (H : list segment) (chans : list str) : Prop :=
  forall p q, In p chans -> In q chans -> shape (locs_after H p) = shape (locs_after H q).

Lemma expected_singly E H F t chans start outs :
  session E H F -> fixed t -> addressable E (tf_bytes F) ->
  Forall (mentioned (all_objs H)) chans -> Forall (stored (tf_bytes F) t H) chans ->
  expected H F t chans start outs = singly E F t chans start outs.
Proof.
  intros Se Fx Ad M St. unfold expected, singly. apply map_ext_in. intros [p o] Hin.
  apply in_combine_l in Hin. rewrite Forall_forall in M, St. cbn [fst snd].
  rewrite (C28_window E H F) by auto. reflexivity.
Qed.

Lemma aligned_plan H chans start plan : aligned H chans -> StronglySorted lt (map br_block plan) ->
  Forall (fun br => length (br_chans br) = length chans /\ exists c s, In (Some (c, s)) (br_chans br)) plan ->
  (forall i p, nth_error chans i = Some p -> planned i plan = needed (locs_after H p) start) ->
  same_skips plan /\ Forall (fun br => Forall (fun p => p <> None) (br_chans br)) plan.
Proof.
  intros Al Ps Sh Hn. rewrite Forall_forall in Sh.
  assert (K : forall br, In br plan -> exists s, forall i, (i < length chans)%nat ->
     exists c, nth_error (br_chans br) i = Some (Some (c, s))).
  { intros br Hbr. destruct (Sh br Hbr) as [Ln [c0 [s0 Hc]]]. exists s0. intros i Hi.
    apply In_nth_error in Hc. destruct Hc as [i0 Hc].
    assert (Hi0 : (i0 < length chans)%nat) by (rewrite <- Ln; apply nth_error_Some; congruence).
    destruct (nth_error chans i0) as [p0|] eqn:P0; [|apply nth_error_Some in Hi0; contradiction].
    destruct (nth_error chans i) as [p1|] eqn:P1; [|apply nth_error_Some in Hi; contradiction].
    pose proof (planned_in i0 plan br c0 s0 Hbr Hc) as In0. rewrite (Hn _ _ P0) in In0.
    destruct (needed_shape _ (locs_after H p1) start _ _ _
      (Al p0 p1 (nth_error_In _ _ P0) (nth_error_In _ _ P1)) In0) as [c1 In1].
    rewrite <- (Hn _ _ P1) in In1. apply in_planned in In1. destruct In1 as [br' [Hbr' [Eb Hi']]].
    rewrite (sorted_blocks plan br br' Ps Hbr Hbr') by congruence. eauto. }
  split.
  - intros br Hbr. destruct (K br Hbr) as [s Hs]. exists s. intros i c si Hi.
    destruct (Sh br Hbr) as [Ln _].
    destruct (Hs i) as [c' Hc']; [rewrite <- Ln; apply nth_error_Some; congruence|]. congruence.
  - apply Forall_forall. intros br Hbr. apply Forall_forall. intros p Hp. apply In_nth_error in Hp.
    destruct Hp as [i Hi]. destruct (K br Hbr) as [s Hs]. destruct (Sh br Hbr) as [Ln _].
    destruct (Hs i) as [c Hc]; [rewrite <- Ln; apply nth_error_Some; congruence|]. congruence.
Qed.

Section C30.
Context (E : env) (H : list segment) (F : tfile) (t : sty) (chans : list str) (start : N)
        (outs : list (list (carrier t))).
Hypothesis (Se : session E H F) (Fx : fixed t) (Ad : addressable E (tf_bytes F))
  (M : Forall (mentioned (all_objs H)) chans) (St : Forall (stored (tf_bytes F) t H) chans)
  (ND : NoDup chans) (Lo : length outs = length chans).

Lemma read_by_plan : (forall plan,
    StronglySorted lt (map br_block plan) ->
    Forall (fun br => length (br_chans br) = length chans /\ exists c s, In (Some (c, s)) (br_chans br)) plan ->
    (forall i p, nth_error chans i = Some p -> planned i plan = needed (locs_after H p) start) ->
    same_skips plan
    /\ (readable_plan (tf_bytes F) t (tf_ix F) (length chans) plan ->
        fair_run (tf_bytes F) t (tf_ix F) plan (map (fun o => mkPr 0 (lenN o)) outs))) ->
  read_channels_from E F t chans start outs = (singly E F t chans start outs, Ok tt).
Proof.
  intros Hf. unfold read_channels_from, ix_read_channels_from. rewrite (lookup_ok E H F Se) by exact M. cbn [bind].
  destruct (plan_ok E H F Se chans start M) as [plan [Hp [Ps [Sh Hn]]]]. rewrite Hp.
  destruct (Hf plan Ps Sh Hn) as [Ss Fr].
  rewrite <- (expected_singly E H F) by assumption.
  apply (execute_plan E H F t Se Fx Ad); auto. apply Fr.
  apply (plan_readable E H F t Se chans start); auto.
Qed.
End C30.

(** Equal channels, equal buffers, any start. *)
Theorem C30_aligned_partial : forall E H F t chans start outs k,
  session E H F -> fixed t -> addressable E (tf_bytes F) ->
  Forall (mentioned (all_objs H)) chans -> Forall (stored (tf_bytes F) t H) chans ->
  NoDup chans -> length outs = length chans ->
  aligned H chans -> Forall (fun o => length o = k) outs ->
  read_channels_from E F t chans start outs = (singly E F t chans start outs, Ok tt).
Proof.
  intros E H F t chans start outs k Se Fx Ad M St ND Lo Al Lk.
  apply (read_by_plan E H F t chans start outs); auto. intros plan Ps Sh Hn.
  destruct (aligned_plan H chans start plan Al Ps Sh Hn) as [Ss All]. split; [exact Ss|]. intros R.
  replace (map (fun o => mkPr 0 (lenN o)) outs) with (repeat (mkPr 0 (N.of_nat k)) (length chans)).
  - apply fair_equal; auto.
  - rewrite <- Lo. clear -Lk. induction Lk as [|o outs Hk Lk IH]; [reflexivity|].
    cbn [length repeat map]. unfold lenN at 1. now rewrite Hk, IH.
Qed.

(** Whole channels from the start, into buffers that are large enough. *)
Theorem C30_whole_channels_partial : forall E H F t chans outs,
  session E H F -> fixed t -> addressable E (tf_bytes F) ->
  Forall (mentioned (all_objs H)) chans -> Forall (stored (tf_bytes F) t H) chans ->
  NoDup chans -> length outs = length chans ->
  (forall p o, In (p, o) (combine chans outs) -> (length (samples_after (tf_bytes F) t H p) <= length o)%nat) ->
  read_channels E F t chans outs = (singly E F t chans 0 outs, Ok tt).
Proof.
  intros E H F t chans outs Se Fx Ad M St ND Lo Big. unfold read_channels.
  apply (read_by_plan E H F t chans 0 outs); auto. intros plan Ps Sh Hn. split.
  - intros br Hbr. exists 0. intros i c si Hi. rewrite Forall_forall in Sh. destruct (Sh br Hbr) as [Ln _].
    destruct (nth_error chans i) as [p|] eqn:Pi.
    + pose proof (planned_in i plan br c si Hbr Hi) as X. rewrite (Hn _ _ Pi) in X. now apply needed_0 in X.
    + apply nth_error_None in Pi. assert (i < length (br_chans br))%nat by (apply nth_error_Some; congruence). lia.
  - intros R. apply (fair_roomy (tf_bytes F) t (tf_ix F) plan (length chans)); auto.
    { now rewrite map_length. }
    intros i pr Hi. rewrite nth_error_map in Hi. destruct (nth_error outs i) as [o|] eqn:Oi; [|discriminate].
    injection Hi as <-. cbn [pr_read pr_target].
    destruct (nth_error chans i) as [p|] eqn:Pi.
    2:{ apply nth_error_None in Pi. assert (i < length outs)%nat by (apply nth_error_Some; congruence). lia. }
    rewrite (Hn _ _ Pi). destruct (C14_incremental E H F Se) as [_ [_ [_ [Hb [Gp _]]]]].
    rewrite Hb, needed_samples by apply locs_located. cbn [N.to_nat skipn].
    specialize (Big p o (nth_error_In _ _ (combine_nth _ _ _ _ _ Pi Oi))).
    unfold samples_after in Big. unfold lenN. change (skipn _ ?x) with x. lia.
Qed.

(** Interleaved data, any buffers, from the start or equal channels. *)
Theorem C30_interleaved_partial : forall E H F t chans start outs,
  session E H F -> fixed t -> addressable E (tf_bytes F) ->
  Forall (mentioned (all_objs H)) chans -> Forall (stored (tf_bytes F) t H) chans ->
  NoDup chans -> length outs = length chans ->
  start = 0 \/ aligned H chans ->
  (forall p l b, In p chans -> In l (locs_after H p) -> nth_error (blocks_after H) (l_block l) = Some b ->
     b_layout b = Interleaved) ->
  read_channels_from E F t chans start outs = (singly E F t chans start outs, Ok tt).
Proof.
  intros E H F t chans start outs Se Fx Ad M St ND Lo Al Il.
  apply (read_by_plan E H F t chans start outs); auto. intros plan Ps Sh Hn. split.
  - destruct Al as [->|Al]; [|now destruct (aligned_plan H chans start plan Al Ps Sh Hn)].
    intros br Hbr. exists 0. intros i c si Hi. rewrite Forall_forall in Sh. destruct (Sh br Hbr) as [Ln _].
    destruct (nth_error chans i) as [p|] eqn:Pi.
    + pose proof (planned_in i plan br c si Hbr Hi) as X. rewrite (Hn _ _ Pi) in X. now apply needed_0 in X.
    + apply nth_error_None in Pi. assert (i < length (br_chans br))%nat by (apply nth_error_Some; congruence). lia.
  - intros R. apply (fair_interleaved (tf_bytes F) t (tf_ix F) plan (length chans)); auto.
    { now rewrite map_length. }
    apply Forall_forall. intros br Hbr b Hb. rewrite Forall_forall in Sh. destruct (Sh br Hbr) as [Ln [c [s Hc]]].
    apply In_nth_error in Hc. destruct Hc as [i Hi].
    assert (Hi0 : (i < length chans)%nat) by (rewrite <- Ln; apply nth_error_Some; congruence).
    destruct (nth_error chans i) as [p|] eqn:Pi; [|apply nth_error_Some in Hi0; contradiction].
    pose proof (planned_in i plan br c s Hbr Hi) as X. rewrite (Hn _ _ Pi) in X.
    apply needed_in in X. destruct X as [l [Hl [El _]]].
    apply (Il p l b); [eapply nth_error_In; eauto|exact Hl|].
    destruct (C14_incremental E H F Se) as [_ [_ [_ [Hbs _]]]]. rewrite <- Hbs. now rewrite El.
Qed.

(** The channels of [read_file]: b and a from the start, with large buffers; b
    and a of [pair_file] from sample 2, with equal buffers. *)
Definition pair_file : list byte :=
  seg_i32 LittleE false [ch "g" "a"; ch "g" "b"] 3 [1; 2; 3; 101; 102; 103]%Z
  ++ seg_i32 LittleE true [ch "g" "b"; ch "g" "a"] 3 [104; 4; 105; 5; 106; 6]%Z.
Definition pair_F : tfile := open_bytes dbg pair_file.
Example C30_case :
  (exists H, session dbg H pair_F
    /\ Forall (mentioned (all_objs H)) [ch "g" "a"; ch "g" "b"]
    /\ Forall (stored (tf_bytes pair_F) SI32 H) [ch "g" "a"; ch "g" "b"]
    /\ aligned H [ch "g" "a"; ch "g" "b"])
  /\ read_channels_from dbg pair_F SI32 [ch "g" "a"; ch "g" "b"] 2 [[0; 0; 0]; [0; 0; 0]]%Z
     = ([[3; 4; 5]; [103; 104; 105]]%Z, Ok tt)
  /\ read_channels dbg read_F SI32 [ch "g" "b"; ch "g" "a"] [repeat 0 6; repeat 0 12]%Z
     = ([[101; 102; 103; 104; 105; 0]; [1; 2; 3; 4; 5; 6; 7; 8; 9; 10; 11; 0]]%Z, Ok tt).
Proof.
  split; [|vm_compute; split; reflexivity].
  assert (O : tdms_new dbg pair_file = Ok pair_F) by (vm_compute; reflexivity).
  destruct (C14_open_is_session _ _ _ O) as [H [_ [Se _]]]. exists H. split; [exact Se|].
  destruct (session_stored dbg _ _ H SI32 (ch "g" "a") [mkLoc 0 0 3; mkLoc 1 1 3] O Se) as [Ma Sa];
    [vm_compute; reflexivity..|].
  destruct (session_stored dbg _ _ H SI32 (ch "g" "b") [mkLoc 0 1 3; mkLoc 1 0 3] O Se) as [Mb Sb];
    [vm_compute; reflexivity..|].
  split; [repeat constructor; assumption|]. split; [repeat constructor; assumption|].
  destruct (C14_incremental _ _ _ Se) as [_ [_ [_ [_ [Gp _]]]]].
  assert (Ga : locs_after H (ch "g" "a") = [mkLoc 0 0 3; mkLoc 1 1 3]).
  { assert (X : get_positions (tf_ix pair_F) (ch "g" "a") = Some [mkLoc 0 0 3; mkLoc 1 1 3])
      by (vm_compute; reflexivity). rewrite (Gp _ Ma) in X. congruence. }
  assert (Gb : locs_after H (ch "g" "b") = [mkLoc 0 1 3; mkLoc 1 0 3]).
  { assert (X : get_positions (tf_ix pair_F) (ch "g" "b") = Some [mkLoc 0 1 3; mkLoc 1 0 3])
      by (vm_compute; reflexivity). rewrite (Gp _ Mb) in X. congruence. }
  intros p q Hp Hq. destruct Hp as [<-|[<-|[]]], Hq as [<-|[<-|[]]]; rewrite ?Ga, ?Gb; reflexivity.
Qed.

(** The full claim fails: buffers of different lengths over contiguous data. *)
Definition lengths_file : list byte :=
  seg_i32 LittleE false [ch "g" "a"; ch "g" "b"] 3 [1; 2; 3; 101; 102; 103]%Z
  ++ seg_i32 LittleE false [ch "g" "a"; ch "g" "b"] 3 [4; 5; 6; 104; 105; 106]%Z.
Theorem C30_lengths_refuted : exists f F outs,
  tdms_new dbg f = Ok F
  /\ singly dbg F SI32 [ch "g" "a"; ch "g" "b"] 0 outs = [[1; 2; 3; 4]; [101; 102]]%Z
  /\ read_channels dbg F SI32 [ch "g" "a"; ch "g" "b"] outs = ([[1; 2; 4; 5]; [101; 102]]%Z, Ok tt).
Proof.
  exists lengths_file, (open_bytes dbg lengths_file), [[0; 0; 0; 0]; [0; 0]]%Z.
  vm_compute. repeat split; reflexivity.
Qed.
(** Equal buffers from the start, but one channel has data in an earlier block:
    sample 103 of b is lost. *)
Definition offset_file (inter : bool) : list byte :=
  seg_i32 LittleE inter [ch "g" "a"] 1 [1]%Z
  ++ seg_i32 LittleE inter [ch "g" "b"; ch "g" "a"] 3
       (if inter then [101; 2; 102; 3; 103; 4] else [101; 102; 103; 2; 3; 4])%Z
  ++ seg_i32 LittleE inter [ch "g" "b"; ch "g" "a"] 3
       (if inter then [104; 5; 105; 6; 106; 7] else [104; 105; 106; 5; 6; 7])%Z.
Theorem C30_unaligned_refuted : exists f F outs,
  tdms_new dbg f = Ok F
  /\ singly dbg F SI32 [ch "g" "a"; ch "g" "b"] 0 outs = [[1; 2; 3]; [101; 102; 103]]%Z
  /\ read_channels dbg F SI32 [ch "g" "a"; ch "g" "b"] outs = ([[1; 2; 3]; [101; 102; 104]]%Z, Ok tt).
Proof.
  exists (offset_file false), (open_bytes dbg (offset_file false)), [[0; 0; 0]; [0; 0; 0]]%Z.
  vm_compute. repeat split; reflexivity.
Qed.
(** From a start position, the result depends on the order of the request and
    leaves gaps, for either layout. *)
Theorem C30_start_refuted : exists f F outs,
  tdms_new dbg f = Ok F
  /\ singly dbg F SI32 [ch "g" "a"; ch "g" "b"] 2 outs = [[3; 4; 5; 6]; [103; 104; 105; 106]]%Z
  /\ read_channels_from dbg F SI32 [ch "g" "a"; ch "g" "b"] 2 outs
     = ([[4; 0; 5; 6]; [102; 103; 104; 105]]%Z, Ok tt)
  /\ read_channels_from dbg F SI32 [ch "g" "b"; ch "g" "a"] 2 outs
     = ([[103; 0; 104; 105]; [3; 4; 5; 6]]%Z, Ok tt).
Proof.
  exists (offset_file true), (open_bytes dbg (offset_file true)), [[0; 0; 0; 0]; [0; 0; 0; 0]]%Z.
  vm_compute. repeat split; reflexivity.
Qed.
(** A channel requested twice: the first buffer is not filled. *)
Theorem C30_duplicate_refuted : exists f F outs,
  tdms_new dbg f = Ok F
  /\ singly dbg F SI32 [ch "g" "a"; ch "g" "a"] 0 outs = [[1; 2]; [1; 2]]%Z
  /\ read_channels dbg F SI32 [ch "g" "a"; ch "g" "a"] outs = ([[0; 0]; [1; 2]]%Z, Ok tt).
Proof.
  exists pair_file, pair_F, [[0; 0]; [0; 0]]%Z. vm_compute. repeat split; reflexivity.
Qed.

(** ** C31 A read plan visits each needed block once, in order *)
Theorem C31_plan : forall ls starts,
  length ls = length starts -> Forall ascending ls ->
  exists plan, read_plan ls starts = Ok plan
    /\ StronglySorted lt (map br_block plan)
    /\ Forall (fun br => length (br_chans br) = length ls /\ exists c s, In (Some (c, s)) (br_chans br)) plan
    /\ forall i l s, nth_error ls i = Some l -> nth_error starts i = Some s -> planned i plan = needed l s.
Proof.
  intros ls starts Le Asc. unfold read_plan. set (st := combine ls starts).
  destruct (plan_terminates (S (total_locs st)) st) as [plan Hp]; [lia|]. exists plan. split; [exact Hp|].
  split; [|split].
  - apply (plan_ascending (S (total_locs st)) st plan); [|exact Hp]. apply Forall_forall. intros [l s] Hin.
    apply in_combine_l in Hin. rewrite Forall_forall in Asc. exact (Asc l Hin).
  - apply plan_shape in Hp. eapply Forall_impl; [|exact Hp]. intros br [L X]. split; [|exact X].
    rewrite L. unfold st, chst. rewrite combine_length. lia.
  - intros i l s Hl Hs. apply (plan_needed (S (total_locs st)) st plan Hp). unfold st. now apply combine_nth.
Qed.
(** The starting skips may differ; locations without remaining samples are left
    out. *)
Example C31_case :
  let ls := [[mkLoc 0 0 3; mkLoc 2 1 4]; [mkLoc 1 0 5; mkLoc 2 0 4]] in
  Forall ascending ls
  /\ read_plan ls [4; 0] = Ok [mkBR 1 [None; Some (0%nat, 0)]; mkBR 2 [Some (1%nat, 1); Some (0%nat, 0)]]
  /\ needed (hd [] ls) 4 = [(2%nat, 1%nat, 1)].
Proof.
  cbn zeta. split; [|vm_compute; split; reflexivity].
  repeat constructor; cbn; lia.
Qed.

(** ** C33 Reading an unknown channel is refused *)
Theorem C33_unknown_channel : forall E H F t chans1 p chans2 start outs,
  session E H F -> Forall (mentioned (all_objs H)) chans1 -> ~ mentioned (all_objs H) p ->
  read_channels_from E F t (chans1 ++ p :: chans2) start outs = (outs, Err (EMissingObject p)).
Proof.
  intros E H F t chans1 p chans2 start outs Se M Np. unfold read_channels_from, ix_read_channels_from.
  destruct (C14_incremental E H F Se) as [_ [_ [_ [_ [Gp Gn]]]]].
  replace (lookup_positions (tf_ix F) (chans1 ++ p :: chans2)) with (Err (A := list (list loc)) (EMissingObject p)); [reflexivity|].
  induction M as [|q chans1 Mq M IH]; cbn [app lookup_positions].
  - now rewrite (Gn p Np).
  - rewrite (Gp q Mq), <- IH. reflexivity.
Qed.
Theorem C33_unknown_single : forall E H F t p start out,
  session E H F -> ~ mentioned (all_objs H) p ->
  read_channel_from E F t p start out = (out, Err (EMissingObject p)).
Proof.
  intros E H F t p start out Se Np. unfold read_channel_from.
  destruct (C14_incremental E H F Se) as [_ [_ [_ [_ [_ Gn]]]]]. now rewrite (Gn p Np).
Qed.
(** Groups are objects, but mentioned ones have no samples: reading them is
    not an error. *)
Theorem C33_known : forall E H F t p start out,
  session E H F -> mentioned (all_objs H) p -> locs_after H p = [] ->
  read_channel_from E F t p start out = (out, Ok tt).
Proof.
  intros E H F t p start out Se M L. unfold read_channel_from.
  destruct (session_locs E H F p Se M) as [-> _]. rewrite L. reflexivity.
Qed.
Example C33_case :
  read_channels dbg read_F SI32 [ch "g" "a"; ch "g" "x"; ch "g" "y"] [[5]; [6]; [7]]%Z
  = ([[5]; [6]; [7]]%Z, Err (EMissingObject (ch "g" "x")))
  /\ read_channel dbg (open_bytes dbg (tf_bytes C14_file)) SI32 (B "/'g'") [5]%Z = ([5]%Z, Ok tt).
Proof. vm_compute. split; reflexivity. Qed.

(** ** C35 Reads stay inside the data block they are reading *)
Lemma prefix_bytes {A} (g : A -> N) : forall (ms : list A) i m, nth_error ms i = Some m ->
  fold_right (fun m a => g m + a) 0 (firstn i ms) + g m <= fold_right (fun m a => g m + a) 0 ms.
Proof.
  induction ms as [|x ms IH]; intros [|i] m Hi; cbn [nth_error firstn fold_right] in *; try discriminate.
  - injection Hi as ->. lia.
  - specialize (IH i m Hi). lia.
Qed.
Lemma prefix_order {A} (g : A -> N) : forall (ms : list A) i j m, nth_error ms i = Some m -> (i < j)%nat ->
  fold_right (fun m a => g m + a) 0 (firstn i ms) + g m <= fold_right (fun m a => g m + a) 0 (firstn j ms).
Proof.
  induction ms as [|x ms IH]; intros [|i] [|j] m Hi Hj; cbn [nth_error firstn fold_right] in *; try discriminate; try lia.
  - injection Hi as ->. lia.
  - specialize (IH i j m Hi ltac:(lia)). lia.
Qed.

(** Every sample lies within the raw data of its block, which is present. *)
Theorem C35_inside : forall f b i k m,
  whole_block f b -> nth_error (b_chans b) i = Some m -> k < rm_n m * whole_chunks b ->
  b_start b <= sample_addr b i k
  /\ sample_addr b i k + width (rm_type m) <= b_start b + b_len b
  /\ sample_addr b i k + width (rm_type m) <= lenN f.
Proof.
  intros f b i k m [n [c [Hn [Hc [Hne [Hu [Hch Hin]]]]]]] Hm Hk.
  assert (Hp : 0 < sub_bytes (b_chans b)) by (apply (sub_bytes_pos n); assumption).
  assert (Hw : Forall (fun m => 0 < width (rm_type m)) (b_chans b)) by (eapply Forall_impl; [|exact Hu]; intros a [_ X]; exact X).
  rewrite (whole_chunks_of b c Hw Hp Hch) in Hk.
  assert (Mn : rm_n m = n) by (rewrite Forall_forall in Hu; apply Hu; eapply nth_error_In; eauto).
  rewrite Mn in Hk.
  assert (Hl : c * sub_bytes (b_chans b) <= b_len b).
  { unfold chunks in Hch. destruct (b_layout b); [lia|]. rewrite <- Hch, N.mul_comm. apply N.mul_div_le. lia. }
  assert (X : b_start b <= sample_addr b i k
     /\ sample_addr b i k + width (rm_type m) <= b_start b + c * sub_bytes (b_chans b)); [|lia].
  unfold sample_addr. destruct (b_layout b).
  - pose proof (prefix_bytes (fun m => width (rm_type m)) _ _ _ Hm) as P. cbv beta in P. fold (row_bytes (firstn i (b_chans b))) in P.
    fold (row_bytes (b_chans b)) in P. cbv beta in P.
    rewrite (sub_row n) by (eapply Forall_impl; [|exact Hu]; intros a [Y _]; exact Y).
    split; [lia|].
    assert ((k + 1) * row_bytes (b_chans b) <= (n * c) * row_bytes (b_chans b)) by (apply N.mul_le_mono_r; lia). lia.
  - rewrite Hm. pose proof (prefix_bytes (fun m => rm_n m * width (rm_type m)) _ _ _ Hm) as P. cbv beta in P.
    fold (sub_bytes (firstn i (b_chans b))) in P. fold (sub_bytes (b_chans b)) in P. cbv beta in P. rewrite Mn in *.
    assert (Q : k / n < c) by (apply N.div_lt_upper_bound; lia).
    assert (R : k mod n < n) by (apply N.mod_lt; lia). set (q := k / n) in *. set (r := k mod n) in *.
    split; [lia|].
    assert (r * width (rm_type m) + width (rm_type m) <= n * width (rm_type m)) by nia.
    assert ((q + 1) * sub_bytes (b_chans b) <= c * sub_bytes (b_chans b)) by (apply N.mul_le_mono_r; lia). lia.
Qed.

(** Different samples of a block do not share bytes. *)
Theorem C35_disjoint : forall f b i k m i' k' m',
  whole_block f b -> nth_error (b_chans b) i = Some m -> nth_error (b_chans b) i' = Some m' ->
  (i, k) <> (i', k') ->
  sample_addr b i k + width (rm_type m) <= sample_addr b i' k'
  \/ sample_addr b i' k' + width (rm_type m') <= sample_addr b i k.
Proof.
  intros f b. assert (G : forall i k m i' k' m', whole_block f b -> nth_error (b_chans b) i = Some m ->
    nth_error (b_chans b) i' = Some m' ->
    match b_layout b with
    | Interleaved => k < k' \/ (k = k' /\ (i < i')%nat)
    | Contigious => k / rm_n m < k' / rm_n m' \/ (k / rm_n m = k' / rm_n m' /\ (i < i')%nat)
        \/ (k / rm_n m = k' / rm_n m' /\ i = i' /\ k mod rm_n m < k' mod rm_n m')
    end ->
    sample_addr b i k + width (rm_type m) <= sample_addr b i' k').
  { intros i k m i' k' m' [n [c [Hn [Hc [Hne [Hu [Hch Hin]]]]]]] Hm Hm' Ord.
    assert (Mn : rm_n m = n) by (rewrite Forall_forall in Hu; apply Hu; eapply nth_error_In; eauto).
    assert (Mn' : rm_n m' = n) by (rewrite Forall_forall in Hu; apply Hu; eapply nth_error_In; eauto).
    unfold sample_addr. destruct (b_layout b).
    - pose proof (prefix_bytes (fun m => width (rm_type m)) _ _ _ Hm) as P. cbv beta in P. fold (row_bytes (firstn i (b_chans b))) in P.
      fold (row_bytes (b_chans b)) in P. cbv beta in P. destruct Ord as [O|[-> O]]; [nia|].
      pose proof (prefix_order (fun m => width (rm_type m)) _ _ _ _ Hm O) as P2. cbv beta in P2.
      fold (row_bytes (firstn i (b_chans b))) (row_bytes (firstn i' (b_chans b))) in P2. cbv beta in P2. lia.
    - rewrite Hm, Hm'. pose proof (prefix_bytes (fun m => rm_n m * width (rm_type m)) _ _ _ Hm) as P. cbv beta in P.
      fold (sub_bytes (firstn i (b_chans b))) in P. fold (sub_bytes (b_chans b)) in P. cbv beta in P. rewrite Mn, Mn' in *.
      assert (R : k mod n < n) by (apply N.mod_lt; lia). assert (R' : k' mod n < n) by (apply N.mod_lt; lia).
      set (q := k / n) in *. set (r := k mod n) in *. set (q' := k' / n) in *. set (r' := k' mod n) in *.
      assert (W1 : r * width (rm_type m) + width (rm_type m) <= n * width (rm_type m)) by nia.
      destruct Ord as [O|[[O1 O]|[O1 [O O2]]]].
      + assert (q * sub_bytes (b_chans b) + sub_bytes (b_chans b) <= q' * sub_bytes (b_chans b)) by nia. lia.
      + pose proof (prefix_order (fun m => rm_n m * width (rm_type m)) _ _ _ _ Hm O) as P2. cbv beta in P2.
        fold (sub_bytes (firstn i (b_chans b))) (sub_bytes (firstn i' (b_chans b))) in P2. cbv beta in P2. rewrite Mn in P2. nia.
      + subst i'. replace m' with m by congruence. rewrite O1. nia. }
  intros i k m i' k' m' W Hm Hm' Ne. pose proof W as [n [c [Hn [_ [_ [Hu _]]]]]].
  assert (Mn : rm_n m = n) by (rewrite Forall_forall in Hu; apply Hu; eapply nth_error_In; eauto).
  assert (Mn' : rm_n m' = n) by (rewrite Forall_forall in Hu; apply Hu; eapply nth_error_In; eauto).
  pose proof (G i k m i' k' m' W Hm Hm') as G1. pose proof (G i' k' m' i k m W Hm' Hm) as G2. clear G.
  destruct (b_layout b).
  - destruct (N.lt_trichotomy k k') as [L|[L|L]]; [left; auto| |right; auto].
    destruct (Nat.lt_trichotomy i i') as [J|[J|J]]; [left; auto| |right; auto]. exfalso. apply Ne. congruence.
  - rewrite Mn, Mn' in *.
    destruct (N.lt_trichotomy (k / n) (k' / n)) as [L|[L|L]]; [left; auto| |right; auto].
    destruct (Nat.lt_trichotomy i i') as [J|[J|J]]; [left; auto| |right; auto].
    destruct (N.lt_trichotomy (k mod n) (k' mod n)) as [X|[X|X]]; [left; apply G1; auto| |right; apply G2; auto].
    exfalso. apply Ne. f_equal; [exact J|]. rewrite (N.div_mod' k n), (N.div_mod' k' n). congruence.
Qed.

(** Two files that agree on the raw data of the blocks that list a channel have
    the same samples of it, so by C28 reads return nothing else. *)
Definition agree (f g : list byte) (b : dblock) : Prop :=
  forall a n, b_start b <= a -> a + n <= b_start b + b_len b -> slice f a n = slice g a n.
Theorem C35_only_own_data : forall f g t H p,
  stored f t H p ->
  (forall l b, In l (locs_after H p) -> nth_error (blocks_after H) (l_block l) = Some b -> agree f g b) ->
  samples_after f t H p = samples_after g t H p.
Proof.
  intros f g t H p St Ag. unfold samples_after, samples_at. f_equal. apply map_ext_in. intros l Hl.
  unfold stored in St. rewrite Forall_forall in St. destruct (St l Hl) as [b [m [Hb [W [Hm _]]]]].
  pose proof (locs_located H p) as Lo. rewrite Forall_forall in Lo. destruct (Lo l Hl) as [b' [m' [Hb' [Hm' Ln]]]].
  rewrite Hb in Hb'. injection Hb' as <-. rewrite Hm in Hm'. injection Hm' as <-.
  unfold loc_samples. rewrite Hb. unfold block_samples. apply map_ext_in. intros k Hk. apply in_seq in Hk.
  unfold sample. rewrite Hm. f_equal. apply (Ag l b Hl Hb).
  - eapply C35_inside; eauto. rewrite <- Ln. lia.
  - eapply C35_inside; eauto. rewrite <- Ln. lia.
Qed.
Theorem C35_reads : forall E E' H F F' t p start out,
  session E H F -> session E' H F' -> fixed t -> addressable E (tf_bytes F) -> addressable E' (tf_bytes F') ->
  mentioned (all_objs H) p -> stored (tf_bytes F) t H p -> stored (tf_bytes F') t H p ->
  (forall l b, In l (locs_after H p) -> nth_error (blocks_after H) (l_block l) = Some b ->
     agree (tf_bytes F) (tf_bytes F') b) ->
  read_channel_from E F t p start out = read_channel_from E' F' t p start out.
Proof.
  intros E E' H F F' t p start out Se Se' Fx Ad Ad' M St St' Ag.
  rewrite (C28_window E H F), (C28_window E' H F') by assumption.
  now rewrite (C35_only_own_data (tf_bytes F) (tf_bytes F') t H p St Ag).
Qed.
(** [pair_file] and the same file with the other channel's samples changed. *)
Definition pair_file' : list byte :=
  seg_i32 LittleE false [ch "g" "a"; ch "g" "b"] 3 [1; 2; 3; 7; 7; 7]%Z
  ++ seg_i32 LittleE true [ch "g" "b"; ch "g" "a"] 3 [-1; 4; -1; 5; -1; 6]%Z.
Example C35_case :
  whole_block pair_file (nth 1 (ix_blocks (tf_ix pair_F)) (mkBlock 0 0 Interleaved [] LittleE))
  /\ map (fun b => (b_start b, b_len b)) (ix_blocks (tf_ix pair_F)) = [(104, 24); (232, 24)]
  /\ map (sample_addr (nth 0 (ix_blocks (tf_ix pair_F)) (mkBlock 0 0 Interleaved [] LittleE)) 1) [0; 1; 2] = [116; 120; 124]
  /\ map (sample_addr (nth 1 (ix_blocks (tf_ix pair_F)) (mkBlock 0 0 Interleaved [] LittleE)) 1) [0; 1; 2] = [236; 244; 252]
  /\ lenN pair_file = 256
  /\ read_channel dbg (open_bytes dbg pair_file') SI32 (ch "g" "a") [0; 0; 0; 0; 0; 0]%Z
     = read_channel dbg pair_F SI32 (ch "g" "a") [0; 0; 0; 0; 0; 0]%Z.
Proof.
  split; [apply whole_check_ok; vm_compute; reflexivity|]. vm_compute. repeat split; reflexivity.
Qed.

(** ** C36 Reported length and readable samples agree *)
Lemma locs_in_sum path j c : forall act ms i,
  fold_right (fun l a => l_n l + a) 0 (locs_in path j i c act ms)
  = fold_right N.add 0 (map (fun pm => if str_eqb path (fst pm) then rm_n (snd pm) * c else 0) (combine act ms)).
Proof.
  induction act as [|p act IH]; intros [|m ms] i; cbn [locs_in combine map fold_right]; try reflexivity.
  rewrite fold_right_app, IH. cbn [fst snd]. destruct (str_eqb path p); reflexivity.
Qed.
Lemma locs_sum path : forall H pre,
  fold_right (fun l a => l_n l + a) 0 (locs_from path pre H) = length_from path pre H.
Proof.
  induction H as [|s H IH]; intros pre; cbn [locs_from length_from]; [reflexivity|].
  assert (Fa : forall l r, fold_right (fun l a => l_n l + a) 0 (l ++ r)
     = fold_right (fun l a => l_n l + a) 0 l + fold_right (fun l a => l_n l + a) 0 r).
  { induction l as [|x l IHl]; intros r; cbn [app fold_right]; [reflexivity|]. rewrite IHl. lia. }
  rewrite Fa, IH. f_equal. destruct (toc_raw (sg_toc s)); [|reflexivity]. unfold samples_in. apply locs_in_sum.
Qed.
Theorem C36_samples_count : forall f t H p,
  lenN (samples_after f t H p) = length_after H p.
Proof.
  intros f t H p. unfold length_after. rewrite <- (locs_sum p H []). fold (locs_after H p).
  unfold samples_after, samples_at. pose proof (locs_located H p) as Lo.
  induction Lo as [|l ls Hl Lo IH]; [reflexivity|]. cbn [map concat fold_right]. unfold lenN in *.
  rewrite app_length, Nat2N.inj_add, IH. f_equal. destruct Hl as [b [m [Hb [_ _]]]]. unfold loc_samples. rewrite Hb.
  unfold block_samples. rewrite map_length, seq_length. apply N2Nat.id.
Qed.
(** A buffer of the reported length is filled completely, and one longer only up
    to it. *)
Theorem C36_length_readable : forall E H F t p n out,
  session E H F -> fixed t -> addressable E (tf_bytes F) ->
  mentioned (all_objs H) p -> stored (tf_bytes F) t H p ->
  length_after H p < 2 ^ 64 ->
  channel_length E F p = Ok (Some n) -> n <= lenN out ->
  exists vs, lenN vs = n /\ read_channel E F t p out = (vs ++ skipn (N.to_nat n) out, Ok tt)
    /\ vs = samples_after (tf_bytes F) t H p.
Proof.
  intros E H F t p n out Se Fx Ad M St Lt L Big.
  destruct (C19_channel_length E H F p Se) as [C _]. rewrite (C Lt M) in L. injection L as <-.
  exists (samples_after (tf_bytes F) t H p). split; [apply C36_samples_count|]. split; [|reflexivity].
  unfold read_channel. rewrite (C28_window E H F) by assumption. change (N.to_nat 0) with 0%nat. cbn [skipn].
  pose proof (C36_samples_count (tf_bytes F) t H p) as Q. unfold lenN in *.
  unfold overlay. rewrite firstn_all2 by lia. do 3 f_equal. lia.
Qed.
Example C36_case :
  channel_length dbg read_F (ch "g" "a") = Ok (Some 11)
  /\ read_channel dbg read_F SI32 (ch "g" "a") (repeat 0 12)%Z = ([1; 2; 3; 4; 5; 6; 7; 8; 9; 10; 11; 0]%Z, Ok tt).
Proof. vm_compute. split; reflexivity. Qed.
(** Timestamps: the file holds 16 bytes each, the length is counted with 8
    (meta_data.rs size of TimeStamp): twice the number of samples. *)
Theorem C36_timestamp_refuted : exists F p,
  write_channels dbg STime empty_file [p] [1; 2; 3] Contigious = (F, Ok tt)
  /\ channel_length dbg F p = Ok (Some 6)
  /\ read_channel dbg F STime p [0; 0; 0; 0; 0; 0] = ([1; 2; 3; 0; 0; 0], Ok tt).
Proof.
  exists (fst (write_channels dbg STime empty_file [ch "g" "a"] [1; 2; 3] Contigious)), (ch "g" "a").
  vm_compute. repeat split; reflexivity.
Qed.
(** Interleaved data whose size is not a whole number of chunks: reads return
    more rows than the reported length, but none when starting at it. *)
Theorem C36_partial_chunk_refuted : exists f F p,
  tdms_new dbg f = Ok F /\ channel_length dbg F p = Ok (Some 2)
  /\ read_channel dbg F SI32 p [0; 0; 0; 0]%Z = ([1; 2; 3; 0]%Z, Ok tt)
  /\ read_channel_from dbg F SI32 p 1 [0; 0; 0; 0]%Z = ([2; 3; 0; 0]%Z, Ok tt)
  /\ read_channel_from dbg F SI32 p 2 [0; 0; 0; 0]%Z = ([0; 0; 0; 0]%Z, Ok tt).
Proof.
  set (f := seg_i32 LittleE true [ch "g" "a"; ch "g" "b"] 2 [1; 101; 2; 102; 3; 103]%Z).
  exists f, (open_bytes dbg f), (ch "g" "a"). vm_compute. repeat split; reflexivity.
Qed.

(** ** C32 Reading with the wrong type is refused *)
Lemma validate_fails t chans : forall reqs q m,
  Forall (fun q => nth_error chans (rq_chan q) <> None) reqs ->
  In q reqs -> nth_error chans (rq_chan q) = Some m -> supports t (rm_type m) = false ->
  exists q' m', In q' reqs /\ nth_error chans (rq_chan q') = Some m' /\ supports t (rm_type m') = false
    /\ validate t reqs chans = Err (EDataTypeMismatch (rm_type m') (natural t)).
Proof.
  induction reqs as [|q0 reqs IH]; intros q m A Hq Hm Hs; [contradiction|].
  inversion A as [|x l A1 A2]; subst x l. cbn [validate].
  destruct (nth_error chans (rq_chan q0)) as [m0|] eqn:M0; [|contradiction].
  destruct (supports t (rm_type m0)) eqn:S0.
  - destruct Hq as [->|Hq]; [congruence|]. destruct (IH q m A2 Hq Hm Hs) as [q' [m' [A3 B3]]].
    exists q', m'. split; [now right|exact B3].
  - exists q0, m0. split; [now left|]. auto.
Qed.
Lemma store_nothing {V} : forall plans prs (outs : list (list V)),
  store plans prs outs (map (fun _ => []) (block_requests plans prs)) = outs.
Proof.
  assert (Sp : forall (o : list V) n, splice o n [] = o).
  { intros o n. unfold splice. cbn [app length]. rewrite Nat.add_0_r. apply firstn_skipn. }
  induction plans as [|p plans IH]; intros [|pr prs] [|o outs]; cbn [store block_requests map]; try reflexivity.
  destruct p as [[c s]|]; [|now rewrite IH]. destruct (complete pr) eqn:K; [now rewrite IH|].
  cbn [map]. now rewrite Sp, IH.
Qed.

(** Single channel: the type of the first block that would be read. *)
Theorem C32_wrong_type : forall E H F t p start out j c s rest b m,
  session E H F -> mentioned (all_objs H) p -> out <> [] ->
  needed (locs_after H p) start = (j, c, s) :: rest ->
  nth_error (blocks_after H) j = Some b -> nth_error (b_chans b) c = Some m ->
  ~ In (rm_type m) (stored_as t) ->
  read_channel_from E F t p start out = (out, Err (EDataTypeMismatch (rm_type m) (natural t))).
Proof.
  intros E H F t p start out j c s rest b m Se M Ne Hn Hb Hm Ht. unfold read_channel_from.
  destruct (session_locs E H F p Se M) as [-> _].
  assert (Mf : Forall (mentioned (all_objs H)) [p]) by (repeat constructor; exact M).
  destruct (plan_ok E H F Se [p] start Mf) as [plan [Hp [Ps [Sh Hpl]]]]. cbn [map length repeat] in Hp. rewrite Hp.
  specialize (Hpl 0%nat p eq_refl). rewrite Hn in Hpl.
  destruct plan as [|br plan]; [discriminate|]. inversion Sh as [|x l [Ln [c0 [s0 Hin]]] Sh']; subst x l.
  destruct (br_chans br) as [|x [|y l]] eqn:Eb; try discriminate. destruct Hin as [->|[]].
  assert (Q : (br_block br, c0, s0) = (j, c, s)).
  { unfold planned in Hpl. cbn [flat_map] in Hpl. rewrite Eb in Hpl. cbn [nth_error app] in Hpl. congruence. }
  injection Q as Ej -> ->. unfold execute_read_plan. cbn [map execute].
  destruct (C14_incremental E H F Se) as [_ [_ [_ [Hbs _]]]]. unfold get_data_block. rewrite Hbs, Ej, Hb, Eb.
  assert (K : complete (mkPr 0 (lenN out)) = false).
  { unfold complete. cbn [pr_target pr_read]. apply N.leb_gt. destruct out; [contradiction|]. unfold lenN. cbn [length]. lia. }
  cbn [block_requests]. rewrite K. set (q := mkReq c _ s).
  assert (Su : supports t (rm_type m) = false).
  { destruct (supports t (rm_type m)) eqn:X; [|reflexivity]. apply stored_as_supports in X. contradiction. }
  assert (V : build_record_plan (V := carrier t) t (b_chans b) [q] = Err (EDataTypeMismatch (rm_type m) (natural t))).
  { unfold build_record_plan. cbn [validate]. replace (rq_chan q) with c by reflexivity. rewrite Hm, Su. reflexivity. }
  assert (R : (if any_skip [Some (c, s)] then block_read_skips E (tf_bytes F) t b [q] else block_read E (tf_bytes F) t b [q])
     = ([[]], Err (EDataTypeMismatch (rm_type m) (natural t)))).
  { destruct (any_skip _); unfold block_read_skips, block_read; rewrite V; reflexivity. }
  rewrite R. cbn [store]. rewrite K. reflexivity.
Qed.

(** Several channels: the first block of the plan holds a channel of a wrong
    type; nothing has been stored. *)
Theorem C32_wrong_type_multi : forall E H F t chans start outs i p o j c s rest b m,
  session E H F -> Forall (mentioned (all_objs H)) chans -> length outs = length chans ->
  nth_error chans i = Some p -> nth_error outs i = Some o -> o <> [] ->
  needed (locs_after H p) start = (j, c, s) :: rest ->
  (forall q j' c' s', In q chans -> In (j', c', s') (needed (locs_after H q) start) -> (j <= j')%nat) ->
  nth_error (blocks_after H) j = Some b -> nth_error (b_chans b) c = Some m ->
  ~ In (rm_type m) (stored_as t) ->
  exists d, ~ In d (stored_as t)
    /\ read_channels_from E F t chans start outs = (outs, Err (EDataTypeMismatch d (natural t))).
Proof.
  intros E H F t chans start outs i p o j c s rest b m Se M Lo Hi Ho Ne Hn Min Hb Hm Ht.
  unfold read_channels_from, ix_read_channels_from. rewrite (lookup_ok E H F Se) by exact M. cbn [bind].
  destruct (plan_ok E H F Se chans start M) as [plan [Hp [Ps [Sh Hpl]]]]. rewrite Hp.
  pose proof (Hpl i p Hi) as Hpi. rewrite Hn in Hpi.
  assert (I0 : In (j, c, s) (planned i plan)) by (rewrite Hpi; now left).
  apply in_planned in I0. destruct I0 as [br [Hbr [Ej Hbi]]].
  rewrite Forall_forall in Sh.
  destruct plan as [|br0 plan]; [contradiction|].
  assert (E0 : br0 = br).
  { destruct (Sh br0 (or_introl eq_refl)) as [Ln [c0 [s0 Hin]]]. apply In_nth_error in Hin. destruct Hin as [i0 Hi0].
    assert (L0 : (i0 < length chans)%nat) by (rewrite <- Ln; apply nth_error_Some; congruence).
    destruct (nth_error chans i0) as [p0|] eqn:P0; [|apply nth_error_Some in L0; contradiction].
    pose proof (planned_in i0 (br0 :: plan) br0 c0 s0 (or_introl eq_refl) Hi0) as X.
    rewrite (Hpl i0 p0 P0) in X. apply Min in X; [|eapply nth_error_In; eauto].
    destruct Hbr as [|Hbr]; [assumption|]. cbn [map] in Ps. inversion Ps as [|x l Ps' Fl]; subst x l.
    rewrite Forall_forall in Fl. specialize (Fl _ (in_map br_block _ _ Hbr)). lia. }
  subst br0. clear Hbr. destruct (C14_incremental E H F Se) as [_ [_ [_ [Hbs _]]]].
  unfold execute_read_plan. cbn [execute]. unfold get_data_block. rewrite Hbs, Ej, Hb.
  set (prs := map (fun o => mkPr 0 (lenN o)) outs). set (reqs := block_requests (br_chans br) prs).
  assert (Q : exists q, In q reqs /\ rq_chan q = c).
  { assert (Np : nth_error prs i = Some (mkPr 0 (lenN o))) by (unfold prs; rewrite nth_error_map, Ho; reflexivity).
    eexists. split; [eapply requests_in; [exact Hbi|exact Np|]|reflexivity].
    unfold complete. cbn [pr_target pr_read]. apply N.leb_gt. destruct o; [contradiction|]. unfold lenN. cbn [length]. lia. }
  destruct Q as [q [Hq Hqc]].
  assert (Va : Forall (fun q => nth_error (b_chans b) (rq_chan q) <> None) reqs).
  { apply Forall_forall. intros q' Hq'. apply in_requests in Hq'.
    destruct Hq' as [i' [c' [s' [pr' [A1 [A2 [_ ->]]]]]]]. cbn [rq_chan].
    destruct (Sh br (or_introl eq_refl)) as [Ln _].
    assert (L0 : (i' < length chans)%nat) by (rewrite <- Ln; apply nth_error_Some; congruence).
    destruct (nth_error chans i') as [p'|] eqn:P'; [|apply nth_error_Some in L0; contradiction].
    pose proof (planned_in i' (br :: plan) br c' s' (or_introl eq_refl) A1) as X.
    rewrite (Hpl i' p' P') in X. apply needed_in in X. destruct X as [l [Hl [L1 [L2 _]]]].
    pose proof (locs_located H p') as Lc. rewrite Forall_forall in Lc. destruct (Lc l Hl) as [b' [m' [B1 [B2 _]]]].
    rewrite L1, Ej, Hb in B1. injection B1 as <-. rewrite L2 in B2. congruence. }
  assert (Su : supports t (rm_type m) = false).
  { destruct (supports t (rm_type m)) eqn:X; [|reflexivity]. apply stored_as_supports in X. contradiction. }
  rewrite <- Hqc in Hm. destruct (validate_fails t (b_chans b) reqs q m Va Hq Hm Su) as [q' [m' [_ [_ [Su' Ve]]]]].
  exists (rm_type m'). split.
  { intros X. apply stored_as_supports in X. congruence. }
  assert (V : build_record_plan (V := carrier t) t (b_chans b) reqs = Err (EDataTypeMismatch (rm_type m') (natural t))).
  { unfold build_record_plan. rewrite Ve. reflexivity. }
  assert (R : (if any_skip (br_chans br) then block_read_skips E (tf_bytes F) t b reqs else block_read E (tf_bytes F) t b reqs)
     = (map (fun _ => []) reqs, Err (EDataTypeMismatch (rm_type m') (natural t)))).
  { destruct (any_skip _); unfold block_read_skips, block_read; rewrite V; reflexivity. }
  rewrite R. cbn [recast]. f_equal. unfold reqs. apply store_nothing.
Qed.
Example C32_case :
  read_channel_from dbg read_F SU32 (ch "g" "a") 4 [9; 9] = ([9; 9], Err (EDataTypeMismatch I32 U32))
  /\ (exists H, session dbg H read_F /\ mentioned (all_objs H) (ch "g" "a")
        /\ needed (locs_after H (ch "g" "a")) 4 = [(1%nat, 1%nat, 1); (2%nat, 1%nat, 0)])
  /\ ~ In I32 (stored_as SU32).
Proof.
  split; [vm_compute; reflexivity|]. split; [|cbn; intros [X|[]]; discriminate].
  assert (O : tdms_new dbg read_file = Ok read_F) by (vm_compute; reflexivity).
  destruct (C14_open_is_session _ _ _ O) as [H [_ [Se _]]]. exists H. split; [exact Se|].
  destruct (session_stored dbg _ _ H SI32 (ch "g" "a") [mkLoc 0 0 3; mkLoc 1 1 6; mkLoc 2 1 2] O Se) as [M St];
    [vm_compute; reflexivity..|].
  split; [exact M|]. destruct (C14_incremental _ _ _ Se) as [_ [_ [_ [_ [Gp _]]]]].
  assert (X : get_positions (tf_ix read_F) (ch "g" "a") = Some [mkLoc 0 0 3; mkLoc 1 1 6; mkLoc 2 1 2])
    by (vm_compute; reflexivity).
  rewrite (Gp _ M) in X. injection X as ->. reflexivity.
Qed.

Print Assumptions C28_window.
Print Assumptions C28_uneven_refuted.
Print Assumptions C29_compose.
Print Assumptions C29_read_channel.
Print Assumptions C29_past_end.
Print Assumptions C30_aligned_partial.
Print Assumptions C30_whole_channels_partial.
Print Assumptions C30_interleaved_partial.
Print Assumptions C30_lengths_refuted.
Print Assumptions C30_unaligned_refuted.
Print Assumptions C30_start_refuted.
Print Assumptions C30_duplicate_refuted.
Print Assumptions C31_plan.
Print Assumptions C33_unknown_channel.
Print Assumptions C33_unknown_single.
Print Assumptions C33_known.
Print Assumptions C35_inside.
Print Assumptions C35_disjoint.
Print Assumptions C35_only_own_data.
Print Assumptions C35_reads.
Print Assumptions C36_samples_count.
Print Assumptions C36_length_readable.
Print Assumptions C36_timestamp_refuted.
Print Assumptions C36_partial_chunk_refuted.
Print Assumptions C32_wrong_type.
Print Assumptions C32_wrong_type_multi.
