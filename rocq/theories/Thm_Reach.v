(** * Claim C111: the whole outcome of reading one channel *)
From Coq Require Import Strings.String.
From Verif Require Import Base Lib DataTypes MetaData Maps DataBlock Index RawData ChannelReader TdmsFile
  SpecIndex SpecSession SpecRead SpecUneven SpecSeen SpecCutFile SpecReach Block_proofs Request_proofs Plan_proofs Read_proofs
  Session_proofs Uneven_proofs Seen_proofs Cut_proofs CutFile_proofs Reach_proofs Index_proofs Deliver_proofs Thm_Index Vectors
  Thm_Open Thm_Read Thm_Multi Thm_Uneven Thm_Extent Thm_Seen Thm_Mixed.
Close Scope string_scope.

Lemma reach_planned E H F t p start plan :
  session E H F -> reachable E t H p ->
  Forall (fun br => length (br_chans br) = 1%nat /\ exists c s, In (Some (c, s)) (br_chans br)) plan ->
  SpecRead.planned 0 plan = needed (locs_after H p) start ->
  reach_plan E t (tf_ix F) plan.
Proof.
  intros Se St Sh Hn. destruct (C14_incremental E H F Se) as [_ [_ [_ [Hb _]]]].
  apply Forall_forall. intros br Hbr. rewrite Forall_forall in Sh. destruct (Sh br Hbr) as [Ln [c [s Hc]]].
  destruct (br_chans br) as [|x [|]] eqn:Ec; try discriminate. destruct Hc as [->|[]].
  pose proof (planned_in 0 plan br c s Hbr ltac:(rewrite Ec; reflexivity)) as Pl. rewrite Hn in Pl.
  apply needed_in in Pl. destruct Pl as [l [Hl [Lb [Lc Lt]]]].
  unfold reachable in St. rewrite Forall_forall in St. destruct (St l Hl ltac:(lia)) as [b [m [B1 W]]].
  pose proof (locs_located H p) as Lo. rewrite Forall_forall in Lo. destruct (Lo l Hl) as [b' [m' [B2 [M2 L2]]]].
  rewrite B1 in B2. injection B2 as <-. pose proof W as [M _]. rewrite M in M2. injection M2 as <-.
  exists b, c, s, m. rewrite Hb. rewrite <- Lb, <- Lc. split; [now rewrite Lc|]. do 2 (split; [assumption|]). lia.
Qed.

(** ** C111 The whole outcome of a single-channel read *)
(** Blocks of any make-up, in the file or not.  The values come from the places
    [sought], up to the first place that is not wholly in the file; the rest of
    the buffer stays; the call succeeds exactly if all places of the window are
    in the file, and with them the one behind the window if the window ends
    inside an interleaved block. *)
Theorem C111_window : forall E H F t p start out,
  session E H F -> t <> SExt -> t <> SStr -> mentioned (all_objs H) p -> reachable E t H p -> out <> [] ->
  let f := tf_bytes F in
  let want := firstn (length out) (sought t (blocks_after H) (locs_after H p) start) in
  read_channel_from E F t p start out
  = (overlay out (map (value_at f t) (while (present f t) want)),
     if forallb (present f t) (want ++ peeked t (blocks_after H) (needed (locs_after H p) start) (length out))
     then Ok tt else Err (EIo UnexpectedEof)).
Proof.
  intros E H F t p start out Se X1 X2 Me St Ne f want. unfold read_channel_from.
  destruct (session_locs E H F p Se Me) as [-> _].
  assert (Mf : Forall (mentioned (all_objs H)) [p]) by (repeat constructor; exact Me).
  destruct (plan_ok E H F Se [p] start Mf) as [plan [Hp [Ps [Sh Hn]]]]. cbn [map length repeat] in Hp. rewrite Hp.
  specialize (Hn 0%nat p eq_refl). cbn [length] in Sh.
  destruct (C14_incremental E H F Se) as [_ [_ [_ [Hb _]]]].
  unfold execute_read_plan. cbn [map].
  assert (L0 : 0 < lenN out) by (destruct out; [congruence|unfold lenN; cbn [length]; lia]).
  rewrite (execute_reach E (tf_bytes F) t (tf_ix F) (conj X1 X2) plan (mkPr 0 (lenN out)) out
    (reach_planned E H F t p start plan Se St Sh Hn) eq_refl L0).
  cbn [pr_read pr_target]. rewrite N.sub_0_r.
  replace (N.to_nat (lenN out)) with (length out) by (unfold lenN; lia). rewrite Hn, Hb. reflexivity.
Qed.

(** When the call succeeds, in words of the bytes. *)
Theorem C111_succeeds : forall E H F t p start out,
  session E H F -> t <> SExt -> t <> SStr -> mentioned (all_objs H) p -> reachable E t H p -> out <> [] ->
  snd (read_channel_from E F t p start out) = Ok tt
  <-> forall q, In q (firstn (length out) (sought t (blocks_after H) (locs_after H p) start)
                      ++ peeked t (blocks_after H) (needed (locs_after H p) start) (length out)) ->
        snd q + size_bytes t <= lenN (tf_bytes F).
Proof.
  intros E H F t p start out Se X1 X2 Me St Ne. rewrite (C111_window E H F t p start out) by assumption. cbn [snd].
  set (w := _ ++ _). destruct (forallb (present (tf_bytes F) t) w) eqn:A; split; intros X; try discriminate; try reflexivity.
  - intros q Hq. rewrite forallb_forall in A. specialize (A q Hq). unfold present in A. lia.
  - exfalso. assert (Y : forallb (present (tf_bytes F) t) w = true); [|congruence].
    apply forallb_forall. intros q Hq. specialize (X q Hq). unfold present. lia.
Qed.

(** The values at the places are those of C98, and blocks that are in the file
    can be reached: C98 is the case in which nothing is missing. *)
Theorem C111_whole : forall E f t H p, t <> SExt -> t <> SStr -> addressable E f -> seen_stored E f t H p ->
  reachable E t H p
  /\ forall start, map (value_at f t) (sought t (blocks_after H) (locs_after H p) start) = seen f t (blocks_after H) (locs_after H p) start.
Proof.
  intros E f t H p X1 X2 [A1 A2] St. split.
  - unfold seen_stored, reachable in *. eapply Forall_impl; [|exact St]. cbv beta. intros l Q Pl. destruct (Q Pl) as [b [m [Hb [Hm [Ht [Hw Rb]]]]]].
    exists b, m. split; [exact Hb|]. split; [exact Hm|]. split; [exact Ht|]. split; [exact Hw|].
    set (ws := seen_widths t (l_chan l) (b_chans b)) in *. destruct (b_layout b).
    + destruct Rb as [R1 [R2 R3]]. set (r := b_len b / in_row ws) in *. clearbody r ws.
      assert (1 * in_row ws <= r * in_row ws) by (apply N.mul_le_mono_r; lia).
      split; [lia|]. destruct (N.max_spec r (rm_n m * whole_chunks b)) as [[_ ->]|[_ ->]]; [exact R3|lia].
    + destruct Rb as [R1 [R2 R3]]. set (r := b_len b / in_chunk ws) in *. clearbody r ws.
      assert (1 * in_chunk ws <= r * in_chunk ws) by (apply N.mul_le_mono_r; lia). split; [lia|]. split; [lia|exact R3].
  - intros start. unfold sought, seen. rewrite concat_map, map_map. f_equal. apply map_ext. intros [[j i] s]. cbn [sought_at].
    destruct (nth_error (blocks_after H) j) as [b|]; [|reflexivity]. unfold sought_in, samples_with. rewrite <- skipn_map, map_map.
    f_equal. apply map_ext. intros k. unfold value_at. cbn [fst snd]. now rewrite (own_size t (conj X1 X2)).
Qed.

(** A file that lost its end, against the same file when it was whole: the read
    gives a first part of what the whole file gives, and if it succeeds it gives
    the same. *)
Theorem C111_lost_end : forall E H HF F W t p start out x,
  session E HF F -> session E H W -> tf_ix F = tf_ix W -> tf_bytes W = tf_bytes F ++ x ->
  t <> SExt -> t <> SStr -> mentioned (all_objs H) p -> reachable E t H p -> out <> [] ->
  exists vs r k, read_channel_from E W t p start out = (overlay out vs, r)
  /\ exists r', read_channel_from E F t p start out = (overlay out (firstn k vs), r')
  /\ (r' = Ok tt -> r = Ok tt /\ firstn k vs = vs).
Proof.
  intros E H HF F W t p start out x Se Sw Ix Ew X1 X2 Me St Ne.
  destruct (C14_incremental _ _ _ Se) as [_ [_ [_ [B1 [P1 N1]]]]]. destruct (C14_incremental _ _ _ Sw) as [_ [_ [_ [B2 [P2 _]]]]].
  assert (Mf : mentioned (all_objs HF) p).
  { destruct (in_dec (list_eq_dec Byte.byte_eq_dec) p (map om_path (all_objs HF))) as [|Hn]; [assumption|].
    specialize (N1 p Hn). rewrite Ix, (P2 p Me) in N1. discriminate. }
  assert (Eb : blocks_after HF = blocks_after H) by congruence.
  assert (El : locs_after HF p = locs_after H p) by (specialize (P1 p Mf); specialize (P2 p Me); congruence).
  assert (Sf : reachable E t HF p) by (unfold reachable in *; now rewrite El, Eb).
  pose proof (C111_window E HF F t p start out Se X1 X2 Mf Sf Ne) as Rf.
  pose proof (C111_window E H W t p start out Sw X1 X2 Me St Ne) as Rw. cbv zeta in Rf, Rw. rewrite Eb, El in Rf.
  set (want := firstn (length out) _) in *. set (pk := peeked _ _ _ _) in *.
  assert (Pr : forall q, present (tf_bytes F) t q = true -> present (tf_bytes W) t q = true).
  { intros q. unfold present. rewrite Ew, lenN_app. lia. }
  assert (Va : forall q, present (tf_bytes F) t q = true -> value_at (tf_bytes F) t q = value_at (tf_bytes W) t q).
  { intros q Pq. unfold present in Pq. unfold value_at. f_equal. rewrite Ew. unfold slice.
    rewrite skipn_app, firstn_app, skipn_length. unfold lenN in Pq.
    replace (N.to_nat (size_bytes t) - (length (tf_bytes F) - N.to_nat (snd q)))%nat with 0%nat by lia.
    rewrite firstn_O, app_nil_r. reflexivity. }
  assert (Wh : forall w, exists k, map (value_at (tf_bytes F) t) (while (present (tf_bytes F) t) w)
       = firstn k (map (value_at (tf_bytes W) t) (while (present (tf_bytes W) t) w))
     /\ (forallb (present (tf_bytes F) t) w = true -> (length w <= k)%nat)).
  { induction w as [|q w [k [IH1 IH2]]]; [exists 0%nat; cbn; auto|]. cbn [while forallb]. destruct (present (tf_bytes F) t q) eqn:Pq.
    - rewrite (Pr q Pq). exists (S k). cbn [map firstn]. rewrite IH1, (Va q Pq). split; [reflexivity|]. cbn [andb length]. intros Z. specialize (IH2 Z). lia.
    - exists 0%nat. split; [reflexivity|discriminate]. }
  destruct (Wh want) as [k [K1 K2]]. eexists _, _, k. split; [exact Rw|]. eexists. split; [rewrite Rf, K1; reflexivity|].
  destruct (forallb (present (tf_bytes F) t) (want ++ pk)) eqn:A; [|discriminate]. intros _.
  assert (B : forallb (present (tf_bytes W) t) (want ++ pk) = true).
  { apply forallb_forall. intros q Hq. rewrite forallb_forall in A. apply Pr. now apply A. }
  rewrite B. split; [reflexivity|]. rewrite forallb_app in A. apply andb_true_iff in A. destruct A as [A _].
  apply firstn_all2. rewrite map_length. pose proof (while_le (present (tf_bytes W) t) want). specialize (K2 A). lia.
Qed.

(** ** A concrete file *)
(** Two chunks of three channels with different numbers of values, then three
    rows, of which the last is not whole. *)
Definition reach_file : list byte := firstn (length mixed_file - 6) mixed_file.
Definition reach_F : tfile := open_bytes dbg reach_file.
Definition reach_check (E : env) (t : sty) (b : dblock) (i : nat) (m : rawmeta) : bool :=
  let ws := seen_widths t i (b_chans b) in
  let top := N.min (2 ^ 63 - 1) (seek_max E) in
  forallb (fun m => 0 <? reckoned (rm_type m)) (b_chans b)
  && existsb (dtype_eqb (rm_type m)) (stored_as t)
  && match b_layout b with
     | Interleaved => (in_row ws <=? top)
                      && (b_start b + N.max (b_len b / in_row ws) (rm_n m * whole_chunks b) * in_row ws <=? top)
     | Contigious => (in_chunk ws <=? top) && (b_start b + b_len b / in_chunk ws * in_chunk ws <=? top)
                     && match b_chans b with [] => false | m0 :: _ => 0 <? rm_n m0 end
     end.
Lemma reach_check_ok E t b i m : nth_error (b_chans b) i = Some m -> reach_check E t b i m = true -> reach_block E t b i m.
Proof.
  intros Hm. unfold reach_check, reach_block. cbv zeta. rewrite !andb_true_iff. intros [[H1 H2] H3].
  split; [exact Hm|]. split.
  { apply existsb_exists in H2. destruct H2 as [d [Hd Eq]]. replace (rm_type m) with d; [exact Hd|].
    destruct d, (rm_type m); reflexivity || discriminate. }
  split.
  { apply Forall_forall. intros y Hy. rewrite forallb_forall in H1. apply N.ltb_lt. now apply H1. }
  destruct (b_layout b); rewrite !andb_true_iff in H3.
  - destruct H3 as [H3 H4]. split; now apply N.leb_le.
  - destruct H3 as [[H3 H4] H5]. split; [now apply N.leb_le|]. split; [now apply N.leb_le|]. destruct (b_chans b) as [|m0 ms]; [discriminate|].
    exists m0, ms. split; [reflexivity|now apply N.ltb_lt].
Qed.
Lemma reach_reachable : forall F H, session dbg H F -> ix_blocks (tf_ix F) = ix_blocks (tf_ix reach_F) ->
  locs_after H (ch "g" "a") = [mkLoc 0 1 4; mkLoc 1 0 2] -> reachable dbg SI32 H (ch "g" "a").
Proof.
  intros F H Se Eb Lo. destruct (C14_incremental _ _ _ Se) as [_ [_ [_ [Hb _]]]].
  unfold reachable. rewrite Lo, <- Hb, Eb.
  constructor; [|constructor; [|constructor]]; intros _; cbn [l_block l_chan].
  - exists (mkBlock 140 40 Contigious [mkRaw I32 1 None; mkRaw I32 2 None; mkRaw I32 2 None] LittleE), (mkRaw I32 2 None).
    split; [vm_compute; reflexivity|]. apply reach_check_ok; vm_compute; reflexivity.
  - exists (mkBlock 284 24 Interleaved [mkRaw I32 2 None; mkRaw I32 2 None] LittleE), (mkRaw I32 2 None).
    split; [vm_compute; reflexivity|]. apply reach_check_ok; vm_compute; reflexivity.
Qed.
Example C111_case :
  (exists H, session dbg H reach_F /\ mentioned (all_objs H) (ch "g" "a") /\ reachable dbg SI32 H (ch "g" "a")
    /\ sought SI32 (blocks_after H) (locs_after H (ch "g" "a")) 1
       = [(LittleE, 164); (LittleE, 168); (LittleE, 284); (LittleE, 292); (LittleE, 300)]
    /\ peeked SI32 (blocks_after H) (needed (locs_after H (ch "g" "a")) 0) 6 = [(LittleE, 300)]
    /\ peeked SI32 (blocks_after H) (needed (locs_after H (ch "g" "a")) 0) 5 = [(LittleE, 292)])
  /\ lenN (tf_bytes reach_F) = 302
  /\ read_channel dbg reach_F SI32 (ch "g" "a") [0; 0; 0; 0; 0; 0; 0; 0]%Z = ([1; 2; 3; 4; 5; 6; 0; 0]%Z, Err (EIo UnexpectedEof))
  /\ read_channel dbg reach_F SI32 (ch "g" "a") [0; 0; 0; 0; 0; 0]%Z = ([1; 2; 3; 4; 5; 6]%Z, Err (EIo UnexpectedEof))
  /\ read_channel dbg reach_F SI32 (ch "g" "a") [0; 0; 0; 0; 0]%Z = ([1; 2; 3; 4; 5]%Z, Ok tt)
  /\ read_channel_from dbg reach_F SI32 (ch "g" "a") 1 [0; 0; 0]%Z = ([3; 4; 5]%Z, Ok tt).
Proof.
  split; [|do 4 (split; [vm_compute; reflexivity|]); vm_compute; reflexivity].
  assert (O : tdms_new dbg reach_file = Ok reach_F) by (vm_compute; reflexivity).
  destruct (C14_open_is_session _ _ _ O) as [H [_ [Se _]]]. exists H. split; [exact Se|].
  assert (G : get_positions (tf_ix reach_F) (ch "g" "a") = Some [mkLoc 0 1 4; mkLoc 1 0 2]) by (vm_compute; reflexivity).
  pose proof (positions_mentioned _ _ _ _ _ Se G) as M. split; [exact M|].
  pose proof (session_locs_is _ _ _ _ _ _ O Se M G) as Lo.
  split; [now apply (reach_reachable reach_F)|].
  destruct (C14_incremental _ _ _ Se) as [_ [_ [_ [Hb _]]]]. rewrite Lo, <- Hb.
  split; [vm_compute; reflexivity|]. split; vm_compute; reflexivity.
Qed.
(** The hypotheses of [C111_lost_end] and of [C111_whole]. *)
Example C111_lost_end_case : exists HF H, session dbg HF reach_F /\ session dbg H mixed_F /\ tf_ix reach_F = tf_ix mixed_F
  /\ tf_bytes mixed_F = tf_bytes reach_F ++ skipn 302 mixed_file
  /\ mentioned (all_objs H) (ch "g" "a") /\ reachable dbg SI32 H (ch "g" "a")
  /\ addressable dbg mixed_file /\ seen_stored dbg mixed_file SI32 H (ch "g" "a").
Proof.
  assert (O : tdms_new dbg reach_file = Ok reach_F) by (vm_compute; reflexivity).
  destruct (C14_open_is_session _ _ _ O) as [HF [_ [Sf _]]]. exists HF.
  assert (Ow : tdms_new dbg mixed_file = Ok mixed_F) by (vm_compute; reflexivity).
  destruct (C14_open_is_session _ _ _ Ow) as [H [_ [Sw _]]]. exists H. split; [exact Sf|]. split; [exact Sw|].
  split; [vm_compute; reflexivity|]. split; [vm_compute; reflexivity|].
  assert (G : get_positions (tf_ix mixed_F) (ch "g" "a") = Some [mkLoc 0 1 4; mkLoc 1 0 2]) by (vm_compute; reflexivity).
  pose proof (positions_mentioned _ _ _ _ _ Sw G) as M. split; [exact M|].
  pose proof (session_locs_is _ _ _ _ _ _ Ow Sw M G) as Lo.
  split; [apply (reach_reachable mixed_F); [exact Sw|vm_compute; reflexivity|exact Lo]|].
  split; [vm_compute; split; [reflexivity|discriminate]|].
  destruct (C14_incremental _ _ _ Sw) as [_ [_ [_ [Hb _]]]]. unfold seen_stored. rewrite Lo, <- Hb.
  constructor; [|constructor; [|constructor]]; intros _; cbn [l_block l_chan].
  - exists (mkBlock 140 40 Contigious [mkRaw I32 1 None; mkRaw I32 2 None; mkRaw I32 2 None] LittleE), (mkRaw I32 2 None).
    split; [vm_compute; reflexivity|]. apply seen_check_ok; vm_compute; reflexivity.
  - exists (mkBlock 284 24 Interleaved [mkRaw I32 2 None; mkRaw I32 2 None] LittleE), (mkRaw I32 2 None).
    split; [vm_compute; reflexivity|]. apply seen_check_ok; vm_compute; reflexivity.
Qed.
Print Assumptions C111_window.
Print Assumptions C111_succeeds.
Print Assumptions C111_whole.
Print Assumptions C111_lost_end.
