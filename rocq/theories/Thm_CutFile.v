(** * Claim C81: what a read of a file with missing data delivers *)
From Coq Require Import Strings.String.
From Verif Require Import Base Lib DataTypes MetaData Maps DataBlock Index RawData ChannelReader TdmsFile
  SpecIndex SpecSession SpecRead SpecWrite SpecLocal SpecCutFile Block_proofs Request_proofs Plan_proofs Read_proofs
  Session_proofs CutFile_proofs CutRead_proofs Local_proofs Vectors Thm_Open Thm_Index Thm_Read Thm_Write Thm_Reopen.
Close Scope string_scope.
Local Notation a := (ch "g" "a").
Local Notation b := (ch "g" "b").

(** ** C81 What a read of a file with missing data delivers, exactly *)
(** The blocks that the read goes to need not be in the file.  The samples of the
    window are delivered up to the first one that is not wholly there, the rest
    of the buffer is left as it was, and the call succeeds exactly if all of
    them are there, and with them the one behind the window if the window ends
    inside an interleaved block. *)
Theorem C81_cut_reads : forall E H F t p start out,
  session E H F -> fixed t -> mentioned (all_objs H) p ->
  Forall (laid_out E t H) (touched (locs_after H p) start (lenN out)) ->
  let f := tf_bytes F in
  let want := firstn (length out) (skipn (N.to_nat start) (places_after H p)) in
  read_channel_from E F t p start out
  = (overlay out (map (value_at f t) (while (present f t) want)),
     if forallb (present f t) (want ++ behind (blocks_after H) (locs_after H p) start (lenN out))
     then Ok tt else Err (EIo UnexpectedEof)).
Proof. intros. now apply read_cut. Qed.

(** For contiguous data the call succeeds exactly if the samples it asks for are
    in the file. *)
Theorem C81_contiguous : forall E H F t p start out,
  session E H F -> fixed t -> mentioned (all_objs H) p ->
  Forall (laid_out E t H) (touched (locs_after H p) start (lenN out)) ->
  Forall (fun l => forall b, nth_error (blocks_after H) (l_block l) = Some b -> b_layout b = Contigious)
    (touched (locs_after H p) start (lenN out)) ->
  snd (read_channel_from E F t p start out) = Ok tt
  <-> Forall (fun q => snd q + size_bytes t <= lenN (tf_bytes F))
        (firstn (length out) (skipn (N.to_nat start) (places_after H p))).
Proof.
  intros E H F t p start out Se Fx Me La Co. pose proof (C81_cut_reads E H F t p start out Se Fx Me La) as R. cbv zeta in R.
  rewrite R. cbn [snd].
  assert (B : forall ls s n, Forall (fun l => forall b, nth_error (blocks_after H) (l_block l) = Some b -> b_layout b = Contigious) (touched ls s n) ->
    behind (blocks_after H) ls s n = []).
  { induction ls as [|l ls IH]; intros s n Q; cbn [behind touched] in *; [reflexivity|].
    destruct (l_n l <=? s); [now apply IH|]. apply Forall_cons_iff in Q. destruct Q as [Q1 Q].
    destruct (n <=? l_n l - s); [|now apply IH].
    destruct (nth_error (blocks_after H) (l_block l)) as [b0|]; [|reflexivity]. now rewrite (Q1 b0 eq_refl). }
  rewrite (B _ _ _ Co), app_nil_r. set (w := firstn _ _). rewrite Forall_forall.
  destruct (forallb (present (tf_bytes F) t) w) eqn:A; split; intros X; try discriminate; try reflexivity.
  - intros q Hq. rewrite forallb_forall in A. specialize (A q Hq). unfold present in A. lia.
  - exfalso. assert (Y : forallb (present (tf_bytes F) t) w = true); [|congruence].
    apply forallb_forall. intros q Hq. specialize (X q Hq). unfold present. lia.
Qed.

(** In a file whose data are complete, the values at the places are the samples
    of C28. *)
Theorem C81_whole : forall E f t H p, fixed t -> addressable E f -> stored f t H p ->
  map (value_at f t) (places_after H p) = samples_after f t H p
  /\ Forall (laid_out E t H) (locs_after H p).
Proof.
  intros E f t H p Fx [A1 A2] St. unfold stored in St. split.
  - unfold places_after, samples_after, samples_at. induction St as [|l ls [b0 [m [Hb [_ [Hm Ht]]]]] _ IH]; [reflexivity|].
    cbn [map concat]. rewrite map_app, IH. f_equal. unfold loc_places, loc_samples. rewrite Hb. unfold block_samples.
    rewrite map_map. apply map_ext. intros k. unfold value_at, sample. cbn [fst snd]. rewrite Hm.
    destruct (width_sty t (rm_type m) Fx) as [-> _]; [now apply stored_as_supports|reflexivity].
  - eapply Forall_impl; [|exact St]. intros l [b0 [m [Hb [[n [c [H1 [H2 [H3 [H4 [H5 H6]]]]]]] [Hm Ht]]]]].
    exists b0, m. split; [exact Hb|]. split; [|auto]. exists n, c. repeat (split; [assumption|]). split; lia.
Qed.

(** A file that lost its end, against the same file when it was whole: the read
    gives the first samples of the window, and reports failure if it gives fewer
    than the whole file would. *)
Theorem C81_lost_end : forall E H HF F W t p start out x,
  session E HF F -> session E H W -> tf_ix F = tf_ix W -> tf_bytes W = tf_bytes F ++ x ->
  fixed t -> addressable E (tf_bytes W) -> mentioned (all_objs H) p -> stored (tf_bytes W) t H p ->
  let window := firstn (length out) (skipn (N.to_nat start) (samples_after (tf_bytes W) t H p)) in
  read_channel_from E W t p start out = (overlay out window, Ok tt)
  /\ exists k r, read_channel_from E F t p start out = (overlay out (firstn k window), r)
       /\ (r = Err (EIo UnexpectedEof) \/ (r = Ok tt /\ firstn k window = window)).
Proof.
  intros E H HF F W t p start out x Se Sw Ix Ew Fx Ad Me St window.
  split; [now apply C28_window|].
  destruct (C81_whole E (tf_bytes W) t H p Fx Ad St) as [Vs La].
  assert (Lt : Forall (laid_out E t H) (touched (locs_after H p) start (lenN out))).
  { rewrite Forall_forall in *. intros l Hl. apply La. eapply touched_incl; exact Hl. }
  destruct (C14_incremental _ _ _ Se) as [_ [_ [_ [B1 [P1 N1]]]]]. destruct (C14_incremental _ _ _ Sw) as [_ [_ [_ [B2 [P2 _]]]]].
  assert (Mf : mentioned (all_objs HF) p).
  { destruct (in_dec (list_eq_dec Byte.byte_eq_dec) p (map om_path (all_objs HF))) as [|Hn]; [assumption|].
    specialize (N1 p Hn). rewrite Ix, (P2 p Me) in N1. discriminate. }
  assert (Eb : blocks_after HF = blocks_after H) by congruence.
  assert (El : locs_after HF p = locs_after H p) by (specialize (P1 p Mf); specialize (P2 p Me); congruence).
  assert (Lf : Forall (laid_out E t HF) (touched (locs_after HF p) start (lenN out))).
  { rewrite El. eapply Forall_impl; [|exact Lt]. unfold laid_out. now rewrite Eb. }
  pose proof (C81_cut_reads E HF F t p start out Se Fx Mf Lf) as R. cbv zeta in R. rewrite R.
  unfold places_after. rewrite Eb, El. fold (places_after H p).
  set (want := firstn (length out) (skipn (N.to_nat start) (places_after H p))).
  assert (Wi : window = map (value_at (tf_bytes W) t) want).
  { unfold window, want. rewrite <- Vs, <- firstn_map', <- skipn_map. reflexivity. }
  assert (Va : forall q, present (tf_bytes F) t q = true -> value_at (tf_bytes F) t q = value_at (tf_bytes W) t q).
  { intros q Pq. unfold present in Pq. unfold value_at. f_equal. rewrite Ew. unfold slice.
    rewrite skipn_app, firstn_app, skipn_length. unfold lenN in Pq.
    replace (N.to_nat (size_bytes t) - (length (tf_bytes F) - N.to_nat (snd q)))%nat with 0%nat by lia.
    rewrite firstn_O, app_nil_r. reflexivity. }
  assert (Wh : forall w, exists k, map (value_at (tf_bytes F) t) (while (present (tf_bytes F) t) w) = firstn k (map (value_at (tf_bytes W) t) w)
     /\ (forallb (present (tf_bytes F) t) w = true -> (length w <= k)%nat)).
  { induction w as [|q w [k [IH1 IH2]]]; [exists 0%nat; cbn; auto|]. cbn [while forallb]. destruct (present (tf_bytes F) t q) eqn:Pq.
    - exists (S k). cbn [map firstn]. rewrite IH1, (Va q Pq). split; [reflexivity|]. cbn [andb length]. intros Z. specialize (IH2 Z). lia.
    - exists 0%nat. split; [reflexivity|discriminate]. }
  destruct (Wh want) as [k [K1 K2]]. exists k. rewrite K1, <- Wi. eexists. split; [reflexivity|].
  rewrite forallb_app. destruct (forallb (present (tf_bytes F) t) want) eqn:A; cbn [andb]; [|now left].
  destruct (forallb _ (behind _ _ _ _)); [right|now left]. split; [reflexivity|]. apply firstn_all2.
  rewrite Wi, map_length. now apply K2.
Qed.

(** ** A concrete file *)
(** Three rows of two channels, then two contiguous chunks; the last value and
    half of the one before it are missing. *)
Definition C81_whole_file : list byte :=
  seg_i32 BigE true [a; b] 3 [1; 101; 2; 102; 3; 103]%Z
  ++ seg_i32 LittleE false [b; a] 2 [104; 105; 4; 5; 106; 107; 6; 7]%Z.
Definition C81_file : list byte := firstn (length C81_whole_file - 6) C81_whole_file.
Definition C81_F : tfile := open_bytes dbg C81_file.
Lemma laid_check E t H F M l : session E H F -> M < 2 ^ 63 -> M <= seek_max E ->
  stored_check t M (ix_blocks (tf_ix F)) l = true -> laid_out E t H l.
Proof.
  intros Se M1 Sm C. destruct (C14_incremental E H F Se) as [_ [_ [_ [Hb _]]]]. unfold stored_check in C. rewrite Hb in C.
  destruct (nth_error (blocks_after H) (l_block l)) as [b0|] eqn:Hl; [|discriminate].
  destruct (nth_error (b_chans b0) (l_chan l)) as [m|] eqn:Hm; [|discriminate].
  apply andb_true_iff in C. destruct C as [W Tt]. exists b0, m. split; [exact Hl|].
  assert (Pl : lenN (pad M) = M) by (apply (pad_len E); assumption).
  rewrite <- Pl in W. apply whole_check_ok in W. destruct W as [n [c [H1 [H2 [H3 [H4 [H5 H6]]]]]]]. rewrite Pl in H6.
  split; [exists n, c; repeat (split; [assumption|]); split; lia|]. split; [exact Hm|].
  apply existsb_exists in Tt. destruct Tt as [d [Hd Eq]]. replace (rm_type m) with d; [exact Hd|].
  destruct d, (rm_type m); reflexivity || discriminate.
Qed.
Example C81_case : exists H, session dbg H C81_F
  /\ Forall (fun p => mentioned (all_objs H) p /\ Forall (laid_out dbg SI32 H) (locs_after H p)) [a; b]
  /\ channel_length dbg C81_F a = Ok (Some 7)
  /\ read_channel_from dbg C81_F SI32 a 1 [0; 0; 0]%Z = ([2; 3; 4]%Z, Ok tt)
  /\ read_channel_from dbg C81_F SI32 a 4 [9; 9; 9]%Z = ([5; 9; 9]%Z, Err (EIo UnexpectedEof))
  /\ read_channel_from dbg C81_F SI32 b 4 [9; 9; 9]%Z = ([105; 106; 107]%Z, Ok tt).
Proof.
  assert (O : tdms_new dbg C81_file = Ok C81_F) by (vm_compute; reflexivity).
  destruct (C14_open_is_session _ _ _ O) as [H [_ [Se _]]]. exists H. split; [exact Se|].
  destruct (C14_incremental _ _ _ Se) as [_ [_ [_ [_ [Gp Gn]]]]].
  assert (X : forall p ls, get_positions (tf_ix C81_F) p = Some ls ->
    forallb (stored_check SI32 4000 (ix_blocks (tf_ix C81_F))) ls = true ->
    mentioned (all_objs H) p /\ Forall (laid_out dbg SI32 H) (locs_after H p)).
  { intros p ls G C.
    assert (M : mentioned (all_objs H) p).
    { destruct (in_dec (list_eq_dec Byte.byte_eq_dec) p (map om_path (all_objs H))) as [|Hn]; [assumption|].
      rewrite (Gn p Hn) in G. discriminate. }
    split; [exact M|]. rewrite (Gp p M) in G. injection G as ->. rewrite forallb_forall in C. apply Forall_forall. intros l Hl.
    eapply (laid_check dbg SI32 H C81_F 4000); [exact Se|reflexivity|vm_compute; discriminate|now apply C]. }
  split.
  { constructor; [|constructor; [|constructor]].
    - apply (X a [mkLoc 0 0 3; mkLoc 1 1 4]); vm_compute; reflexivity.
    - apply (X b [mkLoc 0 1 3; mkLoc 1 0 4]); vm_compute; reflexivity. }
  split; [vm_compute; reflexivity|]. split; [vm_compute; reflexivity|]. split; vm_compute; reflexivity.
Qed.
(** The hypotheses of [C81_contiguous] hold for the same file from sample 3 on. *)
Example C81_contiguous_case :
  touched [mkLoc 0 0 3; mkLoc 1 1 4] 3 4 = [mkLoc 1 1 4]
  /\ option_map b_layout (nth_error (ix_blocks (tf_ix C81_F)) 1) = Some Contigious.
Proof. split; vm_compute; reflexivity. Qed.
(** Those of [C81_lost_end]: the whole file, with the same index. *)
Example C81_lost_end_case : exists HF H, session dbg HF C81_F /\ session dbg H (open_bytes dbg C81_whole_file)
  /\ tf_ix C81_F = tf_ix (open_bytes dbg C81_whole_file) /\ mentioned (all_objs H) a
  /\ addressable dbg C81_whole_file /\ stored C81_whole_file SI32 H a
  /\ C81_whole_file = C81_file ++ skipn (length C81_whole_file - 6) C81_whole_file
  /\ samples_after C81_whole_file SI32 H a = [1; 2; 3; 4; 5; 6; 7]%Z.
Proof.
  assert (O : tdms_new dbg C81_file = Ok C81_F) by (vm_compute; reflexivity).
  destruct (C14_open_is_session _ _ _ O) as [HF [_ [Sf _]]]. exists HF.
  set (W := open_bytes dbg C81_whole_file).
  assert (Ow : tdms_new dbg C81_whole_file = Ok W) by (vm_compute; reflexivity).
  destruct (C14_open_is_session _ _ _ Ow) as [H [_ [Sw _]]]. exists H. split; [exact Sf|]. split; [exact Sw|].
  split; [vm_compute; reflexivity|].
  destruct (session_stored dbg _ _ H SI32 a [mkLoc 0 0 3; mkLoc 1 1 4] Ow Sw) as [M St]; [vm_compute; reflexivity..|].
  split; [exact M|]. split; [vm_compute; split; [reflexivity|discriminate]|].
  split; [exact St|]. split; [vm_compute; reflexivity|].
  destruct (C14_incremental _ _ _ Sw) as [_ [_ [_ [Hb [Gp _]]]]]. specialize (Gp _ M).
  unfold samples_after. rewrite <- Hb. replace (locs_after H a) with [mkLoc 0 0 3; mkLoc 1 1 4].
  - vm_compute. reflexivity.
  - assert (X : get_positions (tf_ix W) a = Some [mkLoc 0 0 3; mkLoc 1 1 4]) by (vm_compute; reflexivity). congruence.
Qed.

(** The sample behind the window is needed for interleaved data: the one sample
    that is asked for is in the file and is delivered, and the call fails all the
    same. *)
Definition C81_rows : list byte := firstn 112 (seg_i32 LittleE true [a; b] 2 [1; 101; 2; 102]%Z).
Theorem C81_sample_present_refuted : exists F, tdms_new dbg C81_rows = Ok F
  /\ lenN C81_rows = 104 + 8
  /\ (exists b0, ix_blocks (tf_ix F) = [b0] /\ b_start b0 = 104 /\ sample_addr b0 0 0 = 104 /\ sample_addr b0 0 1 = 112)
  /\ read_channel dbg F SI32 a [0]%Z = ([1]%Z, Err (EIo UnexpectedEof)).
Proof.
  exists (open_bytes dbg C81_rows). split; [vm_compute; reflexivity|]. split; [vm_compute; reflexivity|].
  split; [|vm_compute; reflexivity]. eexists. split; [vm_compute; reflexivity|]. repeat split.
Qed.
Print Assumptions C81_cut_reads.
Print Assumptions C81_contiguous.
Print Assumptions C81_whole.
Print Assumptions C81_lost_end.
Print Assumptions C81_sample_present_refuted.
