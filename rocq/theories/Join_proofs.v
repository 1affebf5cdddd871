(** * Two files one behind the other *)
From Verif Require Import Base Lib DataTypes MetaData Maps DataBlock Index RawData ChannelReader TdmsFile
  SpecCodec SpecIndex SpecSession SpecRead SpecWrite SpecVerdict SpecJoin Maps_proofs Codec_proofs Segment_proofs Parse_proofs Index_proofs History_proofs
  Session_proofs Open_proofs Verdict_proofs Block_proofs Request_proofs Plan_proofs Read_proofs Add_proofs Reopen_proofs Step_proofs.

Lemma segment_read_shift E f g p : segment_read E (f ++ g) (lenN f + p) = segment_read E g p.
Proof.
  unfold segment_read. replace (dropN (lenN f + p) (f ++ g)) with (dropN p g); [reflexivity|].
  now rewrite <- dropN_dropN, dropN_app_exact.
Qed.
Lemma offset_from K : forall x, fold_left (fun a s => a + 28 + sg_next s) K x = x + offset K.
Proof.
  unfold offset. induction K as [|s K IH]; intros x; cbn [fold_left]; [lia|]. rewrite IH, (IH (0 + 28 + _)). lia.
Qed.
Lemma offset_join H K : offset (H ++ K) = offset H + offset K.
Proof. rewrite offset_app. apply offset_from. Qed.

Lemma firstn_join {A} (H K : list A) i : firstn (length H + i) (H ++ K) = H ++ firstn i K.
Proof. rewrite firstn_app, firstn_all2 by lia. now replace (length H + i - length H)%nat with i by lia. Qed.

Lemma segments_join E f g H K : file_segments E f H -> file_segments E g K -> offset H = lenN f ->
  offset (H ++ K) <= seek_max E -> file_segments E (f ++ g) (H ++ K).
Proof.
  intros [Rf _] [Rg Eg] Ho Hm. rewrite offset_join in Hm. split.
  - intros i s Hi. destruct (Nat.lt_ge_cases i (length H)) as [L|L].
    + rewrite nth_error_app1 in Hi by exact L. rewrite firstn_app. replace (i - length H)%nat with 0%nat by lia.
      cbn [firstn]. rewrite app_nil_r. destruct (Rf i s Hi) as [R S]. split; [now apply segment_read_extend|exact S].
    + rewrite nth_error_app2 in Hi by exact L. destruct (Rg _ _ Hi) as [R S].
      replace i with (length H + (i - length H))%nat by lia. rewrite firstn_join, offset_join, Ho.
      split; [now rewrite segment_read_shift|]. rewrite Ho in Hm.
      assert (Q : offset (firstn (i - length H) K) <= offset K); [|lia].
      rewrite <- (firstn_skipn (i - length H) K) at 2. rewrite offset_join. lia.
  - left. rewrite lenN_app, offset_join. destruct Eg as [Eg|Eg]; lia.
Qed.

(** ** Formats and channel lists *)
Lemma fmt_from os p : forall acc, fold_left (fmt_obj p) os acc
  = match last_format os p with Some m => Some m | None => acc end.
Proof.
  unfold last_format. induction os as [|o os IH]; intros acc; cbn [fold_left]; [reflexivity|].
  rewrite IH, (IH (fmt_obj p None o)). destruct (fold_left (fmt_obj p) os None); [reflexivity|].
  unfold fmt_obj. destruct (str_eqb p (om_path o)); [|reflexivity]. destruct (om_idx o); reflexivity.
Qed.
Lemma all_objs_app H K : all_objs (H ++ K) = all_objs H ++ all_objs K.
Proof. apply flat_map_app. Qed.
Lemma format_join H K p : last_format (all_objs (H ++ K)) p
  = match last_format (all_objs K) p with Some m => Some m | None => last_format (all_objs H) p end.
Proof. rewrite all_objs_app. unfold last_format at 1. rewrite fold_left_app. apply fmt_from. Qed.

(** The channels of the list have formats. *)
Lemma active_known E K ix : accepted E K ix -> Forall (fun p => last_format (all_objs K) p <> None) (active_after K).
Proof.
  intros A. destruct (accepted_described _ _ _ A) as [Iv [_ [_ [Ha [_ [Hf _]]]]]].
  rewrite <- Ha. apply Forall_forall. intros p Hp. apply in_map_iff in Hp. destruct Hp as [a [<- Hin]].
  destruct (inv_act _ Iv a Hin) as [od [m [G [Fm _]]]]. rewrite <- Hf. unfold channel_format. rewrite G, Fm. discriminate.
Qed.
Lemma formats_join H K : Forall (fun p => last_format (all_objs K) p <> None) (active_after K) ->
  active_after (H ++ K) = active_after K -> active_formats (H ++ K) = active_formats K.
Proof.
  intros Kn Ag. unfold active_formats. rewrite Ag. apply map_ext_in. intros p Hp.
  rewrite Forall_forall in Kn. specialize (Kn p Hp). rewrite format_join. destruct (last_format (all_objs K) p); congruence.
Qed.
Lemma block_join H A s : Forall (fun p => last_format (all_objs (A ++ [s])) p <> None) (active_after (A ++ [s])) ->
  active_after (H ++ A ++ [s]) = active_after (A ++ [s]) -> block_of (H ++ A) s = moved (offset H) (block_of A s).
Proof.
  intros Kn Ag. unfold block_of, moved. cbn [b_start b_len b_layout b_chans b_order].
  rewrite <- app_assoc, (formats_join H (A ++ [s]) Kn Ag), offset_join. f_equal. lia.
Qed.
Lemma whole_chunks_moved d b : whole_chunks (moved d b) = whole_chunks b.
Proof. reflexivity. Qed.

(** ** The joined history is accepted *)
Lemma unfounded_more before os : forall more, unfounded (before ++ more) os = true -> unfounded more os = true.
Proof.
  induction os as [|o os IH]; intros more; cbn [unfounded]; [auto|].
  assert (F : last_format (before ++ more) (om_path o) = match last_format more (om_path o) with
     Some m => Some m | None => last_format before (om_path o) end).
  { unfold last_format at 1. rewrite fold_left_app. apply fmt_from. }
  rewrite F, <- app_assoc. destruct (om_idx o); [apply IH| |apply IH].
  destruct (last_format more (om_path o)); [apply IH|auto].
Qed.

Ltac rule := match goal with |- context [first_of ((?c, _) :: _) _] => destruct c eqn:?; cbn [first_of] end.
Lemma verdict_join c H A s n : verdict c A s = Ok n ->
  (toc_raw (sg_toc s) = true -> block_of (H ++ A) s = moved (offset H) (block_of A s)
     /\ active_after (H ++ A ++ [s]) = active_after (A ++ [s])) ->
  offset H + offset A + 28 + sg_next s < 2 ^ 64 ->
  exists n', verdict c (H ++ A) s = Ok n'.
Proof.
  intros V Ag Hl. unfold verdict in *. cbv zeta in *. rewrite all_objs_app, offset_join.
  destruct (toc_raw (sg_toc s)).
  - destruct (Ag eq_refl) as [Bl Ac]. rewrite Bl, whole_chunks_moved.
    assert (Fm : active_formats ((H ++ A) ++ [s]) = active_formats (A ++ [s])).
    { apply (f_equal b_chans) in Bl. exact Bl. }
    rewrite Fm, <- app_assoc, Ac. cbn [andb first_of] in *.
    destruct (unfounded (all_objs H ++ all_objs A) (seg_objs s)) eqn:U.
    { apply unfounded_more in U. rewrite U in V. discriminate. }
    destruct (unfounded (all_objs A) (seg_objs s)); [discriminate|].
    destruct (lenN (active_after (A ++ [s])) =? 0); [discriminate|].
    destruct (sg_next s <? sg_raw s) eqn:L1; [discriminate|].
    destruct (sg_next s =? sg_raw s) eqn:L2; [discriminate|].
    replace (2 ^ 64 <=? offset H + offset A + 28 + sg_raw s) with false by lia.
    rewrite andb_false_r. destruct (c && _); [discriminate|].
    destruct (2 ^ 64 <=? chunk_bytes _); [discriminate|].
    destruct (existsb _ _); [discriminate|].
    replace (2 ^ 64 <=? offset H + offset A + 28 + sg_next s) with false by lia. eauto.
  - cbn [andb first_of] in *.
    destruct (unfounded (all_objs H ++ all_objs A) (seg_objs s)) eqn:U.
    { apply unfounded_more in U. rewrite U in V. discriminate. }
    replace (2 ^ 64 <=? offset H + offset A + 28 + sg_next s) with false by lia. eauto.
Qed.

Lemma agree_init H K s : lists_agree H (K ++ [s]) -> lists_agree H K.
Proof. intros L A x B E. apply (L A x (B ++ [s])). now rewrite E, <- app_assoc. Qed.
Lemma agree_last H K s : lists_agree H (K ++ [s]) -> toc_raw (sg_toc s) = true ->
  active_after (H ++ K ++ [s]) = active_after (K ++ [s]).
Proof. intros L. apply (L K s []). reflexivity. Qed.

Lemma accepted_block E K s ix H : accepted E (K ++ [s]) ix -> lists_agree H (K ++ [s]) -> toc_raw (sg_toc s) = true ->
  block_of (H ++ K) s = moved (offset H) (block_of K s).
Proof. intros A L R. apply block_join; [eapply active_known; eauto|now apply agree_last]. Qed.

Lemma accepted_join E H ixH K ixK : accepted E H ixH -> Forall plain H -> accepted E K ixK -> Forall plain K ->
  lists_agree H K -> offset (H ++ K) < 2 ^ 64 -> exists ix, accepted E (H ++ K) ix.
Proof.
  intros AH PH AK. induction AK as [|K ix s ix' n AK IH Ha]; intros PK Ag Hl.
  - rewrite app_nil_r. eauto.
  - apply Forall_app in PK. destruct PK as [PK Ps]. inversion Ps as [|? ? Ps1 _]; subst.
    assert (Hl' := Hl). rewrite offset_join, offset_snoc in Hl'. rewrite offset_join in IH.
    destruct IH as [ix1 A1]; [exact PK|now apply agree_init in Ag|lia|].
    assert (AKs : accepted E (K ++ [s]) ix') by (econstructor; eauto).
    pose proof (verdict_exact E K ix s AK PK Ps1) as V. rewrite Ha in V. cbn [snd] in V. symmetry in V.
    destruct (verdict_join (overflow_checks E) H K s n V) as [n' V'].
    { intros R. split; [eapply accepted_block; eauto|now apply agree_last]. }
    { lia. }
    assert (PHK : Forall plain (H ++ K)) by (apply Forall_app; auto).
    pose proof (verdict_exact E (H ++ K) ix1 s A1 PHK Ps1) as V2. rewrite V' in V2.
    destruct (add_segment E ix1 s) as [ix2 r] eqn:E2. cbn [snd] in V2. subst r.
    exists ix2. rewrite app_assoc. econstructor; eauto.
Qed.

(** ** Blocks, places and lengths *)
Lemma blocks_join E H K ix : accepted E K ix -> lists_agree H K ->
  blocks_after (H ++ K) = blocks_after H ++ map (moved (offset H)) (blocks_after K).
Proof.
  induction 1 as [|K ix s ix' n A IH Ha]; intros Ag; [now rewrite !app_nil_r|].
  rewrite app_assoc, !blocks_after_snoc, map_app, IH by (now apply agree_init in Ag). rewrite <- app_assoc. do 2 f_equal.
  destruct (toc_raw (sg_toc s)) eqn:R; [|reflexivity]. cbn [map]. f_equal.
  eapply accepted_block; eauto. econstructor; eauto.
Qed.
Lemma length_blocks_join E H K ix : accepted E K ix -> lists_agree H K ->
  length (blocks_after (H ++ K)) = (length (blocks_after H) + length (blocks_after K))%nat.
Proof. intros A L. rewrite (blocks_join E H K ix A L), app_length, map_length. reflexivity. Qed.

Lemma locs_in_renumber p k j c act : forall i ms,
  locs_in p (k + j) i c act ms = map (renumbered k) (locs_in p j i c act ms).
Proof.
  induction act as [|q act IH]; intros i ms; cbn [locs_in]; [reflexivity|]. destruct ms as [|m ms]; [reflexivity|].
  rewrite IH, map_app. destruct (str_eqb p q); reflexivity.
Qed.
Lemma locs_join E H K ix p : accepted E K ix -> lists_agree H K ->
  locs_after (H ++ K) p = locs_after H p ++ map (renumbered (length (blocks_after H))) (locs_after K p).
Proof.
  induction 1 as [|K ix s ix' n A IH Ha]; intros Ag; [now rewrite !app_nil_r|].
  rewrite app_assoc. unfold locs_after in *. rewrite !locs_from_snoc. cbn [app].
  rewrite IH by (now apply agree_init in Ag). rewrite map_app, <- app_assoc. do 2 f_equal.
  destruct (toc_raw (sg_toc s)) eqn:R; [|reflexivity].
  assert (AKs : accepted E (K ++ [s]) ix') by (econstructor; eauto).
  rewrite (accepted_block E K s ix' H AKs Ag R), whole_chunks_moved.
  rewrite (length_blocks_join E H K ix A ltac:(now apply agree_init in Ag)), <- app_assoc, (agree_last H K s Ag R).
  apply locs_in_renumber.
Qed.
Lemma length_join E H K ix p : accepted E K ix -> lists_agree H K ->
  length_after (H ++ K) p = length_after H p + length_after K p.
Proof.
  induction 1 as [|K ix s ix' n A IH Ha]; intros Ag; [rewrite app_nil_r; change (length_after [] p) with 0; lia|].
  rewrite app_assoc, !length_after_snoc, IH by (now apply agree_init in Ag).
  destruct (toc_raw (sg_toc s)) eqn:R; [|lia].
  assert (AKs : accepted E (K ++ [s]) ix') by (econstructor; eauto).
  rewrite (accepted_block E K s ix' H AKs Ag R), <- app_assoc, (agree_last H K s Ag R).
  change (samples_in p (active_after (K ++ [s])) (moved (offset H) (block_of K s)))
    with (samples_in p (active_after (K ++ [s])) (block_of K s)). lia.
Qed.

(** ** Samples *)
Lemma sample_moved f g t b i k d : d = lenN f -> nth_error (b_chans b) i <> None ->
  sample (f ++ g) t (moved d b) i k = sample g t b i k.
Proof.
  intros -> Hi. unfold sample. cbn [moved b_order b_chans]. f_equal.
  assert (Q : sample_addr (moved (lenN f) b) i k = lenN f + sample_addr b i k).
  { unfold sample_addr. cbn [moved b_layout b_start b_chans]. destruct (b_layout b); [lia|].
    destruct (nth_error (b_chans b) i); [lia|congruence]. }
  rewrite Q, slice_app_r by lia. f_equal. lia.
Qed.
Lemma whole_block_moved f g b : whole_block g b -> whole_block (f ++ g) (moved (lenN f) b).
Proof.
  intros [n [c [A [B [C [D [G L]]]]]]]. exists n, c. cbn [moved b_chans b_start]. do 5 (split; [assumption|]).
  rewrite lenN_app. lia.
Qed.

Section Joined.
Context (E : env) (f g : list byte) (F G : tfile) (H K : list segment).
Context (OF : tdms_new E f = Ok F) (SF : file_segments E f H) (OG : tdms_new E g = Ok G) (SG : file_segments E g K).
Context (End : offset H = lenN f) (Ag : lists_agree H K).

Lemma opened_ix f0 F0 H0 : tdms_new E f0 = Ok F0 -> file_segments E f0 H0 ->
  accepted E H0 (tf_ix F0) /\ Forall plain H0 /\ tf_bytes F0 = f0.
Proof. intros O S0. apply tdms_new_iff in O. destruct O as [B Eb]. destruct (open_segments _ _ _ _ B S0). auto. Qed.

Lemma join_opens : offset (H ++ K) < 2 ^ 64 -> offset (H ++ K) <= seek_max E ->
  exists J, tdms_new E (f ++ g) = Ok J /\ file_segments E (f ++ g) (H ++ K).
Proof.
  intros L64 Lm. destruct (opened_ix f F H OF SF) as [AH [PH _]]. destruct (opened_ix g G K OG SG) as [AK [PK _]].
  destruct (accepted_join E H _ K _ AH PH AK PK Ag L64) as [ix A].
  pose proof (segments_join E f g H K SF SG End Lm) as S0.
  exists (mkTF ix (f ++ g)). split; [|exact S0]. apply tdms_new_iff. split; [|reflexivity].
  cbn [tf_ix]. eapply accepted_opens; eauto.
Qed.

Lemma join_stored t p : stored f t H p -> stored g t K p -> stored (f ++ g) t (H ++ K) p.
Proof.
  intros S1 S2. destruct (opened_ix g G K OG SG) as [AK _]. unfold stored.
  rewrite (locs_join E H K _ p AK Ag), (blocks_join E H K _ AK Ag). apply Forall_app. split.
  - eapply Forall_impl; [|exact S1]. intros l [b [m [A [B C]]]]. exists b, m. split; [now apply nth_error_app_l|].
    split; [now apply whole_block_app|exact C].
  - apply Forall_forall. intros l Hl. apply in_map_iff in Hl. destruct Hl as [l0 [<- Hl]].
    unfold stored in S2. rewrite Forall_forall in S2. destruct (S2 l0 Hl) as [b [m [A [B C]]]].
    exists (moved (offset H) b), m. cbn [renumbered l_block l_chan]. split; [|split; [|exact C]].
    + rewrite nth_error_app2 by lia. replace (length (blocks_after H) + l_block l0 - length (blocks_after H))%nat with (l_block l0) by lia.
      rewrite nth_error_map, A. reflexivity.
    + rewrite End. now apply whole_block_moved.
Qed.

Lemma join_samples t p : stored f t H p -> stored g t K p ->
  samples_after (f ++ g) t (H ++ K) p = samples_after f t H p ++ samples_after g t K p.
Proof.
  intros S1 S2. destruct (opened_ix g G K OG SG) as [AK _]. destruct (opened_ix f F H OF SF) as [_ [_ Eb]].
  assert (Se : session E H F) by (econstructor; eauto).
  unfold samples_after at 1. rewrite (locs_join E H K _ p AK Ag), (blocks_join E H K _ AK Ag).
  unfold samples_at at 1. rewrite map_app, concat_app. f_equal.
  - fold (samples_at (f ++ g) t (blocks_after H ++ map (moved (offset H)) (blocks_after K)) (locs_after H p)).
    rewrite samples_at_app by apply locs_located. fold (samples_after (f ++ g) t H p).
    rewrite <- Eb. apply (old_samples E H F g t p Se); unfold exact_end; rewrite ?Eb; auto.
  - unfold samples_after, samples_at. f_equal. rewrite map_map. apply map_ext_in. intros l Hl.
    unfold stored in S2. rewrite Forall_forall in S2. destruct (S2 l Hl) as [b [m [A [_ [Hm _]]]]].
    unfold loc_samples. cbn [renumbered l_block l_chan l_n]. rewrite A.
    rewrite nth_error_app2 by lia. replace (length (blocks_after H) + l_block l - length (blocks_after H))%nat with (l_block l) by lia.
    rewrite nth_error_map, A. cbn [option_map]. unfold block_samples. apply map_ext. intros k.
    apply sample_moved; [exact End|congruence].
Qed.
End Joined.

(** ** Which files have their own channel lists *)
Lemma newlist_forgets L : Exists (fun s => toc_newlist (sg_toc s) = true) L ->
  forall x y, fold_left act_seg L x = fold_left act_seg L y.
Proof.
  induction 1 as [s L Hs|s L _ IH]; intros x y; cbn [fold_left].
  - unfold act_seg at 2 4. now rewrite Hs.
  - apply IH.
Qed.
Lemma own_agree H K : own_lists K -> lists_agree H K.
Proof.
  intros Ow A s B Ek R. unfold active_after at 1. rewrite fold_left_app. now apply newlist_forgets, (Ow A s B).
Qed.
Lemma inactive_agree H K : active_after H = [] -> lists_agree H K.
Proof. intros Z A s B Ek R. unfold active_after in *. now rewrite fold_left_app, Z. Qed.

(** A path that does not occur. *)
Lemma unused (l : list str) : exists x, ~ In x l.
Proof.
  assert (Q : exists n, forall y, In y l -> (length y < n)%nat).
  { induction l as [|y l [n IH]]; [exists 0%nat; intros y []|].
    exists (S (Nat.max (length y) n)). intros z [->|Hz]; [|apply IH in Hz]; lia. }
  destruct Q as [n Q]. exists (repeat x00 n). intros X. apply Q in X. rewrite repeat_length in X. lia.
Qed.

(** One segment that describes [n] values of one channel, with one byte of data. *)
Definition one_seg (x : str) (n : N) : segment :=
  mkSeg (mkToc true true false false false true) 1 0 (Some [mkObj x [] (RIRaw (mkRaw U8 n None))]).
Lemma one_active x n : active_after [one_seg x n] = [x].
Proof. reflexivity. Qed.
Lemma one_formats x n : active_formats [one_seg x n] = [mkRaw U8 n None].
Proof.
  unfold active_formats. rewrite one_active. cbn [map]. unfold last_format.
  cbn [all_objs flat_map seg_objs sg_meta one_seg app fold_left]. unfold fmt_obj. cbn [om_path om_idx]. now rewrite str_eqb_refl.
Qed.
Lemma one_chunks x n : 0 < n -> whole_chunks (block_of [] (one_seg x n)) <= 1.
Proof.
  intros Hn. unfold whole_chunks, block_of. cbn [b_chans b_len app]. rewrite one_formats.
  cbn [chunk_bytes fold_right rm_n rm_type sg_next sg_raw one_seg]. change (dtype_size U8) with 1. change (1 - 0) with 1.
  replace (n * 1 + 0 =? 0) with false by lia. rewrite N.mul_1_r, N.add_0_r.
  destruct (N.eq_dec n 1) as [->|Ne]; [reflexivity|]. rewrite N.div_small; lia.
Qed.
Lemma one_accepted E x n : 0 < n < 2 ^ 64 -> exists ix, accepted E [one_seg x n] ix /\ Forall plain [one_seg x n].
Proof.
  intros Hn. assert (P : plain (one_seg x n)) by (constructor; [reflexivity|constructor]).
  pose proof (verdict_exact E [] index_new (one_seg x n) (acc_nil E) (Forall_nil _) P) as V.
  assert (Q : exists m, verdict (overflow_checks E) [] (one_seg x n) = Ok m).
  { pose proof (one_chunks x n (proj1 Hn)) as W. unfold verdict. cbv zeta. cbn [app].
    rewrite one_formats, one_active. revert W. generalize (whole_chunks (block_of [] (one_seg x n))). intros w W.
    cbn [sg_toc one_seg toc_raw andb first_of sg_next sg_raw existsb rm_n chunk_bytes fold_right rm_type].
    change (dtype_size U8) with 1. change (unfounded (all_objs []) (seg_objs (one_seg x n))) with false. cbn [first_of].
    change (lenN [x] =? 0) with false. cbn [first_of]. change (1 <? 0) with false. change (1 =? 0) with false. cbn [first_of].
    change (2 ^ 64 <=? offset [] + 28 + 0) with false. rewrite andb_false_r. cbn [first_of].
    replace (2 ^ 64 <=? n * 1 + 0) with false by lia. cbn [first_of].
    replace (2 ^ 64 <=? n * w) with false by nia. cbn [orb first_of].
    change (2 ^ 64 <=? offset [] + 28 + 1) with false. cbn [first_of]. eauto. }
  destruct Q as [m Q]. rewrite Q in V. destruct (add_segment E index_new (one_seg x n)) as [ix r] eqn:Ea.
  cbn [snd] in V. subst r. exists ix. split; [|constructor; [exact P|constructor]].
  apply (acc_snoc E [] index_new (one_seg x n) ix m); [constructor|exact Ea].
Qed.
Lemma act_front x os : ~ In x (map om_path os) -> forall l, fold_left act_obj os (x :: l) = x :: fold_left act_obj os l.
Proof.
  induction os as [|o os IH]; intros Nx l; cbn [fold_left]; [reflexivity|].
  cbn [map In] in Nx. rewrite <- IH by tauto. f_equal. unfold act_obj. destruct (om_idx o); [reflexivity| |].
  all: cbn [existsb]; rewrite (proj2 (str_eqb_neq (om_path o) x)) by (intros Q; apply Nx; now left); cbn [orb]; destruct (existsb _ l); reflexivity.
Qed.
Lemma seg_front x s l : toc_newlist (sg_toc s) = false -> ~ In x (map om_path (seg_objs s)) ->
  act_seg (x :: l) s = x :: act_seg l s.
Proof. intros Nl Nx. unfold act_seg. rewrite Nl. now apply act_front. Qed.
Lemma list_front x L : Forall (fun s => toc_newlist (sg_toc s) = false) L -> ~ In x (map om_path (all_objs L)) ->
  forall l, fold_left act_seg L (x :: l) = x :: fold_left act_seg L l.
Proof.
  induction 1 as [|s L Hs _ IH]; intros Nx l; cbn [fold_left]; [reflexivity|].
  unfold all_objs in Nx. cbn [flat_map] in Nx. rewrite map_app, in_app_iff in Nx.
  rewrite seg_front by (tauto || exact Hs). apply IH. tauto.
Qed.
Lemma no_newlist L : ~ Exists (fun s => toc_newlist (sg_toc s) = true) L -> Forall (fun s => toc_newlist (sg_toc s) = false) L.
Proof.
  intros X. apply Forall_forall. intros s Hs. destruct (toc_newlist (sg_toc s)) eqn:Q; [|reflexivity].
  exfalso. apply X, Exists_exists. eauto.
Qed.
Lemma newlist_dec (s : segment) : {toc_newlist (sg_toc s) = true} + {~ toc_newlist (sg_toc s) = true}.
Proof. destruct (toc_newlist (sg_toc s)); [now left|now right]. Qed.

Lemma agree_own E K : (forall H ix, accepted E H ix -> Forall plain H -> lists_agree H K) -> own_lists K.
Proof.
  intros All A s B Ek R. destruct (Exists_dec (fun s => toc_newlist (sg_toc s) = true) (A ++ [s]) newlist_dec) as [X|X]; [exact X|].
  exfalso. apply no_newlist in X. destruct (unused (map om_path (all_objs (A ++ [s])))) as [x Nx].
  destruct (one_accepted E x 1 ltac:(split; reflexivity)) as [ix [Ac P]].
  pose proof (All _ ix Ac P A s B Ek R) as Q. unfold active_after at 1 in Q. rewrite fold_left_app in Q.
  change (fold_left act_seg [one_seg x 1] []) with [x] in Q. rewrite (list_front x (A ++ [s]) X Nx) in Q.
  apply (f_equal (@length _)) in Q. cbn [length] in Q. unfold active_after in Q. lia.
Qed.

(** ** A file whose first data continue another list loses samples *)
Section Loses.
Context (E : env) (x p : str) (n : N) (Hn : 1 < n) (Hp : p <> x).

Lemma one_length : length_after [one_seg x n] p = 0.
Proof.
  unfold length_after, length_from. change (toc_raw (sg_toc (one_seg x n))) with true. cbn [app].
  unfold samples_in, block_of. cbn [b_chans app].
  rewrite one_formats, one_active. cbn [map combine fold_right fst]. rewrite (proj2 (str_eqb_neq p x)) by exact Hp. lia.
Qed.
Lemma samples_none act b : whole_chunks b = 0 -> samples_in p act b = 0.
Proof.
  intros W. unfold samples_in. rewrite W. induction (combine act (b_chans b)) as [|y l IH]; cbn [map fold_right]; [reflexivity|].
  rewrite IH. destruct (str_eqb p (fst y)); lia.
Qed.
Definition joined_in (K : list segment) (s : segment) : N :=
  samples_in p (active_after ([one_seg x n] ++ K ++ [s])) (block_of ([one_seg x n] ++ K) s).

Lemma joined_own K s ix : accepted E (K ++ [s]) ix -> Exists (fun s => toc_newlist (sg_toc s) = true) (K ++ [s]) ->
  joined_in K s = samples_in p (active_after (K ++ [s])) (block_of K s).
Proof.
  intros A X. unfold joined_in.
  assert (Q : active_after ([one_seg x n] ++ K ++ [s]) = active_after (K ++ [s])).
  { unfold active_after at 1. rewrite fold_left_app. now apply newlist_forgets. }
  rewrite (block_join [one_seg x n] K s (active_known _ _ _ A) Q), Q. reflexivity.
Qed.
Lemma joined_none K s ix : accepted E (K ++ [s]) ix -> ~ Exists (fun s => toc_newlist (sg_toc s) = true) (K ++ [s]) ->
  ~ In x (map om_path (all_objs (K ++ [s]))) -> sg_next s < n -> joined_in K s = 0.
Proof.
  intros A X Nx Hs. apply no_newlist in X. unfold joined_in.
  assert (Q : active_after ([one_seg x n] ++ K ++ [s]) = x :: active_after (K ++ [s])).
  { unfold active_after at 1. rewrite fold_left_app. now apply list_front. }
  apply samples_none. unfold whole_chunks, block_of. cbn [b_chans b_len]. unfold active_formats.
  rewrite <- app_assoc, Q. cbn [map]. rewrite format_join.
  assert (Z : last_format (all_objs (K ++ [s])) x = None).
  { unfold last_format. generalize (all_objs (K ++ [s])) Nx. clear. intros os. induction os as [|o os IH]; intros Nx; [reflexivity|].
    cbn [fold_left map In] in *. unfold fmt_obj at 2. rewrite (proj2 (str_eqb_neq x (om_path o))) by (intros ->; tauto). apply IH. tauto. }
  assert (Y : last_format (all_objs [one_seg x n]) x = Some (mkRaw U8 n None)).
  { unfold last_format. cbn [all_objs flat_map seg_objs sg_meta one_seg app fold_left]. unfold fmt_obj. cbn [om_path om_idx].
    now rewrite str_eqb_refl. }
  rewrite Z, Y. cbn [chunk_bytes fold_right rm_n rm_type]. change (dtype_size U8) with 1.
  match goal with |- (if ?c + ?d =? 0 then _ else _) = _ => generalize d end. intros d.
  replace (n * 1 + d =? 0) with false by lia. apply N.div_small. lia.
Qed.

Lemma joined_less K ix : accepted E K ix -> ~ In x (map om_path (all_objs K)) -> Forall (fun s => sg_next s < n) K ->
  length_after ([one_seg x n] ++ K) p <= length_after K p
  /\ forall A s B, K = A ++ s :: B -> ~ Exists (fun s => toc_newlist (sg_toc s) = true) (A ++ [s]) -> counts A s p ->
     length_after ([one_seg x n] ++ K) p < length_after K p.
Proof.
  induction 1 as [|K ix s ix' m A IH Ha]; intros Nx Sm.
  - rewrite app_nil_r, one_length. split; [lia|]. intros A s B Ek. destruct A; discriminate.
  - assert (AKs : accepted E (K ++ [s]) ix') by (econstructor; eauto).
    apply Forall_app in Sm. destruct Sm as [Sm Ss]. inversion Ss as [|? ? Ss1 _]; subst.
    assert (NxK : ~ In x (map om_path (all_objs K))).
    { rewrite all_objs_app, map_app, in_app_iff in Nx. tauto. }
    destruct (IH NxK Sm) as [Le Lt]. rewrite app_assoc, !length_after_snoc, <- app_assoc. fold (joined_in K s).
    assert (J : joined_in K s <= samples_in p (active_after (K ++ [s])) (block_of K s)).
    { destruct (Exists_dec (fun s => toc_newlist (sg_toc s) = true) (K ++ [s]) newlist_dec) as [X|X].
      - rewrite (joined_own K s ix' AKs X). lia.
      - rewrite (joined_none K s ix' AKs X Nx Ss1). lia. }
    split; [destruct (toc_raw (sg_toc s)); lia|].
    intros A0 s0 B Ek Xn Ct. destruct B as [|y B] using rev_ind.
    + apply app_inj_tail in Ek. destruct Ek as [-> ->]. destruct Ct as [R Ct]. rewrite R.
      rewrite (joined_none A0 s0 ix' AKs Xn Nx Ss1) in *. lia.
    + clear IHB. rewrite app_comm_cons, app_assoc in Ek. apply app_inj_tail in Ek. destruct Ek as [-> ->].
      specialize (Lt A0 s0 B eq_refl Xn Ct). destruct (toc_raw (sg_toc y)); lia.
Qed.
End Loses.
