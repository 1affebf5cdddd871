(** * Claim C119: channels in any interleaved blocks read from the start of a file that has lost its end *)
From Coq Require Import Strings.String Sorted.
From Verif Require Import Base Lib DataTypes MetaData Maps DataBlock Index RawData ChannelReader TdmsFile
  SpecIndex SpecSession SpecShortStep SpecCutFile SpecArrive SpecRowsAny SpecRead Block_proofs Request_proofs Plan_proofs Read_proofs Session_proofs Parse_proofs
  Short_proofs ShortStep_proofs Arrive_proofs ArriveRun_proofs RowsAny_proofs Told_proofs Again_proofs Index_proofs Vectors Thm_Open Thm_Index Thm_Read Thm_CutFile
  Thm_ShortStep Thm_Arrive Thm_Singly.
Close Scope string_scope.

Lemma needed_all ls : Forall (fun l => 0 < l_n l) ls -> needed ls 0 = map (fun l => (l_block l, l_chan l, 0)) ls.
Proof. induction 1 as [|l ls Hl F IH]; [reflexivity|]. cbn [needed map]. destruct (l_n l <=? 0) eqn:Q; [lia|]. now rewrite IH. Qed.
Lemma stored_full f t H p : stored f t H p -> Forall (fun l => 0 < l_n l) (locs_after H p).
Proof.
  intros St. unfold stored in St. pose proof (locs_located H p) as Lo. rewrite Forall_forall in *. intros l Hl.
  destruct (St l Hl) as [b [m [Hb [[n [c [Pn [Pc [Ne [Fu [Ck Pr]]]]]]] [Hm _]]]]].
  destruct (Lo l Hl) as [b' [m' [Hb' [Hm' ->]]]]. rewrite Hb in Hb'. injection Hb' as <-. rewrite Hm in Hm'. injection Hm' as <-.
  rewrite (whole_chunks_of b c); [|eapply Forall_impl; [|exact Fu]; cbv beta; tauto|apply (sub_bytes_pos n); assumption|exact Ck].
  rewrite Forall_forall in Fu. rewrite (proj1 (Fu m (nth_error_In _ _ Hm))). nia.
Qed.
Lemma planned_blocks i plan q : In q (planned i plan) -> exists br, In br plan /\ br_block br = fst (fst q)
  /\ nth_error (br_chans br) i = Some (Some (snd (fst q), snd q)).
Proof.
  unfold planned. rewrite in_flat_map. intros [br [Hbr Hq]]. exists br. split; [exact Hbr|].
  destruct (nth_error (br_chans br) i) as [[[c s]|]|]; try contradiction. destruct Hq as [<-|[]]. split; reflexivity.
Qed.
Lemma filter_split {A} (P : A -> bool) a b : (forall q, In q a -> P q = true) -> (forall q, In q b -> P q = false) -> filter P (a ++ b) = a.
Proof.
  intros Ha Hb. rewrite filter_app. replace (filter P b) with (@nil A).
  - rewrite app_nil_r. clear Hb. induction a as [|q a IH]; [reflexivity|]. cbn [filter]. rewrite (Ha q (or_introl eq_refl)), IH; [reflexivity|]. intros z Hz. apply Ha. now right.
  - symmetry. clear Ha. induction b as [|q b IH]; [reflexivity|]. cbn [filter]. rewrite (Hb q (or_introl eq_refl)). apply IH. intros z Hz. apply Hb. now right.
Qed.
Lemma filter_map_fst ls j : filter (fun q => Nat.ltb (fst (fst q)) j) (map (fun l => (l_block l, l_chan l, 0)) ls)
  = map (fun l => (l_block l, l_chan l, 0)) (filter (fun l => Nat.ltb (l_block l) j) ls).
Proof. induction ls as [|l ls IH]; [reflexivity|]. cbn [map filter fst]. destruct (Nat.ltb (l_block l) j); cbn [map]; now rewrite IH. Qed.
Lemma sorted_apart pre br post : StronglySorted lt (map br_block (pre ++ br :: post)) ->
  (forall b, In b pre -> (br_block b < br_block br)%nat) /\ (forall b, In b post -> (br_block br < br_block b)%nat).
Proof.
  induction pre as [|b0 pre IH]; cbn [app map]; intros S; inversion S as [|y l S' F]; subst.
  - split; [contradiction|]. intros b Hb. rewrite Forall_forall in F. apply F. now apply in_map.
  - destruct (IH S') as [A B]. split; [|exact B]. intros b [<-|Hb]; [|now apply A]. rewrite Forall_forall in F. apply F. apply in_map. apply in_or_app. right. now left.
Qed.
Lemma nth_seq n i : (i < n)%nat -> nth_error (seq 0 n) i = Some i.
Proof. intros L. rewrite (nth_error_nth' _ 0%nat) by (rewrite seq_length; exact L). f_equal. now rewrite seq_nth. Qed.

Lemma combine_inv {A B} : forall (la : list A) (lb : list B) i a b, nth_error (combine la lb) i = Some (a, b) -> nth_error la i = Some a /\ nth_error lb i = Some b.
Proof.
  intros la lb i. revert la lb. induction i as [|i IH]; intros [|a la] [|b lb] a' b' Hi; try discriminate; cbn [combine nth_error] in *.
  - injection Hi as -> ->. split; reflexivity.
  - now apply IH.
Qed.

(** Different channels in any blocks, all interleaved, read from the start with buffers of any lengths: the read succeeds
    exactly if, for every channel and every block that begins before its buffer is full, the samples in the rows read
    there are in the file. *)
Theorem C119_rows : forall E H W f x t chans outs,
  session E H W -> tf_bytes W = f ++ x -> fixed t -> addressable E (tf_bytes W) ->
  Forall (mentioned (all_objs H)) chans -> Forall (stored (tf_bytes W) t H) chans ->
  NoDup chans -> length outs = length chans -> interleaved_only H chans ->
  let asked := combine chans (map (@length _) outs) in
  snd (read_channels_from E (mkTF (tf_ix W) f) t chans 0 outs) = Ok tt
  <-> forall p n l q, In (p, n) asked -> In l (locs_after H p) -> (before H p (l_block l) < n)%nat ->
        In q (firstn (S (rows_wanted H asked (l_block l))) (loc_places (blocks_after H) l)) ->
        snd q + size_bytes t <= lenN f.
Proof.
  intros E H W f x t chans outs Se By Fx Ad M St ND Lo Il asked.
  unfold read_channels_from, ix_read_channels_from. cbn [tf_ix tf_bytes]. rewrite (lookup_ok E H W Se) by exact M. cbn [bind].
  destruct (plan_ok E H W Se chans 0 M) as [plan [Hpl [Ps [Sh Hn]]]]. rewrite Hpl.
  destruct (C14_incremental E H W Se) as [_ [_ [_ [Hb _]]]].
  assert (Ss : same_skips plan).
  { intros br Hbr. exists 0. intros i c si Hi. rewrite Forall_forall in Sh. destruct (Sh br Hbr) as [Ln _].
    destruct (nth_error chans i) as [p|] eqn:Pi.
    - pose proof (planned_in i plan br c si Hbr Hi) as X. rewrite (Hn _ _ Pi) in X. now apply needed_0 in X.
    - apply nth_error_None in Pi. assert (i < length (br_chans br))%nat by (apply nth_error_Some; congruence). lia. }
  assert (R : readable_plan (tf_bytes W) t (tf_ix W) (length chans) plan) by (apply (plan_readable E H W t Se chans 0); auto).
  assert (Int : Forall (fun br => forall b, nth_error (ix_blocks (tf_ix W)) (br_block br) = Some b -> b_layout b = Interleaved) plan).
  { apply Forall_forall. intros br Hbr b Bb. rewrite Forall_forall in Sh. destruct (Sh br Hbr) as [Ln [c [s Hc]]].
    apply In_nth_error in Hc. destruct Hc as [i Hi].
    assert (Hi0 : (i < length chans)%nat) by (rewrite <- Ln; apply nth_error_Some; congruence).
    destruct (nth_error chans i) as [p|] eqn:Pi; [|apply nth_error_Some in Hi0; contradiction].
    pose proof (planned_in i plan br c s Hbr Hi) as X. rewrite (Hn _ _ Pi) in X.
    apply needed_in in X. destruct X as [l [Hl [El _]]].
    apply (Il p l b); [eapply nth_error_In; eauto|exact Hl|]. rewrite <- Hb. now rewrite El. }
  rewrite By in R, Ad.
  (* the plan against the locations *)
  assert (Pn : forall i p, nth_error chans i = Some p -> planned i plan = map (fun l => (l_block l, l_chan l, 0)) (locs_after H p)).
  { intros i p Hi. rewrite (Hn _ _ Hi). apply needed_all. apply (stored_full (tf_bytes W) t). rewrite Forall_forall in St. apply St. eapply nth_error_In; eauto. }
  assert (Rl : forall p L, (forall l, In l L -> In l (locs_after H p)) ->
            concat (map (rest_places (blocks_after H)) (map (fun l => (l_block l, l_chan l, 0)) L)) = concat (map (loc_places (blocks_after H)) L)).
  { intros p L HL. f_equal. rewrite map_map. apply map_ext_in. intros l Hl. pose proof (locs_located H p) as Lc. rewrite Forall_forall in Lc.
    symmetry. apply located_places. apply Lc, HL, Hl. }
  assert (Ub : forall pre br post i p, plan = pre ++ br :: post -> nth_error chans i = Some p ->
            used (blocks_after H) i pre = before H p (br_block br)).
  { intros pre br post i p Eq Hi. rewrite Eq in Ps. destruct (sorted_apart _ _ _ Ps) as [A B]. unfold used, before. f_equal.
    rewrite <- (Rl p) by (intros l Hl; apply filter_In in Hl; tauto). rewrite <- filter_map_fst, <- (Pn i p Hi), Eq.
    unfold planned at 2. rewrite flat_map_app. fold (planned i pre) (planned i (br :: post)). rewrite filter_split; [reflexivity| |].
    - intros q Hq. destruct (planned_blocks _ _ _ Hq) as [b [Hb' [<- _]]]. apply Nat.ltb_lt. now apply A.
    - intros q Hq. destruct (planned_blocks _ _ _ Hq) as [b [[<-|Hb'] [<- _]]]; apply Nat.ltb_ge; [lia|]. specialize (B b Hb'). lia. }
  assert (Loc : forall pre br post i p, plan = pre ++ br :: post -> nth_error chans i = Some p ->
            existsb (fun l => Nat.eqb (l_block l) (br_block br)) (locs_after H p)
            = match nth_error (br_chans br) i with Some (Some _) => true | _ => false end).
  { intros pre br post i p Eq Hi. pose proof Ps as Ps'. rewrite Eq in Ps'. destruct (sorted_apart _ _ _ Ps') as [A B].
    apply Bool.eq_true_iff_eq. rewrite existsb_exists. split.
    - intros [l [Hl Q]]. apply Nat.eqb_eq in Q.
      assert (X : In (l_block l, l_chan l, 0) (planned i plan)) by (rewrite (Pn i p Hi); apply in_map_iff; exists l; split; [reflexivity|exact Hl]).
      destruct (planned_blocks _ _ _ X) as [b [Hb' [Q2 N2]]]. cbn [fst snd] in Q2, N2. rewrite Eq in Hb'. apply in_app_or in Hb'.
      destruct Hb' as [Hb'|[<-|Hb']]; [specialize (A b Hb'); lia|now rewrite N2|specialize (B b Hb'); lia].
    - destruct (nth_error (br_chans br) i) as [[[c s]|]|] eqn:N; try discriminate. intros _.
      assert (Hbr : In br plan) by (rewrite Eq; apply in_or_app; right; now left).
      pose proof (planned_in i plan br c s Hbr N) as X. rewrite (Pn i p Hi) in X. apply in_map_iff in X. destruct X as [l [Q Hl]].
      injection Q as Q _ _. exists l. split; [exact Hl|]. now apply Nat.eqb_eq. }
  set (rs := map room_of (map (fun o : list (carrier t) => mkPr 0 (lenN o)) outs)).
  assert (Rs : rs = map (@length _) outs).
  { unfold rs. rewrite map_map. apply map_ext. intros o. unfold room_of, lenN. cbn [pr_read pr_target]. lia. }
  assert (Wa : forall pre br post, plan = pre ++ br :: post -> wanted (blocks_after H) rs pre br = rows_wanted H asked (br_block br)).
  { intros pre br post Eq. unfold wanted, rows_wanted. f_equal. apply nth_ext_error. intros i. rewrite !nth_error_map.
    destruct (nth_error chans i) as [p|] eqn:Pi.
    - assert (Li : (i < length outs)%nat) by (rewrite Lo; apply nth_error_Some; congruence).
      destruct (nth_error outs i) as [o|] eqn:Oi; [|apply nth_error_None in Oi; lia].
      assert (Ri : nth_error (map (@length _) outs) i = Some (length o)) by (now rewrite nth_error_map, Oi).
      rewrite nth_seq by (rewrite Rs, map_length; exact Li). unfold asked. rewrite (combine_nth _ _ _ _ _ Pi Ri). cbn [option_map fst snd].
      rewrite (Loc pre br post i p Eq Pi), (Ub pre br post i p Eq Pi), Rs, (nth_error_nth _ i _ Ri).
      destruct (nth_error (br_chans br) i) as [[?|]|]; reflexivity.
    - apply nth_error_None in Pi. rewrite (proj2 (nth_error_None (seq 0 (length rs)) i)) by (rewrite seq_length, Rs, map_length; lia).
      rewrite (proj2 (nth_error_None asked i)); [reflexivity|]. unfold asked. rewrite combine_length, map_length. lia. }
  unfold execute_read_plan.
  rewrite (exec_any E f x t (tf_ix W) (length chans) Fx Ad plan _ outs R) by (rewrite ?map_length; assumption).
  fold rs. unfold all_rows. rewrite Hb. split.
  - intros X p n l q Hin Hl Lt Hq. destruct (In_nth_error _ _ Hin) as [i Hi].
    assert (Hpo : nth_error chans i = Some p /\ nth_error (map (@length _) outs) i = Some n).
    { exact (combine_inv _ _ _ _ _ Hi). }
    destruct Hpo as [Hp Ho]. rewrite <- Rs in Ho.
    assert (Y : In (l_block l, l_chan l, 0) (planned i plan)) by (rewrite (Pn i p Hp); apply in_map_iff; exists l; split; [reflexivity|exact Hl]).
    destruct (planned_blocks _ _ _ Y) as [br [Hbr [Q2 N2]]]. cbn [fst snd] in Q2, N2. destruct (in_split _ _ Hbr) as [pre [post Eq]].
    rewrite <- Q2 in Lt, Hq. rewrite <- (Ub pre br post i p Eq Hp) in Lt. rewrite <- (Wa pre br post Eq) in Hq.
    specialize (X pre br post i (l_chan l) 0 n Eq N2 Ho Lt). rewrite Q2 in X.
    assert (El : loc_places (blocks_after H) l = rest_places (blocks_after H) (l_block l, l_chan l, 0)).
    { apply located_places. pose proof (locs_located H p) as Lc. rewrite Forall_forall in Lc. now apply Lc. }
    rewrite <- El, Forall_forall in X. specialize (X q Hq). unfold present in X. lia.
  - intros X pre br post i ci s r Eq N Hr Lt.
    assert (Hi0 : (i < length chans)%nat) by (rewrite <- Lo, <- (map_length (@length (carrier t))), <- Rs; apply nth_error_Some; congruence).
    destruct (nth_error chans i) as [p|] eqn:Pi; [|apply nth_error_None in Pi; lia].
    assert (Hbr : In br plan) by (rewrite Eq; apply in_or_app; right; now left).
    pose proof (planned_in i plan br ci s Hbr N) as Y. rewrite (Pn i p Pi) in Y. apply in_map_iff in Y. destruct Y as [l [Q Hl]].
    injection Q as Q1 Q2 Q3. subst ci s.
    assert (El : loc_places (blocks_after H) l = rest_places (blocks_after H) (l_block l, l_chan l, 0)).
    { apply located_places. pose proof (locs_located H p) as Lc. rewrite Forall_forall in Lc. now apply Lc. }
    rewrite (Wa pre br post Eq), <- Q1, <- El. apply Forall_forall. intros q Hq.
    assert (Hin : In (p, r) asked) by (unfold asked; rewrite Rs in Hr; eapply nth_error_In; apply combine_nth; eassumption).
    rewrite (Ub pre br post i p Eq Pi), <- Q1 in Lt.
    specialize (X p r l q Hin Hl Lt Hq). unfold present. lia.
Qed.
Print Assumptions C119_rows.

Lemma firstn_le {A} (q : A) : forall n m l, (n <= m)%nat -> In q (firstn n l) -> In q (firstn m l).
Proof.
  induction n as [|n IH]; intros [|m] [|a l] Le Hq; cbn [firstn In] in *; try contradiction; try lia.
  destruct Hq as [Hq|Hq]; [now left|right]. apply IH; [lia|exact Hq].
Qed.
(** If the common read succeeds, so does the read of each channel alone with its buffer.  The converse is false: C118_uneven_refuted. *)
Theorem C119_singly : forall E H W f x t chans outs,
  session E H W -> tf_bytes W = f ++ x -> fixed t -> addressable E (tf_bytes W) ->
  Forall (mentioned (all_objs H)) chans -> Forall (stored (tf_bytes W) t H) chans ->
  NoDup chans -> length outs = length chans -> interleaved_only H chans ->
  snd (read_channels_from E (mkTF (tf_ix W) f) t chans 0 outs) = Ok tt ->
  forall p o, In (p, o) (combine chans outs) -> snd (read_channel_from E (mkTF (tf_ix W) f) t p 0 o) = Ok tt.
Proof.
  intros E H W f x t chans outs Se By Fx Ad M St ND Lo Il Hok p o Hin.
  pose proof (proj1 (C119_rows E H W f x t chans outs Se By Fx Ad M St ND Lo Il) Hok) as X. cbv zeta in X. clear Hok.
  destruct (In_nth_error _ _ Hin) as [i Hi]. destruct (combine_inv _ _ _ _ _ Hi) as [Hp Ho].
  assert (Hpc : In p chans) by (eapply nth_error_In; eauto).
  rewrite C116_one. cbn [snd]. rewrite Forall_forall in M, St.
  apply (proj2 (C119_rows E H W f x t [p] [o] Se By Fx Ad ltac:(repeat constructor; now apply M) ltac:(repeat constructor; now apply St)
                  ltac:(repeat constructor; intros []) eq_refl ltac:(intros p' l b [<-|[]]; now apply Il))).
  intros p' n l q [Q|[]] Hl Lt Hq. injection Q as <- <-.
  assert (Ha : In (p, length o) (combine chans (map (@length _) outs))).
  { apply (nth_error_In _ i). apply combine_nth; [exact Hp|]. now rewrite nth_error_map, Ho. }
  apply (X p (length o) l q Ha Hl Lt). eapply firstn_le; [|exact Hq]. apply le_n_S.
  unfold rows_wanted at 1. unfold list_max at 1. cbn [map combine fold_right fst snd]. rewrite Nat.max_0_r.
  unfold rows_wanted. apply list_max_ge. apply in_map_iff. exists (p, length o). split; [reflexivity|exact Ha].
Qed.
Print Assumptions C119_singly.

(** A file where a has two values in a first block and both channels have three in a second (an input for file/mod.rs 86-89). *)
Definition any_file : list byte := seg_i32 LittleE true [ch "g" "a"] 2 [1; 2]%Z ++ seg_i32 LittleE true [ch "g" "a"; ch "g" "b"] 3 [3; 103; 4; 104; 5; 105]%Z.
(** The file opened (file/mod.rs 86-89). *)
Definition any_F : tfile := open_bytes dbg any_file.
(** Its first 200 bytes (what channel_reader.rs 79-200 reads from). *)
Definition any_f : list byte := firstn 200 any_file.
(** Cut after 200 bytes the last value of b is lost.  Reading four values of a and one of b goes through three rows of the
    second block and fails; three of a and one of b goes through two and succeeds. *)
Example C119_case : exists H, session dbg H any_F /\ tf_bytes any_F = any_f ++ skipn 200 any_file
  /\ Forall (mentioned (all_objs H)) [ch "g" "a"; ch "g" "b"] /\ Forall (stored (tf_bytes any_F) SI32 H) [ch "g" "a"; ch "g" "b"]
  /\ interleaved_only H [ch "g" "a"; ch "g" "b"] /\ ~ same_places H [ch "g" "a"; ch "g" "b"]
  /\ locs_after H (ch "g" "b") = [mkLoc 1 1 3] /\ before H (ch "g" "a") 1 = 2%nat
  /\ map snd (loc_places (blocks_after H) (mkLoc 1 1 3)) = [184; 192; 200] /\ lenN any_f = 200
  /\ rows_wanted H [(ch "g" "a", 4%nat); (ch "g" "b", 1%nat)] 1 = 2%nat /\ rows_wanted H [(ch "g" "a", 3%nat); (ch "g" "b", 1%nat)] 1 = 1%nat
  /\ snd (read_channels_from dbg (mkTF (tf_ix any_F) any_f) SI32 [ch "g" "a"; ch "g" "b"] 0 [repeat 0 4; repeat 0 1]%Z) = Err (EIo UnexpectedEof)
  /\ snd (read_channels_from dbg (mkTF (tf_ix any_F) any_f) SI32 [ch "g" "a"; ch "g" "b"] 0 [repeat 0 3; repeat 0 1]%Z) = Ok tt.
Proof.
  assert (O : tdms_new dbg any_file = Ok any_F) by (vm_compute; reflexivity).
  destruct (C14_open_is_session _ _ _ O) as [H [_ [Se _]]]. exists H. split; [exact Se|]. split; [vm_compute; reflexivity|].
  destruct (session_stored dbg _ _ H SI32 (ch "g" "a") [mkLoc 0 0 2; mkLoc 1 0 3] O Se) as [Ma Sa]; [vm_compute; reflexivity..|].
  destruct (session_stored dbg _ _ H SI32 (ch "g" "b") [mkLoc 1 1 3] O Se) as [Mb Sb]; [vm_compute; reflexivity..|].
  split; [repeat constructor; assumption|]. split; [repeat constructor; assumption|].
  destruct (C14_incremental _ _ _ Se) as [_ [_ [_ [Bs [Gp _]]]]].
  assert (Ga : locs_after H (ch "g" "a") = [mkLoc 0 0 2; mkLoc 1 0 3]).
  { assert (X : get_positions (tf_ix any_F) (ch "g" "a") = Some [mkLoc 0 0 2; mkLoc 1 0 3]) by (vm_compute; reflexivity).
    rewrite (Gp _ Ma) in X. now apply some_eq in X. }
  assert (Gb : locs_after H (ch "g" "b") = [mkLoc 1 1 3]).
  { assert (X : get_positions (tf_ix any_F) (ch "g" "b") = Some [mkLoc 1 1 3]) by (vm_compute; reflexivity).
    rewrite (Gp _ Mb) in X. now apply some_eq in X. }
  split; [|split].
  - intros p l b Hp Hl Hb. rewrite <- Bs in Hb.
    assert (Nb : forall j, (j < 2)%nat -> option_map b_layout (nth_error (ix_blocks (tf_ix any_F)) j) = Some Interleaved)
      by (intros [|[|j]] Hj; [vm_compute; reflexivity..|lia]).
    assert (J : (l_block l < 2)%nat).
    { destruct Hp as [<-|[<-|[]]]; [rewrite Ga in Hl|rewrite Gb in Hl]; repeat (destruct Hl as [<-|Hl]; [cbn [l_block]; lia|]); contradiction. }
    specialize (Nb _ J). rewrite Hb in Nb. cbn [option_map] in Nb. now apply some_eq in Nb.
  - intros Sp. assert (X := Sp (ch "g" "a") (ch "g" "b") (or_introl eq_refl) (or_intror (or_introl eq_refl))). rewrite Ga, Gb in X. discriminate X.
  - unfold rows_wanted, before. cbn [map fst snd]. rewrite Ga, Gb, <- Bs. clear. repeat split; vm_compute; reflexivity.
Qed.
