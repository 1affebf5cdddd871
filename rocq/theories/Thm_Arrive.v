(** * Claim C114: exactly what several channels in step get from a file that has lost its end *)
From Coq Require Import Strings.String Sorted.
From Verif Require Import Base Lib DataTypes MetaData Maps DataBlock Index RawData ChannelReader TdmsFile
  SpecIndex SpecSession SpecShortStep SpecCutFile SpecArrive SpecRead Block_proofs Request_proofs Plan_proofs Read_proofs Session_proofs Parse_proofs
  Short_proofs ShortStep_proofs ArriveRun_proofs Told_proofs Again_proofs Index_proofs Vectors Thm_Open Thm_Index Thm_Read Thm_CutFile Thm_ShortStep.
Close Scope string_scope.

(** Channels read in step from a file of which only a beginning is left: every buffer gets the samples asked for whose
    bytes are in the file, all of them and nothing else, and is as it was behind them. *)
Theorem C114_arrived : forall E H W f x t chans start outs,
  session E H W -> tf_bytes W = f ++ x -> fixed t -> addressable E (tf_bytes W) ->
  Forall (mentioned (all_objs H)) chans -> Forall (stored (tf_bytes W) t H) chans ->
  NoDup chans -> length outs = length chans ->
  stay_in_step (samples_after (tf_bytes W) t H) H chans start outs ->
  exists outs' r,
    read_channels_from E (mkTF (tf_ix W) f) t chans start outs = (outs', r)
    /\ length outs' = length outs
    /\ (forall i p o, nth_error chans i = Some p -> nth_error outs i = Some o ->
          nth_error outs' i = Some (overlay o (firstn (length o) (arrived f t H p start))))
    /\ (r = Ok tt \/ r = Err (EIo UnexpectedEof)).
Proof.
  intros E H W f x t chans start outs Se By Fx Ad M St ND Lo Sp.
  destruct (C113_first_parts E H W f x t chans start outs Se By Fx Ad M St ND Lo Sp) as (outs' & r & R & L & _ & K).
  exists outs', r. split; [exact R|]. split; [exact L|]. split; [|exact K].
  intros i p o Hp Ho.
  unfold read_channels_from, ix_read_channels_from in R. cbn [tf_ix tf_bytes] in R. rewrite (lookup_ok E H W Se) in R by exact M. cbn [bind] in R.
  destruct (plan_ok E H W Se chans start M) as [plan [Hpl [Ps [Sh Hn]]]]. rewrite Hpl in R.
  pose proof (step_plan E H W f t chans start outs Se M St ND Lo Sp plan Ps Sh Hn) as Fr. rewrite By in Fr, Ad.
  destruct (C14_incremental E H W Se) as [_ [_ [_ [Hb _]]]].
  assert (Ord : forall j j' b b', (j < j')%nat -> nth_error (ix_blocks (tf_ix W)) j = Some b -> nth_error (ix_blocks (tf_ix W)) j' = Some b' ->
            b_start b + b_len b <= b_start b').
  { rewrite Hb. unfold blocks_after. intros j j' b b'. apply blocks_ordered. exact (session_data E H W Se). }
  unfold execute_read_plan in R.
  destruct (exec_cut E f x t (tf_ix W) Fx Ad Ord plan _ outs Fr (fits_start outs) Ps) as (outs1 & r1 & X1 & X2 & X3 & _).
  rewrite R in X1. injection X1 as <- <-.
  assert (Hpr : nth_error (map (fun o => mkPr 0 (lenN o)) outs) i = Some (mkPr 0 (lenN o))) by (rewrite nth_error_map, Ho; reflexivity).
  rewrite (X3 i _ o Hpr Ho). f_equal. unfold room_of. cbn [pr_read pr_target]. rewrite (Hn _ _ Hp). unfold arr. rewrite pick_arrived, Hb.
  rewrite needed_places by apply locs_located.
  change (map (value_at f t) (filter (present f t) (skipn (N.to_nat start) (concat (map (loc_places (blocks_after H)) (locs_after H p))))))
    with (arrived f t H p start).
  unfold splice, overlay, lenN. change (N.to_nat 0) with 0%nat. rewrite firstn_O. cbn [app Nat.add]. f_equal.
  - f_equal. lia.
  - f_equal. f_equal. f_equal. lia.
Qed.
Print Assumptions C114_arrived.

(** The read succeeds if every block that holds a sample from [start] on of a channel asked for is whole in the file. *)
Theorem C114_succeeds : forall E H W f x t chans start outs,
  session E H W -> tf_bytes W = f ++ x -> fixed t -> addressable E (tf_bytes W) ->
  Forall (mentioned (all_objs H)) chans -> Forall (stored (tf_bytes W) t H) chans ->
  NoDup chans -> length outs = length chans ->
  stay_in_step (samples_after (tf_bytes W) t H) H chans start outs ->
  (forall p j c s b, In p chans -> In (j, c, s) (needed (locs_after H p) start) -> nth_error (blocks_after H) j = Some b ->
     b_start b + b_len b <= lenN f) ->
  snd (read_channels_from E (mkTF (tf_ix W) f) t chans start outs) = Ok tt.
Proof.
  intros E H W f x t chans start outs Se By Fx Ad M St ND Lo Sp Wh.
  unfold read_channels_from, ix_read_channels_from. cbn [tf_ix tf_bytes]. rewrite (lookup_ok E H W Se) by exact M. cbn [bind].
  destruct (plan_ok E H W Se chans start M) as [plan [Hpl [Ps [Sh Hn]]]]. rewrite Hpl.
  pose proof (step_plan E H W f t chans start outs Se M St ND Lo Sp plan Ps Sh Hn) as Fr. rewrite By in Fr, Ad.
  destruct (C14_incremental E H W Se) as [_ [_ [_ [Hb _]]]].
  assert (Ord : forall j j' b b', (j < j')%nat -> nth_error (ix_blocks (tf_ix W)) j = Some b -> nth_error (ix_blocks (tf_ix W)) j' = Some b' ->
            b_start b + b_len b <= b_start b').
  { rewrite Hb. unfold blocks_after. intros j j' b b'. apply blocks_ordered. exact (session_data E H W Se). }
  unfold execute_read_plan.
  destruct (exec_cut E f x t (tf_ix W) Fx Ad Ord plan _ outs Fr (fits_start outs) Ps) as (outs1 & r1 & X1 & X2 & _ & X4).
  rewrite X1. cbn [snd]. destruct X4 as [->|(br & b & Hbr & Bb & L)]; [reflexivity|exfalso].
  rewrite Forall_forall in Sh. destruct (Sh br Hbr) as [Ln [c [s Hc]]]. apply In_nth_error in Hc. destruct Hc as [i Hi].
  assert (Hi0 : (i < length chans)%nat) by (rewrite <- Ln; apply nth_error_Some; congruence).
  destruct (nth_error chans i) as [p|] eqn:Pi; [|apply nth_error_Some in Hi0; contradiction].
  pose proof (planned_in i plan br c s Hbr Hi) as X. rewrite (Hn _ _ Pi) in X. rewrite Hb in Bb.
  specialize (Wh p _ _ _ b (nth_error_In _ _ Pi) X Bb). lia.
Qed.
Print Assumptions C114_succeeds.

(** If the data are complete, these are all samples from [start] on. *)
Theorem C114_whole : forall E f t H p start, fixed t -> addressable E f -> stored f t H p ->
  Forall (fun q => present f t q = true) (places_after H p) ->
  arrived f t H p start = skipn (N.to_nat start) (samples_after f t H p).
Proof.
  intros E f t H p start Fx Ad St F. destruct (C81_whole E f t H p Fx Ad St) as [V _]. rewrite <- V, skipn_map. unfold arrived. f_equal.
  rewrite <- (firstn_skipn (N.to_nat start) (places_after H p)) in F. apply Forall_app in F. destruct F as [_ F].
  induction F as [|q L Hq F IH]; cbn [filter]; [reflexivity|]. now rewrite Hq, IH.
Qed.
Print Assumptions C114_whole.

(** The reads of [C113_case], against the samples whose bytes are left: with 236 bytes one value of a and two of b. *)
Example C114_case :
  exists H, session dbg H pair_F
    /\ Forall (mentioned (all_objs H)) [ch "g" "a"; ch "g" "b"]
    /\ Forall (stored (tf_bytes pair_F) SI32 H) [ch "g" "a"; ch "g" "b"]
    /\ stay_in_step (samples_after (tf_bytes pair_F) SI32 H) H [ch "g" "a"; ch "g" "b"] 2 [[7; 7; 7]; [8; 8; 8]]%Z
    /\ map (fun n => (arrived (firstn n pair_file) SI32 H (ch "g" "a") 2, arrived (firstn n pair_file) SI32 H (ch "g" "b") 2)) [256; 247; 236; 127]%nat
     = [([3; 4; 5; 6], [103; 104; 105; 106]); ([3; 4], [103; 104; 105]); ([3], [103; 104]); ([3], [])]%Z.
Proof.
  assert (O : tdms_new dbg pair_file = Ok pair_F) by (vm_compute; reflexivity).
  destruct C113_case as [[H [Se [M [St Sp]]]] _]. exists H. do 4 (split; [assumption|]).
  destruct (C14_incremental _ _ _ Se) as [_ [_ [_ [Bs [Gp _]]]]].
  assert (Ga : places_after H (ch "g" "a") = concat (map (loc_places (ix_blocks (tf_ix pair_F))) [mkLoc 0 0 3; mkLoc 1 1 3])).
  { unfold places_after. rewrite <- Bs. f_equal. f_equal.
    assert (X : get_positions (tf_ix pair_F) (ch "g" "a") = Some [mkLoc 0 0 3; mkLoc 1 1 3]) by (vm_compute; reflexivity).
    rewrite (Gp _ (Forall_inv M)) in X. now apply some_eq in X. }
  assert (Gb : places_after H (ch "g" "b") = concat (map (loc_places (ix_blocks (tf_ix pair_F))) [mkLoc 0 1 3; mkLoc 1 0 3])).
  { unfold places_after. rewrite <- Bs. f_equal. f_equal.
    assert (X : get_positions (tf_ix pair_F) (ch "g" "b") = Some [mkLoc 0 1 3; mkLoc 1 0 3]) by (vm_compute; reflexivity).
    rewrite (Gp _ (Forall_inv (Forall_inv_tail M))) in X. now apply some_eq in X. }
  unfold arrived. rewrite Ga, Gb. clear. vm_compute. reflexivity.
Qed.

(** A file with a and b in one segment and c in the next, of which the last 5 bytes are gone: a and b are read as before. *)
Definition after_file : list byte :=
  seg_i32 LittleE false [ch "g" "a"; ch "g" "b"] 3 [1; 2; 3; 101; 102; 103]%Z ++ seg_i32 LittleE false [ch "g" "c"] 2 [7; 8]%Z.
Definition after_F : tfile := open_bytes dbg after_file.
Example C114_succeeds_case :
  let f := firstn (length after_file - 5) after_file in
  let x := skipn (length after_file - 5) after_file in
  exists H, session dbg H after_F /\ tf_bytes after_F = f ++ x
    /\ Forall (mentioned (all_objs H)) [ch "g" "a"; ch "g" "b"]
    /\ Forall (stored (tf_bytes after_F) SI32 H) [ch "g" "a"; ch "g" "b"]
    /\ stay_in_step (samples_after (tf_bytes after_F) SI32 H) H [ch "g" "a"; ch "g" "b"] 1 [[0; 0; 0]; [0; 0; 0]]%Z
    /\ (forall p j c s b, In p [ch "g" "a"; ch "g" "b"] -> In (j, c, s) (needed (locs_after H p) 1) ->
          nth_error (blocks_after H) j = Some b -> b_start b + b_len b <= lenN f)
    /\ lenN x = 5
    /\ read_channels_from dbg (mkTF (tf_ix after_F) f) SI32 [ch "g" "a"; ch "g" "b"] 1 [[0; 0; 0]; [0; 0; 0]]%Z
       = ([[2; 3; 0]; [102; 103; 0]]%Z, Ok tt).
Proof.
  cbv zeta. assert (O : tdms_new dbg after_file = Ok after_F) by (vm_compute; reflexivity).
  destruct (C14_open_is_session _ _ _ O) as [H [_ [Se _]]]. exists H. split; [exact Se|]. split; [vm_compute; reflexivity|].
  destruct (session_stored dbg _ _ H SI32 (ch "g" "a") [mkLoc 0 0 3] O Se) as [Ma Sa]; [vm_compute; reflexivity..|].
  destruct (session_stored dbg _ _ H SI32 (ch "g" "b") [mkLoc 0 1 3] O Se) as [Mb Sb]; [vm_compute; reflexivity..|].
  split; [repeat constructor; assumption|]. split; [repeat constructor; assumption|].
  destruct (C14_incremental _ _ _ Se) as [_ [_ [_ [Bs [Gp _]]]]].
  assert (Ga : locs_after H (ch "g" "a") = [mkLoc 0 0 3]).
  { assert (X : get_positions (tf_ix after_F) (ch "g" "a") = Some [mkLoc 0 0 3]) by (vm_compute; reflexivity).
    rewrite (Gp _ Ma) in X. now apply some_eq in X. }
  assert (Gb : locs_after H (ch "g" "b") = [mkLoc 0 1 3]).
  { assert (X : get_positions (tf_ix after_F) (ch "g" "b") = Some [mkLoc 0 1 3]) by (vm_compute; reflexivity).
    rewrite (Gp _ Mb) in X. now apply some_eq in X. }
  split; [|split; [|vm_compute; split; reflexivity]].
  - left. split; [|exists 3%nat; repeat constructor].
    intros p q Hp Hq. destruct Hp as [<-|[<-|[]]], Hq as [<-|[<-|[]]]; rewrite ?Ga, ?Gb; reflexivity.
  - intros p j c s b Hp Hn Hb.
    assert (J : j = 0%nat).
    { destruct Hp as [<-|[<-|[]]]; [rewrite Ga in Hn|rewrite Gb in Hn]; vm_compute in Hn; destruct Hn as [Hn|[]]; now injection Hn as <- _ _. }
    rewrite J, <- Bs in Hb. assert (Nb : nth_error (ix_blocks (tf_ix after_F)) 0 = Some (mkBlock 104 24 Contigious [mkRaw I32 3 None; mkRaw I32 3 None] LittleE)) by (vm_compute; reflexivity).
    rewrite Nb in Hb. apply some_eq in Hb. rewrite <- Hb. vm_compute. discriminate.
Qed.
