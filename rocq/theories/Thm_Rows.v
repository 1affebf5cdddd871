(** * Claim C118: channels with different buffers from interleaved blocks of a file that has lost its end *)
From Coq Require Import Strings.String Sorted.
From Verif Require Import Base Lib DataTypes MetaData Maps DataBlock Index RawData ChannelReader TdmsFile
  SpecIndex SpecSession SpecShortStep SpecCutFile SpecArrive SpecRead Block_proofs Request_proofs Plan_proofs Read_proofs Session_proofs Parse_proofs
  Short_proofs ShortStep_proofs Arrive_proofs ArriveRun_proofs RowsRun_proofs Told_proofs Again_proofs Index_proofs Vectors Thm_Open Thm_Index Thm_Read Thm_CutFile
  Thm_ShortStep Thm_Arrive.
Close Scope string_scope.

(** Different channels in the same blocks, all interleaved, with buffers of any lengths: the read succeeds exactly if the
    samples in the rows it goes through are in the file, for every channel whose buffer is not full before the block.
    The rows are as many as the largest buffer needs, and one more if the block has it. *)
Theorem C118_rows : forall E H W f x t chans start outs,
  session E H W -> tf_bytes W = f ++ x -> fixed t -> addressable E (tf_bytes W) ->
  Forall (mentioned (all_objs H)) chans -> Forall (stored (tf_bytes W) t H) chans ->
  NoDup chans -> length outs = length chans ->
  same_places H chans -> interleaved_only H chans ->
  snd (read_channels_from E (mkTF (tf_ix W) f) t chans start outs) = Ok tt
  <-> forall p o q, In (p, o) (combine chans outs) ->
        In q (rows_looked_at (blocks_after H) (needed (locs_after H p) start) (length o) (list_max (map (@length _) outs))) ->
        snd q + size_bytes t <= lenN f.
Proof.
  intros E H W f x t chans start outs Se By Fx Ad M St ND Lo Al Il.
  unfold read_channels_from, ix_read_channels_from. cbn [tf_ix tf_bytes]. rewrite (lookup_ok E H W Se) by exact M. cbn [bind].
  destruct (plan_ok E H W Se chans start M) as [plan [Hpl [Ps [Sh Hn]]]]. rewrite Hpl.
  destruct (aligned_plan H chans start plan Al Ps Sh Hn) as [Ss All].
  assert (R : readable_plan (tf_bytes W) t (tf_ix W) (length chans) plan) by (apply (plan_readable E H W t Se chans start); auto).
  rewrite By in R, Ad. destruct (C14_incremental E H W Se) as [_ [_ [_ [Hb _]]]].
  assert (Int : Forall (fun br => forall b, nth_error (ix_blocks (tf_ix W)) (br_block br) = Some b -> b_layout b = Interleaved) plan).
  { apply Forall_forall. intros br Hbr b Bb. rewrite Forall_forall in Sh. destruct (Sh br Hbr) as [Ln [c [s Hc]]].
    apply In_nth_error in Hc. destruct Hc as [i Hi].
    assert (Hi0 : (i < length chans)%nat) by (rewrite <- Ln; apply nth_error_Some; congruence).
    destruct (nth_error chans i) as [p|] eqn:Pi; [|apply nth_error_Some in Hi0; contradiction].
    pose proof (planned_in i plan br c s Hbr Hi) as X. rewrite (Hn _ _ Pi) in X.
    apply needed_in in X. destruct X as [l [Hl [El _]]].
    apply (Il p l b); [eapply nth_error_In; eauto|exact Hl|]. rewrite <- Hb. now rewrite El. }
  unfold execute_read_plan.
  rewrite (exec_rows E f x t (tf_ix W) (length chans) Fx Ad plan _ outs R) by (rewrite ?map_length; assumption).
  assert (Ro : forall o : list (carrier t), room_of (mkPr 0 (lenN o)) = length o) by (intros o; unfold room_of, lenN; cbn [pr_read pr_target]; lia).
  assert (Top : list_max (map room_of (map (fun o : list (carrier t) => mkPr 0 (lenN o)) outs)) = list_max (map (@length _) outs)).
  { rewrite map_map. f_equal. apply map_ext. exact Ro. }
  rewrite Top, Hb. generalize (list_max (map (@length _) outs)). intros top. split.
  - intros X p o q Hin Hq. destruct (In_nth_error _ _ Hin) as [i Hi].
    assert (Hpo : nth_error chans i = Some p /\ nth_error outs i = Some o).
    { clear - Hi. revert chans outs Hi. induction i as [|i IH]; intros [|p' chans] [|o' outs] Hi; try discriminate; cbn [combine nth_error] in *.
      - injection Hi as -> ->. split; reflexivity.
      - apply IH. exact Hi. }
    destruct Hpo as [Hp Ho]. specialize (X i (mkPr 0 (lenN o))). rewrite nth_error_map, Ho in X. specialize (X eq_refl).
    rewrite (Hn _ _ Hp), Ro, Forall_forall in X. specialize (X q Hq). unfold present in X. lia.
  - intros X i pr Hi. rewrite nth_error_map in Hi. destruct (nth_error outs i) as [o|] eqn:Oi; [|discriminate]. injection Hi as <-.
    destruct (nth_error chans i) as [p|] eqn:Pi.
    2:{ apply nth_error_None in Pi. assert (i < length outs)%nat by (apply nth_error_Some; congruence). lia. }
    rewrite (Hn _ _ Pi), Ro. apply Forall_forall. intros q Hq.
    specialize (X p o q (nth_error_In _ _ (combine_nth _ _ _ _ _ Pi Oi)) Hq). unfold present. lia.
Qed.
Print Assumptions C118_rows.

(** Three rows of a and b, without the last byte.  A read of three values of a and one of b fails, as it looks at the last
    value of b; it delivers all that was asked for, and the two reads of the single channels succeed.  So what C116 says
    of the result does not hold for buffers of different lengths. *)
Definition rows_file : list byte := seg_i32 LittleE true [ch "g" "a"; ch "g" "b"] 3 [1; 101; 2; 102; 3; 103]%Z.
Definition rows_F : tfile := open_bytes dbg rows_file.
Lemma rows_facts : exists H, session dbg H rows_F
  /\ Forall (mentioned (all_objs H)) [ch "g" "a"; ch "g" "b"] /\ Forall (stored (tf_bytes rows_F) SI32 H) [ch "g" "a"; ch "g" "b"]
  /\ same_places H [ch "g" "a"; ch "g" "b"] /\ interleaved_only H [ch "g" "a"; ch "g" "b"]
  /\ locs_after H (ch "g" "b") = [mkLoc 0 1 3] /\ ix_blocks (tf_ix rows_F) = blocks_after H.
Proof.
  assert (O : tdms_new dbg rows_file = Ok rows_F) by (vm_compute; reflexivity).
  destruct (C14_open_is_session _ _ _ O) as [H [_ [Se _]]]. exists H. split; [exact Se|].
  destruct (session_stored dbg _ _ H SI32 (ch "g" "a") [mkLoc 0 0 3] O Se) as [Ma Sa]; [vm_compute; reflexivity..|].
  destruct (session_stored dbg _ _ H SI32 (ch "g" "b") [mkLoc 0 1 3] O Se) as [Mb Sb]; [vm_compute; reflexivity..|].
  split; [repeat constructor; assumption|]. split; [repeat constructor; assumption|].
  destruct (C14_incremental _ _ _ Se) as [_ [_ [_ [Bs [Gp _]]]]].
  assert (Ga : locs_after H (ch "g" "a") = [mkLoc 0 0 3]).
  { assert (X : get_positions (tf_ix rows_F) (ch "g" "a") = Some [mkLoc 0 0 3]) by (vm_compute; reflexivity).
    rewrite (Gp _ Ma) in X. now apply some_eq in X. }
  assert (Gb : locs_after H (ch "g" "b") = [mkLoc 0 1 3]).
  { assert (X : get_positions (tf_ix rows_F) (ch "g" "b") = Some [mkLoc 0 1 3]) by (vm_compute; reflexivity).
    rewrite (Gp _ Mb) in X. now apply some_eq in X. }
  split; [|split; [|split; [exact Gb|exact Bs]]].
  - intros p q Hp Hq. destruct Hp as [<-|[<-|[]]], Hq as [<-|[<-|[]]]; rewrite ?Ga, ?Gb; reflexivity.
  - intros p l b Hp Hl Hb.
    assert (J : l_block l = 0%nat) by (destruct Hp as [<-|[<-|[]]]; [rewrite Ga in Hl|rewrite Gb in Hl]; destruct Hl as [<-|[]]; reflexivity).
    rewrite J, <- Bs in Hb.
    assert (Nb : option_map b_layout (nth_error (ix_blocks (tf_ix rows_F)) 0) = Some Interleaved) by (vm_compute; reflexivity).
    rewrite Hb in Nb. cbn [option_map] in Nb. now apply some_eq in Nb.
Qed.
Theorem C118_uneven_refuted : exists E H W f x t chans start outs,
  session E H W /\ tf_bytes W = f ++ x /\ fixed t /\ addressable E (tf_bytes W)
  /\ Forall (mentioned (all_objs H)) chans /\ Forall (stored (tf_bytes W) t H) chans
  /\ NoDup chans /\ length outs = length chans
  /\ same_places H chans /\ interleaved_only H chans
  /\ map (fun po => snd (read_channel_from E (mkTF (tf_ix W) f) t (fst po) start (snd po))) (combine chans outs) = [Ok tt; Ok tt]
  /\ fst (read_channels_from E (mkTF (tf_ix W) f) t chans start outs) = fst (read_channels_from E W t chans start outs)
  /\ snd (read_channels_from E (mkTF (tf_ix W) f) t chans start outs) = Err (EIo UnexpectedEof).
Proof.
  destruct rows_facts as [H [Se [M [St [Al [Il _]]]]]].
  exists dbg, H, rows_F, (firstn (length rows_file - 1) rows_file), (skipn (length rows_file - 1) rows_file), SI32, [ch "g" "a"; ch "g" "b"], 0, [[0; 0; 0]; [0]]%Z.
  split; [exact Se|]. split; [vm_compute; reflexivity|]. split; [repeat split; discriminate|]. split; [vm_compute; split; [reflexivity|discriminate]|].
  split; [exact M|]. split; [exact St|].
  split; [repeat constructor; [intros [K|[]]; discriminate K|intros []]|]. split; [reflexivity|].
  split; [exact Al|]. split; [exact Il|].
  clear. vm_compute. split; [reflexivity|split; reflexivity].
Qed.
Print Assumptions C118_uneven_refuted.

(** The places looked at for b with a buffer of one, beside one of three and alone: the file has 127 bytes left. *)
Example C118_case : exists H, session dbg H rows_F /\ tf_bytes rows_F = firstn (length rows_file - 1) rows_file ++ skipn (length rows_file - 1) rows_file
  /\ Forall (mentioned (all_objs H)) [ch "g" "a"; ch "g" "b"] /\ Forall (stored (tf_bytes rows_F) SI32 H) [ch "g" "a"; ch "g" "b"]
  /\ same_places H [ch "g" "a"; ch "g" "b"] /\ interleaved_only H [ch "g" "a"; ch "g" "b"]
  /\ map snd (rows_looked_at (blocks_after H) (needed (locs_after H (ch "g" "b")) 0) 1 3) = [108; 116; 124]
  /\ map snd (rows_looked_at (blocks_after H) (needed (locs_after H (ch "g" "b")) 0) 1 1) = [108; 116]
  /\ lenN (firstn (length rows_file - 1) rows_file) = 127.
Proof.
  destruct rows_facts as [H [Se [M [St [Al [Il [Gb Bs]]]]]]]. exists H. split; [exact Se|]. split; [vm_compute; reflexivity|].
  do 4 (split; [assumption|]). rewrite Gb, <- Bs. clear. vm_compute. split; [reflexivity|split; reflexivity].
Qed.
