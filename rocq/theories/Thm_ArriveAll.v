(** * Claim C117: when channels are read whole without error from a file that has lost its end *)
From Coq Require Import Strings.String Sorted.
From Verif Require Import Base Lib DataTypes MetaData Maps DataBlock Index RawData ChannelReader TdmsFile
  SpecIndex SpecSession SpecShortStep SpecCutFile SpecArrive SpecRead Block_proofs Request_proofs Plan_proofs Read_proofs Session_proofs Parse_proofs
  Short_proofs ShortStep_proofs Arrive_proofs ArriveRun_proofs Told_proofs Again_proofs Index_proofs Vectors Thm_Open Thm_Index Thm_Read Thm_CutFile
  Thm_ShortStep Thm_Arrive Thm_Singly.
Close Scope string_scope.

(** Different channels read from the start with room for all their samples: the read succeeds exactly if every sample of
    every channel is in the file, whatever blocks they are in and however many samples each has. *)
Theorem C117_all : forall E H W f x t chans outs,
  session E H W -> tf_bytes W = f ++ x -> fixed t -> addressable E (tf_bytes W) ->
  Forall (mentioned (all_objs H)) chans -> Forall (stored (tf_bytes W) t H) chans ->
  NoDup chans -> length outs = length chans ->
  (forall p o, In (p, o) (combine chans outs) -> (length (samples_after (tf_bytes W) t H p) <= length o)%nat) ->
  snd (read_channels_from E (mkTF (tf_ix W) f) t chans 0 outs) = Ok tt
  <-> forall p q, In p chans -> In q (places_after H p) -> snd q + size_bytes t <= lenN f.
Proof.
  intros E H W f x t chans outs Se By Fx Ad M St ND Lo Big.
  unfold read_channels_from, ix_read_channels_from. cbn [tf_ix tf_bytes]. rewrite (lookup_ok E H W Se) by exact M. cbn [bind].
  destruct (plan_ok E H W Se chans 0 M) as [plan [Hpl [Ps [Sh Hn]]]]. rewrite Hpl.
  destruct (C14_incremental E H W Se) as [_ [_ [_ [Hb _]]]].
  assert (Ss : same_skips plan).
  { intros br Hbr. exists 0. intros i c si Hi. rewrite Forall_forall in Sh. destruct (Sh br Hbr) as [Ln _].
    destruct (nth_error chans i) as [p|] eqn:Pi.
    - pose proof (planned_in i plan br c si Hbr Hi) as X. rewrite (Hn _ _ Pi) in X. now apply needed_0 in X.
    - apply nth_error_None in Pi. assert (i < length (br_chans br))%nat by (apply nth_error_Some; congruence). lia. }
  assert (R : readable_plan (tf_bytes W) t (tf_ix W) (length chans) plan) by (apply (plan_readable E H W t Se chans 0); auto).
  assert (Ro : roomy (tf_bytes W) t (tf_ix W) plan (map (fun o => mkPr 0 (lenN o)) outs)).
  { intros i pr Hi. rewrite nth_error_map in Hi. destruct (nth_error outs i) as [o|] eqn:Oi; [|discriminate].
    injection Hi as <-. cbn [pr_read pr_target].
    destruct (nth_error chans i) as [p|] eqn:Pi.
    2:{ apply nth_error_None in Pi. assert (i < length outs)%nat by (apply nth_error_Some; congruence). lia. }
    rewrite (Hn _ _ Pi), Hb, needed_samples by apply locs_located. change (N.to_nat 0) with 0%nat. cbn [skipn].
    specialize (Big p o (nth_error_In _ _ (combine_nth _ _ _ _ _ Pi Oi))). unfold samples_after in Big. unfold lenN. lia. }
  unfold execute_read_plan. rewrite By in R, Ro, Ad.
  rewrite (exec_roomy E f x t (tf_ix W) (length chans) Fx Ad plan _ outs R) by (rewrite ?map_length; assumption).
  assert (Pl : forall i p, nth_error chans i = Some p -> concat (map (rest_places (ix_blocks (tf_ix W))) (planned i plan)) = places_after H p).
  { intros i p Hi. rewrite (Hn _ _ Hi), Hb, needed_places by apply locs_located. reflexivity. }
  split.
  - intros X p q Hp Hq. destruct (In_nth_error _ _ Hp) as [i Hi].
    assert (Li : (i < length chans)%nat) by (apply nth_error_Some; congruence). specialize (X i Li).
    rewrite (Pl _ _ Hi), Forall_forall in X. specialize (X q Hq). unfold present in X. lia.
  - intros X i Hi. destruct (nth_error chans i) as [p|] eqn:Pi; [|apply nth_error_None in Pi; lia].
    rewrite (Pl _ _ Pi). apply Forall_forall. intros q Hq. specialize (X p q (nth_error_In _ _ Pi) Hq). unfold present. lia.
Qed.
Print Assumptions C117_all.

(** So it succeeds exactly if the reads of the single channels do. *)
Theorem C117_singly : forall E H W f x t chans outs,
  session E H W -> tf_bytes W = f ++ x -> fixed t -> addressable E (tf_bytes W) ->
  Forall (mentioned (all_objs H)) chans -> Forall (stored (tf_bytes W) t H) chans ->
  NoDup chans -> length outs = length chans ->
  (forall p o, In (p, o) (combine chans outs) -> (length (samples_after (tf_bytes W) t H p) <= length o)%nat) ->
  snd (read_channels_from E (mkTF (tf_ix W) f) t chans 0 outs) = Ok tt
  <-> forall p o, In (p, o) (combine chans outs) -> snd (read_channel_from E (mkTF (tf_ix W) f) t p 0 o) = Ok tt.
Proof.
  intros E H W f x t chans outs Se By Fx Ad M St ND Lo Big.
  rewrite (C117_all E H W f x t chans outs) by assumption.
  assert (One : forall p o, In (p, o) (combine chans outs) -> (snd (read_channel_from E (mkTF (tf_ix W) f) t p 0 o) = Ok tt
            <-> forall q, In q (places_after H p) -> snd q + size_bytes t <= lenN f)).
  { intros p o Hin. pose proof (in_combine_l _ _ _ _ Hin) as Hp. rewrite Forall_forall in M, St. rewrite C116_one. cbn [snd].
    rewrite (C117_all E H W f x t [p] [o]); auto.
    - split; [intros X q; apply X; now left|]. intros X p' q [<-|[]]. apply X.
    - repeat constructor. intros [].
    - intros p' o' [K|[]]. injection K as <- <-. now apply Big. }
  split.
  - intros X p o Hin. apply (One p o Hin). intros q. apply X. eapply in_combine_l; eauto.
  - intros X p q Hp. destruct (In_nth_error _ _ Hp) as [i Hi].
    destruct (nth_error outs i) as [o|] eqn:Oi.
    2:{ apply nth_error_None in Oi. assert (i < length chans)%nat by (apply nth_error_Some; congruence). lia. }
    pose proof (nth_error_In _ _ (combine_nth _ _ _ _ _ Hi Oi)) as Hin. revert q. apply (One p o Hin). now apply X.
Qed.
Print Assumptions C117_singly.

(** a with 3 and c with 2 samples, in different blocks: with the last byte gone the read of both fails, and that of a does not. *)
Example C117_case :
  let W := after_F in
  let cut k := mkTF (tf_ix W) (firstn (length after_file - k) after_file) in
  (exists H, session dbg H W /\ tf_bytes W = firstn (length after_file - 1) after_file ++ skipn (length after_file - 1) after_file
    /\ Forall (mentioned (all_objs H)) [ch "g" "a"; ch "g" "c"]
    /\ Forall (stored (tf_bytes W) SI32 H) [ch "g" "a"; ch "g" "c"]
    /\ map snd (places_after H (ch "g" "a")) = [104; 108; 112]
    /\ lenN (places_after H (ch "g" "c")) = 2
    /\ (forall p o, In (p, o) (combine [ch "g" "a"; ch "g" "c"] [[0; 0; 0]; [0; 0]]%Z) ->
          (length (samples_after (tf_bytes W) SI32 H p) <= length o)%nat))
  /\ map (fun k => (read_channels_from dbg (cut k) SI32 [ch "g" "a"; ch "g" "c"] 0 [[0; 0; 0]; [0; 0]]%Z,
                    snd (read_channel_from dbg (cut k) SI32 (ch "g" "a") 0 [0; 0; 0]%Z),
                    snd (read_channel_from dbg (cut k) SI32 (ch "g" "c") 0 [0; 0]%Z))) [0; 1]%nat
     = [([[1; 2; 3]; [7; 8]]%Z, Ok tt, Ok tt, Ok tt);
        ([[1; 2; 3]; [7; 0]]%Z, Err (EIo UnexpectedEof), Ok tt, Err (EIo UnexpectedEof))].
Proof.
  cbv zeta. split; [|vm_compute; reflexivity].
  assert (O : tdms_new dbg after_file = Ok after_F) by (vm_compute; reflexivity).
  destruct (C14_open_is_session _ _ _ O) as [H [_ [Se _]]]. exists H. split; [exact Se|]. split; [vm_compute; reflexivity|].
  destruct (session_stored dbg _ _ H SI32 (ch "g" "a") [mkLoc 0 0 3] O Se) as [Ma Sa]; [vm_compute; reflexivity..|].
  destruct (session_stored dbg _ _ H SI32 (ch "g" "c") [mkLoc 1 0 2] O Se) as [Mc Sc]; [vm_compute; reflexivity..|].
  split; [repeat constructor; assumption|]. split; [repeat constructor; assumption|].
  destruct (C14_incremental _ _ _ Se) as [_ [_ [_ [Bs [Gp _]]]]].
  assert (Ga : locs_after H (ch "g" "a") = [mkLoc 0 0 3]).
  { assert (X : get_positions (tf_ix after_F) (ch "g" "a") = Some [mkLoc 0 0 3]) by (vm_compute; reflexivity).
    rewrite (Gp _ Ma) in X. now apply some_eq in X. }
  assert (Gc : locs_after H (ch "g" "c") = [mkLoc 1 0 2]).
  { assert (X : get_positions (tf_ix after_F) (ch "g" "c") = Some [mkLoc 1 0 2]) by (vm_compute; reflexivity).
    rewrite (Gp _ Mc) in X. now apply some_eq in X. }
  unfold places_after. rewrite Ga, Gc, <- Bs. do 2 (split; [clear; vm_compute; reflexivity|]).
  intros p o [K|[K|[]]]; injection K as <- <-; unfold samples_after; rewrite ?Ga, ?Gc, <- Bs; clear; vm_compute; repeat constructor.
Qed.
