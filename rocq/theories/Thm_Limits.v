(** * C103 What the build profile, the allocator and the stream can change *)
From Coq Require Import Strings.String.
From Verif Require Import Base Lib DataTypes MetaData Maps DataBlock Index RawData ChannelReader TdmsFile
  SpecWrite SpecLimits Limits_proofs Thm_Open Thm_Index Thm_Read Thm_Memory Vectors.
Close Scope string_scope.

Lemma opens E f : build_loop E f (S (length f)) index_new 0 <> Diverge.
Proof.
  intros K. pose proof (C11_open_total E f) as T. unfold tdms_new, build_index in T. rewrite K in T. exact T.
Qed.

(** Opening gives the same, unless it panics on overflow or an allocation is
    refused; how far the stream seeks does not matter as long as it reaches the
    end of the file. *)
Theorem C103_open : forall E E' f, allows E E' -> lenN f <= seek_max E ->
  (at_limit E E' (tdms_new E f) /\ tdms_new E f <> Err (EIo InvalidSeek)) \/ tdms_new E' f = tdms_new E f.
Proof.
  intros E [ov ao sm'] f [Ov [Ao Sm]] Lf. cbn [overflow_checks alloc_ok seek_max] in *.
  assert (Al1 : allows E (mkEnv ov ao (seek_max E))) by (split; [exact Ov|split; [exact Ao|apply N.le_refl]]).
  pose proof (build_su E (mkEnv ov ao (seek_max E)) Al1 f (or_introl Lf) (S (length f)) index_new 0 (opens _ f)) as B.
  rewrite (build_reach ov ao (seek_max E) sm' f Lf Sm _ _ _ (opens _ f)) in B.
  unfold tdms_new, build_index. destruct B as [L| ->]; [left|now right].
  remember (build_loop E f (S (length f)) index_new 0) as r eqn:Er. clear Er.
  destruct L as [A1 A2|A1|n A1 A2|n A1 A2|n A1 A2]; cbn [seek_max bind] in *; [| exfalso; lia|..]; (split; [econstructor; eassumption|discriminate]).
Qed.
(** A [Cursor] and a [File] give the same file. *)
Theorem C103_stream : forall ov ao s s' f, lenN f <= s -> lenN f <= s' ->
  tdms_new (mkEnv ov ao s) f = tdms_new (mkEnv ov ao s') f.
Proof.
  intros ov ao s s' f Lf Lf'. unfold tdms_new, build_index. destruct (N.le_ge_cases s s') as [K|K].
  - now rewrite (build_reach ov ao s s' f Lf K _ _ _ (opens _ f)).
  - now rewrite (build_reach ov ao s' s f Lf' K _ _ _ (opens _ f)).
Qed.

(** Reading gives the same values and the same outcome, unless a limit is met. *)
Theorem C103_read : forall E E' F t chans start outs, allows E E' ->
  same_with E E' (read_channels_from E F t chans start outs) (read_channels_from E' F t chans start outs).
Proof. intros. now apply read_channels_su. Qed.
Theorem C103_read_single : forall E E' F t chan start out, allows E E' ->
  same_with E E' (read_channel_from E F t chan start out) (read_channel_from E' F t chan start out).
Proof. intros. now apply read_channel_su. Qed.

(** Lengths and writing depend on the profile alone. *)
Lemma only_overflow E ov ao sm {A} (r : res A) : (forall k n, ao k n = alloc_ok E k n) -> sm = seek_max E ->
  at_limit E (mkEnv ov ao sm) r -> r = Panic POverflow /\ overflow_checks E = true /\ ov = false.
Proof.
  intros Ao Sm L. destruct L as [A1 A2|A1|n A1 A2|n A1 A2|n A1 A2]; cbn [seek_max alloc_ok overflow_checks] in *;
    [auto|lia|rewrite Ao in A2; congruence..].
Qed.
Lemma usum_profile E E' l : overflow_checks E = overflow_checks E' -> forall acc, usum_from E acc l = usum_from E' acc l.
Proof.
  intros Ov. induction l as [|x l IH]; intros acc; [reflexivity|]. cbn [usum_from]. unfold uadd. rewrite Ov.
  destruct (acc + x <? two64); [apply IH|]. destruct (overflow_checks E'); [reflexivity|apply IH].
Qed.
Theorem C103_length : forall E E' F p, overflow_checks E = true \/ overflow_checks E' = false ->
  channel_length E F p = Panic POverflow \/ channel_length E' F p = channel_length E F p.
Proof.
  intros E E' F p Ov.
  assert (Al : allows E (mkEnv (overflow_checks E') (alloc_ok E) (seek_max E))).
  { split; [cbn [overflow_checks]; intros; destruct Ov; congruence|]. split; [auto|apply N.le_refl]. }
  destruct (channel_length_su _ _ Al F p) as [L|K].
  2: { right. rewrite <- K. unfold channel_length, ix_channel_length, usum. destruct (map_get p (ix_objs (tf_ix F))) as [od|]; [|reflexivity].
    now rewrite (usum_profile E' (mkEnv (overflow_checks E') (alloc_ok E) (seek_max E))). }
  apply only_overflow in L; [left; apply L|reflexivity..].
Qed.
Theorem C103_write : forall E E' F c, overflow_checks E = true \/ overflow_checks E' = false ->
  snd (do_call E F c) = Panic POverflow \/ do_call E' F c = do_call E F c.
Proof.
  intros E E' F c Ov.
  assert (Al : allows E (mkEnv (overflow_checks E') (alloc_ok E) (seek_max E))).
  { split; [cbn [overflow_checks]; intros; destruct Ov; congruence|]. split; [auto|apply N.le_refl]. }
  assert (K : same_with E (mkEnv (overflow_checks E') (alloc_ok E) (seek_max E)) (do_call E F c) (do_call (mkEnv (overflow_checks E') (alloc_ok E) (seek_max E)) F c)).
  { destruct c; [now apply write_properties_su|now apply write_channels_su]. }
  destruct K as [L|K]; [|right; rewrite <- K; now destruct c].
  apply only_overflow in L; [left; apply L|reflexivity..].
Qed.
Theorem C103_program : forall E E' cs F, overflow_checks E = true \/ overflow_checks E' = false ->
  In (Panic POverflow) (snd (run_calls E F cs)) \/ run_calls E' F cs = run_calls E F cs.
Proof.
  intros E E' cs. induction cs as [|c cs IH]; intros F Ov; [now right|]. cbn [run_calls].
  destruct (C103_write E E' F c Ov) as [L| ->]; destruct (do_call E F c) as [F1 x]; cbn [snd] in *.
  - left. destruct (run_calls E F1 cs). now left.
  - destruct (IH F1 Ov) as [L| ->]; [|now right]. left. destruct (run_calls E F1 cs). now right.
Qed.

(** So a debug and a release build of the library agree wherever the debug build
    does not panic on overflow. *)
Definition debug_of (E : env) : env := mkEnv true (alloc_ok E) (seek_max E).
Definition release_of (E : env) : env := mkEnv false (alloc_ok E) (seek_max E).
Theorem C103_profiles : forall E F t chans start outs cs f,
  (tdms_new (debug_of E) f = Panic POverflow \/ tdms_new (release_of E) f = tdms_new (debug_of E) f)
  /\ (snd (read_channels_from (debug_of E) F t chans start outs) = Panic POverflow
      \/ read_channels_from (release_of E) F t chans start outs = read_channels_from (debug_of E) F t chans start outs)
  /\ (In (Panic POverflow) (snd (run_calls (debug_of E) F cs)) \/ run_calls (release_of E) F cs = run_calls (debug_of E) F cs).
Proof.
  intros E F t chans start outs cs f.
  assert (Al : allows (debug_of E) (release_of E)) by (split; [reflexivity|split; [auto|apply N.le_refl]]).
  split; [|split; [|apply C103_program; now left]].
  - unfold tdms_new, build_index.
    assert (B : same_unless (debug_of E) (release_of E) (build_loop (debug_of E) f (S (length f)) index_new 0) (build_loop (release_of E) f (S (length f)) index_new 0)).
    { apply build_su; [exact Al|now right|apply opens]. }
    destruct B as [L| ->]; [|now right]. apply only_overflow in L; [|reflexivity..]. destruct L as [-> _]. now left.
  - destruct (C103_read _ _ F t chans start outs Al) as [L|K]; [|now right].
    apply only_overflow in L; [left; apply L|reflexivity..].
Qed.

(** A file system with files up to 2^63 - 1 bytes in a debug build, against memory
    in a release build. *)
Definition on_disk : env := mkEnv true (alloc_ok dbg) (2 ^ 63 - 1).
Example C103_case :
  allows on_disk (mkEnv false (fun _ _ => true) (2 ^ 64 - 1)) /\ lenN pair_file <= seek_max on_disk
  /\ tdms_new on_disk pair_file = Ok pair_F
  /\ snd (read_channels_from on_disk pair_F SI32 [ch "g" "a"; ch "g" "b"] 1 [[0; 0]; [0; 0]]%Z) = Ok tt
  /\ snd (do_call on_disk pair_F (CallProps BigE (ch "g" "a") [(B "n", PI32 5)])) = Ok tt.
Proof.
  split; [split; [discriminate|split; [reflexivity|discriminate]]|]. split; [vm_compute; discriminate|].
  split; [vm_compute; reflexivity|]. split; vm_compute; reflexivity.
Qed.

(** Every limit does show: an overflow, a refused allocation, a seek. *)
Definition far_file : list byte :=
  TDSm ++ bytes [14;0;0;0; 105;18;0;0; 8;0;0;0;0;0;0;128; 0;0;0;0;0;0;0;128]
  ++ write_metadata LittleE [mkObj (B "/'g'/'a'") [] (RIRaw (mkRaw I32 2 None))].
Theorem C103_limits_show :
  (exists f, tdms_new dbg f = Panic POverflow /\ tdms_new (release_of dbg) f = Err ESegmentAddressOverflow)
  /\ (exists f F, tdms_new (mkEnv true (fun _ n => n <? 3) (2 ^ 63 - 1)) f = Err EStringAllocationFailed /\ tdms_new on_disk f = Ok F)
  /\ (exists f F, tdms_new on_disk f = Ok F /\ tdms_new dbg f = Ok F
      /\ read_channel on_disk F SI32 (ch "g" "a") [0; 0]%Z = ([0; 0]%Z, Err (EIo InvalidSeek))
      /\ read_channel dbg F SI32 (ch "g" "a") [0; 0]%Z = ([0; 0]%Z, Err (EIo UnexpectedEof))).
Proof.
  split; [exists overflowing_file; split; vm_compute; reflexivity|].
  split; [exists pair_file, pair_F; split; vm_compute; reflexivity|].
  exists far_file, (open_bytes dbg far_file). do 3 (split; [vm_compute; reflexivity|]). vm_compute. reflexivity.
Qed.

Print Assumptions C103_open.
Print Assumptions C103_stream.
Print Assumptions C103_read.
Print Assumptions C103_read_single.
Print Assumptions C103_length.
Print Assumptions C103_write.
Print Assumptions C103_program.
Print Assumptions C103_profiles.
Print Assumptions C103_limits_show.
