(** * Claim C68: strings stay valid UTF-8 *)
From Coq Require Import Strings.String.
From Verif Require Import Base Lib DataTypes Paths MetaData Maps DataBlock Index TdmsFile SpecCodec SpecPaths SpecIndex SpecSession
  Codec_proofs Maps_proofs Paths_proofs Session_proofs Text_proofs Thm_Index Thm_Paths Thm_Read Vectors.
Close Scope string_scope.

(** ** C68 Every string handed out is valid UTF-8 *)
(** Paths built from valid names. *)
Theorem C68_built : forall g c, well_formed_utf8 g -> well_formed_utf8 c ->
  well_formed_utf8 path_file /\ well_formed_utf8 (path_group g) /\ well_formed_utf8 (path_channel g c).
Proof.
  intros g c Wg Wc. split; [apply wf_ascii; reflexivity|]. split; [now apply wf_path_group|now apply wf_path_channel].
Qed.
(** Names and paths taken out of valid paths: slicing them by bytes never splits
    a character. *)
Theorem C68_parts : forall s x, well_formed_utf8 s ->
  (path_group_name s = Ok (Some x) -> well_formed_utf8 x)
  /\ (pp_group_name s = Ok (Some x) -> well_formed_utf8 x)
  /\ (pp_channel_name s = Ok (Some x) -> well_formed_utf8 x)
  /\ (cp_group_name s = Ok x -> well_formed_utf8 x)
  /\ (cp_channel_name s = Ok x -> well_formed_utf8 x)
  /\ (pp_try_from s = Ok x -> well_formed_utf8 x)
  /\ (cp_try_from s = Ok x -> well_formed_utf8 x).
Proof.
  intros s x W. pose proof (wf_levels _ (wf_tl s W)) as L.
  assert (Ex : forall n, expect (levels_nth n (tl (split_slash s))) = Ok x -> well_formed_utf8 x).
  { intros n. unfold expect. destruct (levels_nth n (tl (split_slash s))) as [[y|]| | |] eqn:Q; try discriminate.
    cbn [bind]. intros X. injection X as <-. eapply L; eauto. }
  split.
  { unfold path_group_name. destruct (parse_path s) as [[g c]| | |] eqn:P; try discriminate. intros X. injection X as ->.
    destruct (wf_parse s _ _ W P) as [Wg _]. now apply Wg. }
  split; [apply L|]. split; [apply L|]. split; [apply Ex|]. split; [apply Ex|].
  split; [now apply wf_try_from|now apply wf_cp_try_from].
Qed.
(** Names with two-, three- and four-byte characters, quotes included. *)
Example C68_parts_case :
  let g := bytes [195; 169; 39; 226; 130; 172] in
  let c := bytes [240; 159; 146; 150] in
  well_formed_utf8 g /\ well_formed_utf8 c
  /\ cp_group_name (path_channel g c) = Ok (bytes [195; 169; 34; 226; 130; 172])
  /\ cp_channel_name (path_channel g c) = Ok c
  /\ pp_group_name (path_group g) = Ok (Some (bytes [195; 169; 34; 226; 130; 172])).
Proof.
  cbv zeta. split; [apply utf8_valid_iff; vm_compute; reflexivity|]. split; [apply utf8_valid_iff; vm_compute; reflexivity|].
  repeat split; vm_compute; reflexivity.
Qed.

(** Whatever bytes are opened: the paths, property names and string values of
    every object, and all names listed. *)
Definition text_value (v : pval) : Prop := match v with PString s => well_formed_utf8 s | _ => True end.
Theorem C68_opened : forall E f F,
  tdms_new E f = Ok F ->
  Forall well_formed_utf8 (all_paths (tf_ix F))
  /\ (forall p n v, read_property F p n = Ok (Some v) -> well_formed_utf8 n /\ text_value v)
  /\ (forall p l, read_all_properties F p = Some l -> Forall (fun x => well_formed_utf8 (fst x) /\ text_value (snd x)) l)
  /\ (forall l, list_groups F = Ok l -> Forall well_formed_utf8 l)
  /\ (forall s l, list_channels_in_group F s = Ok l -> Forall well_formed_utf8 l).
Proof.
  intros E f F O. destruct (C14_open_is_session E f F O) as [H [Fs [Se _]]]. pose proof (session_any _ _ _ Se) as An.
  pose proof (wf_file E f H Fs) as W. rewrite Forall_forall in W. destruct (session_keys E H F An) as [Sk Hk].
  assert (Wk : Forall well_formed_utf8 (all_paths (tf_ix F))).
  { apply Forall_forall. intros p Hp. apply Hk in Hp. unfold mentioned in Hp. apply in_map_iff in Hp.
    destruct Hp as [o [<- Ho]]. now destruct (W o Ho). }
  assert (Wp : forall p n v, read_property F p n = Ok (Some v) -> well_formed_utf8 n /\ text_value v).
  { intros p n v X. apply (C15_last_write_wins E H F p n v An) in X.
    destruct X as [os1 [o [os2 [ps1 [ps2 [Eo [_ [Ep _]]]]]]]].
    destruct (W o) as [_ Wo]; [rewrite Eo; apply in_or_app; right; now left|]. rewrite Forall_forall in Wo.
    apply (Wo (n, v)). rewrite Ep. apply in_or_app. right. now left. }
  split; [exact Wk|]. split; [exact Wp|]. split; [|split].
  - intros p l X. destruct (C16_read_all E H F p An) as [_ Q]. destruct (Q l X) as [_ Q2]. apply Forall_forall.
    intros [n v] Hin. apply Q2 in Hin. cbn [fst snd]. eapply Wp; eauto.
  - intros l X. apply (wf_collect _ Wk [] l (Forall_nil _) X).
  - intros s l X. unfold list_channels_in_group, paths_starting_with in X.
    rewrite (range_prefix s (ix_objs (tf_ix F)) Sk) in X. apply wf_filter in X; [exact X|].
    apply Forall_forall. intros p Hp. apply filter_In in Hp. rewrite Forall_forall in Wk. now apply Wk.
Qed.
(** A file with a non-ASCII group, opened from its bytes. *)
Definition text_F : tfile :=
  open_bytes dbg (tf_bytes (fst (write_properties dbg (open_bytes dbg [])
    (path_channel (bytes [195; 169]) (bytes [226; 130; 172])) [(bytes [194; 181], PString (bytes [240; 159; 146; 150]))]))).
Example C68_opened_case :
  tdms_new dbg (tf_bytes text_F) = Ok text_F
  /\ list_groups text_F = Ok [bytes [195; 169]]
  /\ read_property text_F (path_channel (bytes [195; 169]) (bytes [226; 130; 172])) (bytes [194; 181])
     = Ok (Some (PString (bytes [240; 159; 146; 150]))).
Proof. vm_compute. repeat split; reflexivity. Qed.

Print Assumptions C68_built.
Print Assumptions C68_parts.
Print Assumptions C68_opened.
