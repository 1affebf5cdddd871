(** * Claims C41, C44, C46, C50, C51: re-opening files, cut files, raw data *)
From Coq Require Import Strings.String.
From Verif Require Import Base Lib Utf8 DataTypes MetaData Maps DataBlock Index RawData ChannelReader TdmsFile
  SpecCodec SpecIndex SpecSession SpecRead SpecWrite SpecLocal Codec_proofs Segment_proofs Parse_proofs
  Index_proofs History_proofs Open_proofs Session_proofs Read_proofs Add_proofs Write_proofs Step_proofs
  Program_proofs Reopen_proofs Local_proofs Vectors Thm_Open Thm_Index Thm_Read Thm_Write.
Close Scope string_scope.
Local Notation a := (ch "g" "a").
Local Notation b := (ch "g" "b").
Local Notation c := (ch "g" "c").

(** ** C41 Re-opening a written file gives the same file *)
Lemma reopen_run E cs : forall F F' rs,
  tdms_new E (tf_bytes F) = Ok F -> ix_next (tf_ix F) = lenN (tf_bytes F) ->
  Forall (good_call E) cs -> restarts E (map a_path (ix_active (tf_ix F))) cs ->
  run_calls E F cs = (F', rs) -> Forall (eq (Ok tt)) rs -> lenN (tf_bytes F') <= seek_max E ->
  tdms_new E (tf_bytes F') = Ok F' /\ ix_next (tf_ix F') = lenN (tf_bytes F').
Proof.
  induction cs as [|cl cs IH]; intros F F' rs Op Hn Gc Rs Er Ok Hm; cbn [run_calls] in Er.
  - injection Er as <- <-. auto.
  - destruct (do_call E F cl) as [F1 x] eqn:Ec. destruct (run_calls E F1 cs) as [F2 xs] eqn:Es.
    injection Er as <- <-. inversion Ok as [|y l Hx Hxs]; subst y l. subst x.
    inversion Gc as [|y l G1 G2]; subst y l.
    destruct (do_call_grows _ _ _ _ _ Ec) as [bs1 E1]. destruct (run_grows _ _ _ _ _ Es) as [bs2 E2].
    assert (Hm0 : lenN (tf_bytes F) <= seek_max E) by (rewrite E2, E1, !lenN_app in Hm; lia).
    assert (Lg : legible E F cl).
    { destruct cl as [e path kvs|e t chans vs lay]; cbn [restarts legible] in *; [exact Logic.I|].
      destruct Rs as [[Q _]|[_ [Z [Al _]]]]; auto. }
    destruct (reopen_call E F cl F1 Op Hn Hm0 G1 Lg Ec) as [Op1 [Hn1 Ha]].
    apply (IH F1 F2 xs); auto. destruct cl as [e path kvs|e t chans vs lay]; cbn [restarts] in Rs.
    + now rewrite Ha.
    + destruct Rs as [[Q [Nd R]]|[Q [_ [_ R]]]].
      * now rewrite (proj2 Ha Q Nd).
      * now rewrite (proj1 Ha Q).
Qed.
(** The re-opened file is the live one: same index, same bytes.  Every query and
    read is a function of these, so all give the same results. *)
Theorem C41_reopened_partial : forall E cs F' rs,
  Forall (good_call E) cs -> restarts E [] cs ->
  run_calls E empty_file cs = (F', rs) -> Forall (eq (Ok tt)) rs -> lenN (tf_bytes F') <= seek_max E ->
  tdms_new E (tf_bytes F') = Ok F'.
Proof.
  intros E cs F' rs Gc Rs Er Ok Hm.
  exact (proj1 (reopen_run E cs empty_file F' rs (C13_empty E [] eq_refl) eq_refl Gc Rs Er Ok Hm)).
Qed.
(** The same for writes to an existing file that ends with its last segment. *)
Theorem C41_reopened_after_append_partial : forall E f F H cs F' rs,
  tdms_new E f = Ok F -> file_segments E f H -> ix_next (tf_ix F) = lenN f ->
  Forall (good_call E) cs -> restarts E (active_after H) cs ->
  run_calls E F cs = (F', rs) -> Forall (eq (Ok tt)) rs -> lenN (tf_bytes F') <= seek_max E ->
  tdms_new E (tf_bytes F') = Ok F'.
Proof.
  intros E f F H cs F' rs Op Fs Hn Gc Rs Er Ok Hm. assert (Se : session E H F) by (eapply ss_open; eauto).
  destruct (tdms_new_ok _ _ _ Op) as [_ Ef]. rewrite <- Ef in Op, Hn.
  destruct (C14_incremental E H F Se) as [Ha _]. rewrite <- Ha in Rs.
  exact (proj1 (reopen_run E cs F F' rs Op Hn Gc Rs Er Ok Hm)).
Qed.

(** Five calls: new channels, properties, other channels, one of the first
    channels alone, and the same again with a zero (no metadata). *)
Definition C41_prog : list call :=
  [ CallChans LittleE SI32 [a; b] [1;2;3;4;5;6]%Z Interleaved;
    CallProps BigE (B "/'g'") [(B "unit", PString (B "V")); (B "n", PI32 (-5)%Z)];
    CallChans BigE SF64 [c; a] [7;8;9;10] Contigious;
    CallChans LittleE SI32 [b] [11]%Z Contigious;
    CallChans LittleE SI32 [b] [0]%Z Contigious ].
Lemma short_str s : utf8_valid s = true -> lenN s <? 1000 = true -> good_str dbg s.
Proof.
  intros U L. split; [now apply utf8_valid_iff|]. split; [cbn; lia|]. cbn [can_alloc dbg alloc_ok]. lia.
Qed.
Ltac good_strs := cbn [fst snd];
  lazymatch goal with
  | |- good_str _ _ => apply short_str; vm_compute; reflexivity
  | |- good_pval _ (PString _) => apply short_str; vm_compute; reflexivity
  | |- good_pval _ (PI32 _) => split; [cbn; unfold in_signed; lia|split; exact Logic.I]
  | |- Forall _ [] => apply Forall_nil
  | |- Forall _ _ => apply Forall_cons; good_strs
  | |- _ <> _ => discriminate
  | |- _ < _ => vm_compute; reflexivity
  | |- _ = true => vm_compute; reflexivity
  | |- _ => split; good_strs
  end.
Ltac not_continues := intros [X [[y Y]|[y Y]]]; vm_compute in X, Y; first [congruence | discriminate Y].
Example C41_case :
  Forall (good_call dbg) C41_prog /\ restarts dbg [] C41_prog
  /\ exists F' rs, run_calls dbg empty_file C41_prog = (F', rs) /\ Forall (eq (Ok tt)) rs
     /\ lenN (tf_bytes F') <= seek_max dbg /\ lenN (tf_bytes F') = 446
     /\ tdms_new dbg (tf_bytes F') = Ok F'.
Proof.
  split.
  { repeat (apply Forall_cons || apply Forall_nil); cbn [good_call]; good_strs. }
  split.
  { cbn [C41_prog restarts]. left. split; [intros [X _]; congruence|]. split; [repeat constructor; vm_compute; intuition discriminate|].
    left. split; [not_continues|]. split; [repeat constructor; vm_compute; intuition discriminate|].
    left. split; [not_continues|]. split; [repeat constructor; vm_compute; intuition discriminate|].
    right. split; [split; [discriminate|left; now exists []]|]. split; [eexists; vm_compute; reflexivity|].
    split; [reflexivity|exact Logic.I]. }
  do 2 eexists. split; [vm_compute; reflexivity|]. split; [repeat constructor|]. split; [vm_compute; discriminate|].
  split; vm_compute; reflexivity.
Qed.

(** Without [restarts] it fails: writing the value 1 twice to the same channel
    gives a file that no longer opens, although both calls succeed. *)
Theorem C41_repeated_write_refuted : exists cs F',
  Forall (good_call dbg) cs
  /\ run_calls dbg empty_file cs = (F', [Ok tt; Ok tt])
  /\ (forall F, tdms_new dbg (tf_bytes F') <> Ok F)
  /\ read_channel_from dbg F' SI32 a 0 [0; 0]%Z = ([1; 1]%Z, Ok tt).
Proof.
  exists [CallChans LittleE SI32 [a] [1]%Z Contigious; CallChans LittleE SI32 [a] [1]%Z Contigious].
  eexists. split; [repeat (apply Forall_cons || apply Forall_nil); cbn [good_call]; good_strs|].
  split; [vm_compute; reflexivity|]. split; [|vm_compute; reflexivity].
  assert (X : exists x, tdms_new dbg
     (tf_bytes (fst (run_calls dbg empty_file [CallChans LittleE SI32 [a] [1]%Z Contigious; CallChans LittleE SI32 [a] [1]%Z Contigious]))) = Err x)
    by (eexists; vm_compute; reflexivity).
  destruct X as [x X]. intros F Y. vm_compute in X. vm_compute in Y. congruence.
Qed.
(** Worse, the data of the second call may read as metadata: here the samples
    of a byte channel become a property of an object nobody wrote. *)
Definition injected : list N := map Byte.to_N (write_metadata LittleE [mkObj (B "/'h'") [(B "k", PI32 5)] RINone]).
Theorem C41_injected_refuted : exists cs F' F2,
  Forall (good_call dbg) cs
  /\ run_calls dbg empty_file cs = (F', [Ok tt; Ok tt])
  /\ tdms_new dbg (tf_bytes F') = Ok F2
  /\ read_property F' (B "/'h'") (B "k") = Err (EMissingObject (B "/'h'"))
  /\ read_property F2 (B "/'h'") (B "k") = Ok (Some (PI32 5)).
Proof.
  exists [CallChans LittleE SU8 [a] injected Contigious; CallChans LittleE SU8 [a] injected Contigious].
  do 2 eexists. split; [repeat (apply Forall_cons || apply Forall_nil); cbn [good_call]; good_strs|].
  split; [vm_compute; reflexivity|]. split; [vm_compute; reflexivity|]. split; vm_compute; reflexivity.
Qed.

(** ** C44 Written properties can be read back in session and after re-opening *)
Lemma property_value E H F p n : any_session E H F ->
  (mentioned (all_objs H) p -> read_property F p n = Ok (last_prop (all_objs H) p n))
  /\ (~ mentioned (all_objs H) p -> read_property F p n = Err (EMissingObject p)).
Proof.
  intros Se. apply any_session_told in Se. destruct Se as [_ [Hk [_ Hp]]]. specialize (Hk p). unfold known in Hk.
  unfold read_property. rewrite get_property_spec, Hp.
  destruct (map_get p (ix_objs (tf_ix F))) as [od|]; split; intros M; try reflexivity.
  - exfalso. apply M, Hk. discriminate.
  - exfalso. now apply Hk in M.
Qed.
Lemma fold_prop_last n v ps1 ps2 acc : ~ In n (map fst ps2) ->
  fold_left (prop_step n) (ps1 ++ (n, v) :: ps2) acc = Some v.
Proof.
  intros Hn. rewrite fold_left_app. cbn [fold_left]. unfold prop_step at 2. cbn [fst snd]. rewrite str_eqb_refl.
  clear acc ps1. revert Hn. generalize (Some v) as x. induction ps2 as [|[k w] ps2 IH]; intros x Hn; [reflexivity|].
  cbn [fold_left]. unfold prop_step at 2. cbn [fst snd]. destruct (str_eqb n k) eqn:K.
  - apply str_eqb_eq in K. exfalso. apply Hn. now left.
  - apply IH. intros X. apply Hn. now right.
Qed.
Lemma fold_prop_none n ps acc : ~ In n (map fst ps) -> fold_left (prop_step n) ps acc = acc.
Proof.
  revert acc. induction ps as [|[k w] ps IH]; intros acc Hn; [reflexivity|]. cbn [fold_left]. unfold prop_step at 2. cbn [fst snd].
  destruct (str_eqb n k) eqn:K; [apply str_eqb_eq in K; exfalso; apply Hn; now left|]. apply IH. intros X. apply Hn. now right.
Qed.

(** In the same session, whatever the write returned. *)
Theorem C44_in_session : forall E H F e path kvs F' r,
  any_session E H F -> write_properties_e E e F path kvs = (F', r) ->
  (forall n v ps1 ps2, kvs = ps1 ++ (n, v) :: ps2 -> ~ In n (map fst ps2) ->
     read_property F' path n = Ok (Some v))
  /\ (forall n, ~ In n (map fst kvs) ->
        read_property F' path n = match read_property F path n with Ok v => Ok v | _ => Ok None end)
  /\ (forall p n, p <> path -> read_property F' p n = read_property F p n).
Proof.
  intros E H F e path kvs F' r Se W.
  destruct (C15_write_is_last E e F path kvs F' r W H Se) as [s [Se' Ea]].
  assert (V : forall p n, last_prop (all_objs (H ++ [s])) p n
     = if str_eqb p path then fold_left (prop_step n) kvs (last_prop (all_objs H) p n) else last_prop (all_objs H) p n).
  { intros p n. rewrite Ea. unfold last_prop. rewrite fold_left_app. reflexivity. }
  assert (M : forall p, mentioned (all_objs (H ++ [s])) p <-> mentioned (all_objs H) p \/ p = path).
  { intros p. unfold mentioned. rewrite Ea, map_app, in_app_iff. cbn. intuition congruence. }
  assert (Mp : mentioned (all_objs (H ++ [s])) path) by (apply M; now right).
  split; [|split].
  - intros n v ps1 ps2 -> Hn. rewrite (proj1 (property_value E (H ++ [s]) F' path n Se') Mp), V, str_eqb_refl.
    now rewrite fold_prop_last.
  - intros n Hn. rewrite (proj1 (property_value E (H ++ [s]) F' path n Se') Mp), V, str_eqb_refl, fold_prop_none by exact Hn.
    destruct (property_value E H F path n Se) as [A B].
    destruct (in_dec (list_eq_dec Byte.byte_eq_dec) path (map om_path (all_objs H))) as [Y|Y].
    + now rewrite (A Y).
    + rewrite (B Y). f_equal. unfold last_prop.
      assert (Z : forall os, ~ In path (map om_path os) -> fold_left (prop_obj path n) os None = None).
      { clear. induction os as [|o os IH]; intros Hn; [reflexivity|]. cbn [fold_left]. unfold prop_obj at 2.
        destruct (str_eqb path (om_path o)) eqn:K; [apply str_eqb_eq in K; exfalso; apply Hn; now left|].
        apply IH. intros X. apply Hn. now right. }
      now apply Z.
  - intros p n Hp. assert (K : str_eqb p path = false) by (destruct (str_eqb p path) eqn:K; [apply str_eqb_eq in K; congruence|reflexivity]).
    destruct (property_value E H F p n Se) as [A B]. destruct (property_value E (H ++ [s]) F' p n Se') as [A' B'].
    destruct (in_dec (list_eq_dec Byte.byte_eq_dec) p (map om_path (all_objs H))) as [Y|Y].
    + rewrite (A Y), A' by (apply M; now left). now rewrite V, K.
    + rewrite (B Y), B'; [reflexivity|]. intros X. apply M in X. intuition.
Qed.
(** Data are not affected: every channel keeps its length and its samples. *)
Theorem C44_data_unchanged : forall E H F e path kvs F',
  session E H F -> exact_end H F -> write_properties_e E e F path kvs = (F', Ok tt) ->
  (forall p, mentioned (all_objs H) p -> channel_length E F' p = channel_length E F p)
  /\ (forall t p start out, fixed t -> addressable E (tf_bytes F') ->
        mentioned (all_objs H) p -> stored (tf_bytes F) t H p ->
        read_channel_from E F' t p start out = read_channel_from E F t p start out).
Proof.
  intros E H F e path kvs F' Se Ex W.
  destruct (write_segment e toc_default (Some [mkObj path kvs RINone]) None) as [bs s] eqn:Ws.
  assert (Wr : wrote E F s F' (Ok tt)) by (eapply wrote_props; eauto).
  assert (Se' : session E (H ++ [s]) F') by (eapply ss_write; eauto).
  assert (Eb : tf_bytes F' = tf_bytes F ++ bs)
    by (unfold write_properties_e in W; rewrite Ws in W; destruct (add_segment E (tf_ix F) s); now injection W as <- _).
  pose proof (f_equal snd Ws) as Es. cbn [snd] in Es. rewrite snd_write in Es.
  assert (Hr : toc_raw (sg_toc s) = false) by now rewrite <- Es.
  assert (El : forall p, locs_after (H ++ [s]) p = locs_after H p).
  { intros p. unfold locs_after. rewrite locs_from_snoc. cbn [app]. rewrite Hr. now rewrite app_nil_r. }
  assert (Ebl : blocks_after (H ++ [s]) = blocks_after H).
  { rewrite blocks_after_snoc, Hr. apply app_nil_r. }
  assert (M : forall p, mentioned (all_objs H) p -> mentioned (all_objs (H ++ [s])) p).
  { intros p Hp. unfold mentioned, all_objs. rewrite flat_map_app, map_app. apply in_or_app. now left. }
  split.
  - intros p Hp. destruct (C14_incremental E H F Se) as [_ [_ [_ [_ [G1 _]]]]].
    destruct (C14_incremental E _ F' Se') as [_ [_ [_ [_ [G2 _]]]]].
    specialize (G1 p Hp). specialize (G2 p (M p Hp)). rewrite El, <- G1 in G2. clear -G2.
    unfold channel_length, ix_channel_length, get_positions in *.
    destruct (map_get p (ix_objs (tf_ix F'))), (map_get p (ix_objs (tf_ix F))); try discriminate; [|reflexivity].
    injection G2 as ->. reflexivity.
  - intros t p start out Fx Ad Hp St.
    assert (Ad0 : addressable E (tf_bytes F)) by (unfold addressable in *; rewrite Eb, lenN_app in Ad; lia).
    rewrite (C28_window E H F) by assumption.
    assert (St' : stored (tf_bytes F') t (H ++ [s]) p).
    { unfold stored. rewrite El, Ebl, Eb. now apply (old_stored H F bs t p). }
    rewrite (C28_window E (H ++ [s]) F') by auto.
    do 4 f_equal. unfold samples_after. rewrite El, Ebl, Eb.
    now apply (old_samples E H F bs t p).
Qed.
(** After re-opening: the file opens as the live one, so the same reads give the
    same values.  [F] must itself be what opening its bytes gives; C41 says when
    that is so, and why not always. *)
Theorem C44_reopened_partial : forall E F e path kvs F',
  tdms_new E (tf_bytes F) = Ok F -> ix_next (tf_ix F) = lenN (tf_bytes F) -> lenN (tf_bytes F) <= seek_max E ->
  good_call E (CallProps e path kvs) -> write_properties_e E e F path kvs = (F', Ok tt) ->
  exists F2, tdms_new E (tf_bytes F') = Ok F2
    /\ (forall p n, read_property F2 p n = read_property F' p n)
    /\ (forall p, read_all_properties F2 p = read_all_properties F' p)
    /\ (forall p, channel_length E F2 p = channel_length E F' p)
    /\ (forall t p start out, read_channel_from E F2 t p start out = read_channel_from E F' t p start out).
Proof.
  intros E F e path kvs F' Op Hn Hm Gc W. exists F'.
  destruct (reopen_call E F (CallProps e path kvs) F' Op Hn Hm Gc Logic.I W) as [O _].
  split; [exact O|]. repeat split.
Qed.
Definition C44_F : tfile := open_bytes dbg (tf_bytes C14_file).
Definition C44_kvs : list (str * pval) := [(B "unit", PString (B "A")); (B "n", PI32 5); (B "unit", PString (B "mA"))].
Example C44_case :
  tdms_new dbg (tf_bytes C44_F) = Ok C44_F /\ ix_next (tf_ix C44_F) = lenN (tf_bytes C44_F)
  /\ lenN (tf_bytes C44_F) <= seek_max dbg
  /\ good_call dbg (CallProps BigE (B "/'g'") C44_kvs)
  /\ exists F', write_properties_e dbg BigE C44_F (B "/'g'") C44_kvs = (F', Ok tt)
     /\ read_property C44_F (B "/'g'") (B "unit") = Ok (Some (PString (B "V")))
     /\ read_property F' (B "/'g'") (B "unit") = Ok (Some (PString (B "mA")))
     /\ (exists H, session dbg H C44_F /\ exact_end H C44_F
           /\ mentioned (all_objs H) a /\ stored (tf_bytes C44_F) SI32 H a)
     /\ addressable dbg (tf_bytes F').
Proof.
  assert (O : tdms_new dbg (tf_bytes C44_F) = Ok C44_F) by (vm_compute; reflexivity).
  assert (Q : ix_next (tf_ix C44_F) = lenN (tf_bytes C44_F)) by (vm_compute; reflexivity).
  split; [exact O|]. split; [exact Q|]. split; [vm_compute; discriminate|]. split; [cbn [good_call]; unfold C44_kvs; good_strs|].
  eexists. split; [vm_compute; reflexivity|]. split; [vm_compute; reflexivity|]. split; [vm_compute; reflexivity|].
  split; [|vm_compute; split; [reflexivity|discriminate]].
  destruct (C14_open_is_session _ _ _ O) as [H [_ [Se _]]]. exists H. split; [exact Se|].
  split; [unfold exact_end; now rewrite <- (proj1 (C20_true_addresses _ _ _ Se))|].
  apply (session_stored dbg _ _ H SI32 a [mkLoc 0 0 3; mkLoc 1 1 2] O Se); vm_compute; reflexivity.
Qed.

(** ** C46 A crash during a write loses only that write *)
(** [k] bytes of the file after a call are left; [head] is where the lead-in and
    the metadata of that call end.  Fewer than four bytes of the call: the file
    as before.  All of the head: the index as after the call.  In between, an
    error; never a panic. *)
Theorem C46_cut_partial : forall E f H F cl F',
  tdms_new E f = Ok F -> file_segments E f H -> ix_next (tf_ix F) = lenN f -> lenN f <= seek_max E ->
  good_call E cl -> zero_if_left_out E (active_after H) cl -> do_call E F cl = (F', Ok tt) ->
  exists head,
    lenN f + 32 <= head <= lenN (tf_bytes F')
    /\ (~ leaves_out (active_after H) cl -> head + data_bytes cl = lenN (tf_bytes F'))
    /\ (leaves_out (active_after H) cl -> head = lenN f + 32)
    /\ forall k, (length f <= k <= length (tf_bytes F'))%nat ->
       let cut := firstn k (tf_bytes F') in
       tdms_new E cut =
         if N.of_nat k <? lenN f + 4 then Ok (mkTF (tf_ix F) cut)
         else if N.of_nat k <? head then Err (EIo UnexpectedEof)
         else Ok (mkTF (tf_ix F') cut).
Proof.
  intros E f H F cl F' Op Fs Hn Hm Gc Zl Ew. pose proof (ss_open E f F H Fs Op) as Se.
  destruct (C14_incremental E H F Se) as [Ha _]. destruct (tdms_new_ok _ _ _ Op) as [B Ef].
  rewrite <- Ha in *. subst f.
  assert (Lg : legible E F cl) by (destruct cl; [exact Logic.I|exact Zl]).
  destruct (call_read E F cl F' (open_inv _ _ _ B) Hn Gc Lg Ew) as [s [m [n [R [Sm [A [Hl [H1 H2]]]]]]]].
  destruct (segment_read_extent _ _ _ _ R) as [m' [c [Sm' [_ [_ [Lm _]]]]]]. rewrite Sm in Sm'. injection Sm' as <-.
  assert (M4 : 4 <= metadata_size m) by (unfold metadata_size; lia).
  destruct (do_call_grows _ _ _ _ _ Ew) as [bs Eb].
  exists (lenN (tf_bytes F) + 28 + metadata_size m).
  split; [lia|]. split; [intros Q; specialize (H1 Q); lia|]. split; [intros Q; rewrite (H2 Q); change (metadata_size []) with 4; lia|].
  intros k Hk. cbv zeta.
  assert (Ek : firstn k (tf_bytes F') = tf_bytes F ++ firstn (k - length (tf_bytes F)) bs).
  { rewrite Eb, firstn_app, firstn_all2 by lia. reflexivity. }
  rewrite Ek. rewrite Eb in R, Hl, Hk, Lm. rewrite app_length in Hk.
  destruct (cut_reopen E (tf_bytes F) (tf_ix F) bs s m (tf_ix F') n (k - length (tf_bytes F)) B Hn Hm R Sm A ltac:(lia) ltac:(lia))
    as [C1 [C2 C3]].
  unfold tdms_new. unfold lenN in *.
  destruct (N.of_nat k <? _) eqn:K1.
  - rewrite C1 by lia. reflexivity.
  - destruct (N.of_nat k <? N.of_nat (length (tf_bytes F)) + 28 + metadata_size m) eqn:K2.
    + rewrite C2 by lia. reflexivity.
    + rewrite C3 by lia. reflexivity.
Qed.

(** ... and whenever the cut file opens, everything before the call is intact:
    the samples of each channel read as before. *)
Lemma touched_app n : forall ls r s, s < fold_right (fun l a => l_n l + a) 0 ls ->
  s + n <= fold_right (fun l a => l_n l + a) 0 ls -> touched (ls ++ r) s n = touched ls s n.
Proof.
  revert n. intros n ls. revert n. induction ls as [|l ls IH]; intros n r s H1 H2; cbn [fold_right] in *; [lia|].
  cbn [app touched]. destruct (l_n l <=? s) eqn:K; [apply IH; lia|]. f_equal.
  destruct (n <=? l_n l - s) eqn:K2; [reflexivity|]. apply IH; lia.
Qed.
Lemma touched_incl : forall ls s n, incl (touched ls s n) ls.
Proof.
  induction ls as [|l ls IH]; intros s n x Hx; [destruct Hx|]. cbn [touched] in Hx.
  destruct (l_n l <=? s); [right; eapply IH; exact Hx|]. destruct Hx as [<-|Hx]; [now left|].
  destruct (n <=? l_n l - s); [destruct Hx|right; eapply IH; exact Hx].
Qed.
Lemma samples_count f t H p :
  lenN (samples_after f t H p) = fold_right (fun l a => l_n l + a) 0 (locs_after H p).
Proof.
  unfold samples_after, samples_at. pose proof (locs_located H p) as L.
  induction (locs_after H p) as [|l ls IH]; [reflexivity|]. inversion L as [|x y Hl Hls]; subst x y.
  cbn [map concat fold_right]. rewrite lenN_app, (IH Hls). f_equal.
  destruct Hl as [b0 [m0 [Hb _]]]. unfold loc_samples. rewrite Hb. unfold block_samples, lenN.
  rewrite map_length, seq_length. lia.
Qed.
Lemma survives E H F H1 F1 f2 F2 g t p start out :
  session E H F -> exact_end H F -> session E H1 F1 ->
  (exists r, blocks_after H1 = blocks_after H ++ r) -> (exists r, locs_after H1 p = locs_after H p ++ r) ->
  (mentioned (all_objs H) p -> mentioned (all_objs H1) p) ->
  tdms_new E f2 = Ok F2 -> tf_ix F2 = tf_ix F1 -> f2 = tf_bytes F ++ g ->
  fixed t -> addressable E f2 -> mentioned (all_objs H) p -> stored (tf_bytes F) t H p ->
  start < lenN (samples_after (tf_bytes F) t H p) ->
  start + lenN out <= lenN (samples_after (tf_bytes F) t H p) ->
  read_channel_from E F2 t p start out = read_channel_from E F t p start out.
Proof.
  intros Se Ex Se1 [rb Hb] [rl Hl] Hm O2 Ei Ef Fx Ad M St L1 L2.
  destruct (C14_open_is_session _ _ _ O2) as [H2 [_ [Se2 _]]]. destruct (tdms_new_ok _ _ _ O2) as [_ Ef2].
  destruct (C14_incremental E H1 F1 Se1) as [_ [_ [_ [B1 [G1 _]]]]].
  destruct (C14_incremental E H2 F2 Se2) as [_ [_ [_ [B2 [G2 N2]]]]].
  specialize (G1 p (Hm M)). rewrite <- Ei in G1, B1.
  assert (M2 : mentioned (all_objs H2) p).
  { destruct (in_dec (list_eq_dec Byte.byte_eq_dec) p (map om_path (all_objs H2))) as [Y|Y]; [exact Y|].
    rewrite (N2 p Y) in G1. discriminate. }
  rewrite (G2 p M2) in G1. injection G1 as G1. rewrite B1 in B2.
  assert (Ad0 : addressable E (tf_bytes F)) by (unfold addressable in *; rewrite Ef, lenN_app in Ad; lia).
  rewrite (C28_window E H F) by assumption.
  rewrite samples_count in L1, L2.
  assert (Es : samples_after (tf_bytes F2) t H2 p = samples_after (tf_bytes F) t H p ++ samples_at (tf_bytes F2) t (blocks_after H2) rl).
  { unfold samples_after at 1. rewrite G1, Hl. unfold samples_at at 1. rewrite map_app, concat_app. f_equal.
    fold (samples_at (tf_bytes F2) t (blocks_after H2) (locs_after H p)).
    rewrite <- B2, Hb, samples_at_app by apply locs_located. rewrite Ef2, Ef.
    exact (old_samples E H F g t p Se Ex St). }
  rewrite (read_touched E H2 F2 t Se2 Fx) with (p := p); [|now rewrite Ef2|exact M2|].
  - do 2 f_equal. rewrite Es, skipn_app, firstn_app. 
    assert (L3 : (N.to_nat start + length out <= length (samples_after (tf_bytes F) t H p))%nat).
    { rewrite <- samples_count with (f := tf_bytes F) (t := t) in L2. unfold lenN in L2. lia. }
    replace (length out - _)%nat with 0%nat by (rewrite skipn_length; lia). cbn [firstn]. now rewrite app_nil_r.
  - rewrite G1, Hl, touched_app by assumption. apply Forall_forall. intros l Hin. apply touched_incl in Hin.
    unfold stored in St. rewrite Forall_forall in St. destruct (St l Hin) as [b0 [m0 [X1 [X2 X3]]]].
    exists b0, m0. split; [rewrite <- B2, Hb; now apply nth_error_app_l|]. split; [|exact X3].
    rewrite Ef2, Ef. now apply whole_block_app.
Qed.

Theorem C46_earlier_samples_survive_partial : forall E f H F cl F' k Fc t p start out,
  tdms_new E f = Ok F -> file_segments E f H -> ix_next (tf_ix F) = lenN f -> lenN f <= seek_max E ->
  good_call E cl -> zero_if_left_out E (active_after H) cl -> do_call E F cl = (F', Ok tt) ->
  (length f <= k <= length (tf_bytes F'))%nat ->
  tdms_new E (firstn k (tf_bytes F')) = Ok Fc ->
  fixed t -> addressable E (tf_bytes F') -> mentioned (all_objs H) p -> stored f t H p ->
  start < lenN (samples_after f t H p) -> start + lenN out <= lenN (samples_after f t H p) ->
  read_channel_from E Fc t p start out
  = (overlay out (firstn (length out) (skipn (N.to_nat start) (samples_after f t H p))), Ok tt).
Proof.
  intros E f H F cl F' k Fc t p start out Op Fs Hn Hm Gc Zl Ew Hk Oc Fx Ad M St L1 L2.
  pose proof (ss_open E f F H Fs Op) as Se. destruct (tdms_new_ok _ _ _ Op) as [B Ef].
  destruct (C46_cut_partial E f H F cl F' Op Fs Hn Hm Gc Zl Ew) as [head [_ [_ [_ C]]]]. specialize (C k Hk). cbv zeta in C.
  rewrite Oc in C. destruct (do_call_grows _ _ _ _ _ Ew) as [bs Eb]. subst f.
  assert (Ek : firstn k (tf_bytes F') = tf_bytes F ++ firstn (k - length (tf_bytes F)) bs).
  { rewrite Eb, firstn_app, firstn_all2 by lia. reflexivity. }
  assert (Ad2 : addressable E (firstn k (tf_bytes F'))).
  { unfold addressable, lenN in *. rewrite firstn_length. lia. }
  assert (Ad0 : addressable E (tf_bytes F)) by (unfold addressable in *; rewrite Eb, lenN_app in Ad; lia).
  assert (Ex : exact_end H F) by (unfold exact_end; now rewrite <- (proj1 (C20_true_addresses _ _ _ Se))).
  rewrite <- (C28_window E H F) by assumption.
  destruct (N.of_nat k <? lenN (tf_bytes F) + 4).
  - injection C as C. eapply (survives E H F H F); eauto; try (exists []; now rewrite app_nil_r).
    now rewrite C.
  - destruct (N.of_nat k <? head); [discriminate|]. injection C as C.
    assert (X : exists s, wrote E F s F' (Ok tt)).
    { destruct cl as [e path kvs|e t0 chans vs lay]; cbn [do_call] in Ew.
      - destruct (write_segment e toc_default (Some [mkObj path kvs RINone]) None) as [bs0 s] eqn:Ws.
        exists s. eapply wrote_props; eauto.
      - destruct (stream_segment e t0 (tf_ix F) chans vs lay) as [[bs0 s]|x|x|] eqn:Es;
          try (unfold write_channels_e in Ew; rewrite Es in Ew; discriminate).
        exists s. eapply wrote_chans; eauto. }
    destruct X as [s Wr]. assert (Se' : session E (H ++ [s]) F') by (eapply ss_write; eauto).
    eapply (survives E H F (H ++ [s]) F'); eauto.
    + rewrite blocks_after_snoc. eauto.
    + unfold locs_after. rewrite locs_from_snoc. cbn [app]. eauto.
    + unfold mentioned, all_objs. rewrite flat_map_app, map_app. intros X. apply in_or_app. now left.
    + now rewrite C.
Qed.

(** Two values each for [c] and [b] after the file of [C14_case]: the call writes
    104 bytes, of which 88 are its head. *)
Definition C46_call : call := CallChans BigE SI32 [c; b] [1; 2; 3; 4]%Z Contigious.
Definition C46_after : tfile := fst (do_call dbg C44_F C46_call).
Example C46_case : exists H,
  tdms_new dbg (tf_bytes C44_F) = Ok C44_F /\ file_segments dbg (tf_bytes C44_F) H
  /\ ix_next (tf_ix C44_F) = lenN (tf_bytes C44_F) /\ lenN (tf_bytes C44_F) <= seek_max dbg
  /\ good_call dbg C46_call /\ zero_if_left_out dbg (active_after H) C46_call
  /\ do_call dbg C44_F C46_call = (C46_after, Ok tt)
  /\ mentioned (all_objs H) a /\ stored (tf_bytes C44_F) SI32 H a
  /\ addressable dbg (tf_bytes C46_after)
  /\ lenN (tf_bytes C44_F) = 385 /\ lenN (tf_bytes C46_after) = 489 /\ data_bytes C46_call = 16
  /\ Forall (fun k => tdms_new dbg (firstn k (tf_bytes C46_after)) = Err (EIo UnexpectedEof)) [389; 420; 472]%nat
  /\ Forall (fun k => read_channel_from dbg (open_bytes dbg (firstn k (tf_bytes C46_after))) SI32 a 0 (repeat 0%Z 5)
                      = ([1; 3; 5; 9; 10]%Z, Ok tt)) [385; 388; 473; 480]%nat.
Proof.
  assert (O : tdms_new dbg (tf_bytes C44_F) = Ok C44_F) by (vm_compute; reflexivity).
  destruct (C14_open_is_session _ _ _ O) as [H [Fs [Se _]]]. exists H. split; [exact O|]. split; [exact Fs|].
  split; [vm_compute; reflexivity|]. split; [vm_compute; discriminate|]. split; [cbn [good_call C46_call]; good_strs|].
  split.
  { left. destruct (C14_incremental _ _ _ Se) as [Ha _]. rewrite <- Ha.
    replace (map a_path (ix_active (tf_ix C44_F))) with [b] by (vm_compute; reflexivity). not_continues. }
  split; [vm_compute; reflexivity|].
  destruct (session_stored dbg _ _ H SI32 a [mkLoc 0 0 3; mkLoc 1 1 2] O Se) as [M St]; [vm_compute; reflexivity..|].
  split; [exact M|]. split; [exact St|]. split; [vm_compute; split; [reflexivity|discriminate]|].
  split; [vm_compute; reflexivity|]. split; [vm_compute; reflexivity|]. split; [vm_compute; reflexivity|].
  split; repeat (apply Forall_cons || apply Forall_nil); vm_compute; reflexivity.
Qed.
(** The length a cut file reports is that of the whole write: it is taken from
    the metadata, not from what is there, and reading fails. *)
Theorem C46_length_of_cut_data_refuted : exists f F,
  tdms_new dbg f = Ok F /\ f = firstn 480 (tf_bytes C46_after)
  /\ channel_length dbg F b = Ok (Some 6) /\ channel_length dbg C44_F b = Ok (Some 4)
  /\ snd (read_channel_from dbg F SI32 b 0 (repeat 0%Z 6)) = Err (EIo UnexpectedEof).
Proof.
  exists (firstn 480 (tf_bytes C46_after)), (open_bytes dbg (firstn 480 (tf_bytes C46_after))).
  vm_compute. repeat split; reflexivity.
Qed.
(** When the metadata is left out and the data do not start with zeros, even the
    complete write cannot be opened ([C41_repeated_write_refuted]). *)

(** ** C50 Raw data content does not influence the structure of the file *)
(** Byte [i] belongs to the lead-in or the metadata of a segment of [H]. *)
Definition structural (H : list segment) (i : N) : Prop :=
  exists H1 s H2, H = H1 ++ s :: H2
    /\ offset H1 <= i < offset H1 + 28 + metadata_size (seg_objs s).
(** Byte [i] belongs to the raw data of a segment whose metadata ends before its
    data. *)
Definition raw_data_byte (H : list segment) (i : N) : Prop :=
  exists H1 s H2, H = H1 ++ s :: H2 /\ metadata_size (seg_objs s) <= sg_raw s
    /\ offset H1 + 28 + sg_raw s <= i < offset H1 + 28 + sg_next s.

Lemma agree_piece {A} : forall n (l l' : list A),
  length l = length l' -> (forall i, (i < n)%nat -> nth_error l i = nth_error l' i) -> firstn n l = firstn n l'.
Proof.
  induction n as [|n IH]; intros l l' Hl Ha; [reflexivity|].
  destruct l as [|x l], l' as [|x' l']; try discriminate; [reflexivity|].
  pose proof (Ha 0%nat ltac:(lia)) as H0. injection H0 as ->. cbn [firstn]. f_equal.
  apply IH; [now injection Hl|]. intros i Hi. exact (Ha (S i) ltac:(lia)).
Qed.
Lemma nth_skip {A} (l : list A) : forall n i, nth_error (skipn n l) i = nth_error l (n + i).
Proof. induction l as [|x l IH]; intros [|n] i; try reflexivity; cbn [skipn Nat.add nth_error]; [now destruct i|apply IH]. Qed.
Lemma offset_firstn_le H i j : (i <= j)%nat -> offset (firstn i H) <= offset (firstn j H).
Proof.
  intros Hij. replace (firstn i H) with (firstn i (firstn j H)) by (rewrite firstn_firstn; f_equal; lia).
  rewrite <- (firstn_skipn i (firstn j H)) at 2. rewrite offset_app.
  pose proof (offset_grows (skipn i (firstn j H)) (offset (firstn i (firstn j H)))). lia.
Qed.
(** The structure depends on the lead-ins and the metadata alone. *)
Theorem C50_exact : forall E f f' F H,
  tdms_new E f = Ok F -> file_segments E f H -> lenN f = lenN f' ->
  (forall i, structural H (N.of_nat i) -> nth_error f i = nth_error f' i) ->
  tdms_new E f' = Ok (mkTF (tf_ix F) f').
Proof.
  intros E f f' F H Op Fs Hl Ha. destruct (tdms_new_ok _ _ _ Op) as [B Ef].
  destruct (open_segments E f _ H B Fs) as [A Pl].
  unfold tdms_new. rewrite (accepted_opens E f' H (tf_ix F) A); [reflexivity|].
  destruct Fs as [Rd En]. split; [|rewrite <- Hl; exact En].
  intros i s Hi. destruct (Rd i s Hi) as [R Sk]. split; [|exact Sk].
  destruct (segment_read_extent _ _ _ _ R) as [m [c0 [Sm [Hd [Lc [Lf [Hs _]]]]]]].
  set (pos := offset (firstn i H)) in *.
  assert (D : forall g, lenN f = lenN g -> dropN pos g = skipn (N.to_nat pos) g).
  { intros g Hg. unfold dropN. replace (lenN g <=? pos) with false by lia. reflexivity. }
  assert (Pc : firstn (N.to_nat (28 + metadata_size m)) (dropN pos f') = firstn (N.to_nat (28 + metadata_size m)) (dropN pos f)).
  { symmetry. rewrite !D by auto. unfold lenN in *. apply agree_piece; [rewrite !skipn_length; lia|].
    intros j Hj. rewrite !nth_skip. apply Ha. destruct (nth_error_split H i Hi) as [H1 [H2 [Eh Li]]].
    exists H1, s, H2. split; [exact Eh|]. unfold seg_objs. rewrite Sm.
    assert (F1 : firstn i H = H1) by (rewrite Eh, <- Li, firstn_app, Nat.sub_diag, firstn_all; cbn [firstn]; apply app_nil_r).
    fold pos in Ha. unfold pos. rewrite F1. fold pos. rewrite <- F1. fold pos. lia. }
  assert (Lp : length (TDSm ++ c0) = N.to_nat (28 + metadata_size m)).
  { rewrite app_length. unfold lenN in Lc. cbn [length TDSm]. lia. }
  rewrite Hd, app_assoc, <- Lp, firstn_app_exact in Pc.
  assert (Hd' : dropN pos f' = TDSm ++ c0 ++ skipn (length (TDSm ++ c0)) (dropN pos f')).
  { rewrite <- (firstn_skipn (length (TDSm ++ c0)) (dropN pos f')) at 1. rewrite Pc. now rewrite <- app_assoc. }
  assert (Lpos : lenN (firstn (N.to_nat pos) f') = pos) by (unfold lenN in *; rewrite firstn_length; lia).
  rewrite <- (firstn_skipn (N.to_nat pos) f'). rewrite <- (D f' Hl), Hd'.
  pose proof (segment_read_piece E (firstn (N.to_nat pos) f') s c0 (skipn (length (TDSm ++ c0)) (dropN pos f')) Hs) as X.
  rewrite Lpos in X. exact X.
Qed.
(** So the raw data of segments that carry metadata may be changed at will, as
    long as the segments do not overlap. *)
Theorem C50_structure : forall E f f' F H,
  tdms_new E f = Ok F -> file_segments E f H ->
  Forall (fun s => metadata_size (seg_objs s) <= sg_next s) H ->
  lenN f = lenN f' ->
  (forall i, ~ raw_data_byte H (N.of_nat i) -> nth_error f i = nth_error f' i) ->
  tdms_new E f' = Ok (mkTF (tf_ix F) f').
Proof.
  intros E f f' F H Op Fs Mb Hl Ha. apply (C50_exact E f f' F H Op Fs Hl).
  intros i [H1 [s [H2 [Eh Hi]]]]. apply Ha. intros [G1 [s1 [G2 [Eg [Hm Hr]]]]].
  assert (Fx : forall (A : list segment) x C, H = A ++ x :: C ->
     nth_error H (length A) = Some x /\ firstn (length A) H = A).
  { intros A0 x C0 ->. rewrite nth_error_app2, Nat.sub_diag, firstn_app, Nat.sub_diag, firstn_all by lia. cbn [firstn].
    rewrite app_nil_r. auto. }
  destruct (Fx _ _ _ Eh) as [N1 F1]. destruct (Fx _ _ _ Eg) as [N2 F2].
  rewrite Forall_forall in Mb. pose proof (Mb s (nth_error_In _ _ N1)) as Ms.
  destruct (Nat.lt_trichotomy (length H1) (length G1)) as [Q|[Q|Q]].
  - pose proof (offset_firstn_le H (S (length H1)) (length G1) ltac:(lia)) as O. rewrite F2, (firstn_snoc _ _ _ N1), F1, offset_snoc in O. lia.
  - rewrite Q in F1, N1. rewrite F1 in F2. subst G1. rewrite N1 in N2. injection N2 as <-. lia.
  - pose proof (offset_firstn_le H (S (length G1)) (length H1) ltac:(lia)) as O. rewrite F1, (firstn_snoc _ _ _ N2), F2, offset_snoc in O. lia.
Qed.
(** The segments of a concrete file, to state examples. *)
Fixpoint segs (E : env) (f : list byte) (fuel : nat) (pos : N) : list segment :=
  match fuel with
  | O => []
  | S k => match segment_read E f pos with Ok s => s :: segs E f k (pos + 28 + sg_next s) | _ => [] end
  end.
Lemma segs_found E f H : lenN f <= seek_max E -> file_segments E f H ->
  forall fuel, (length H < fuel)%nat -> segs E f fuel 0 = H.
Proof.
  intros Hm [Rd En].
  assert (G : forall post pre fuel, H = pre ++ post -> (length post < fuel)%nat -> segs E f fuel (offset pre) = post).
  { induction post as [|s post IH]; intros pre fuel Eh Hf; (destruct fuel as [|fuel]; [cbn [length] in Hf; lia|]); cbn [segs].
    - rewrite app_nil_r in Eh. subst pre.
      assert (R : segment_read E f (offset H) = Err EEndOfFile) by (apply segment_read_eof; lia). now rewrite R.
    - assert (N0 : nth_error H (length pre) = Some s) by (rewrite Eh, nth_error_app2, Nat.sub_diag by lia; reflexivity).
      destruct (Rd _ _ N0) as [R _]. rewrite Eh, firstn_app, Nat.sub_diag, firstn_all in R. cbn [firstn] in R. rewrite app_nil_r in R.
      rewrite R. f_equal. rewrite <- offset_snoc. apply IH; [rewrite Eh, <- app_assoc; reflexivity|]. cbn [length] in Hf. lia. }
  intros fuel Hf. exact (G H [] fuel eq_refl Hf).
Qed.
(** The six samples of the first segment replaced by other bytes. *)
Definition C50_f : list byte := tf_bytes C14_file.
Definition C50_f' : list byte := firstn 104 C50_f ++ repeat xff 24 ++ skipn 128 C50_f.
Example C50_case : exists F H,
  tdms_new dbg C50_f = Ok F /\ file_segments dbg C50_f H
  /\ Forall (fun s => metadata_size (seg_objs s) <= sg_next s) H
  /\ lenN C50_f = lenN C50_f'
  /\ (forall i, ~ raw_data_byte H (N.of_nat i) -> nth_error C50_f i = nth_error C50_f' i) /\ C50_f <> C50_f'
  /\ read_channel_from dbg (mkTF (tf_ix F) C50_f') SI32 a 0 (repeat 0%Z 4) = ([-1; -1; -1; 9]%Z, Ok tt).
Proof.
  exists (open_bytes dbg C50_f).
  assert (O : tdms_new dbg C50_f = Ok (open_bytes dbg C50_f)) by (vm_compute; reflexivity).
  destruct (C14_open_is_session _ _ _ O) as [H [Fs [Se _]]]. exists H. split; [exact O|]. split; [exact Fs|].
  destruct (C12_segment_starts _ _ _ O) as [H0 [Fs0 [_ [_ Lh]]]]. rewrite <- (file_segments_unique _ _ _ _ Fs Fs0) in Lh.
  assert (Lf : lenN C50_f = 385) by (vm_compute; reflexivity).
  assert (Eh : segs dbg C50_f 20 0 = H).
  { apply segs_found; [vm_compute; discriminate|exact Fs|]. unfold lenN in *. lia. }
  split.
  { rewrite <- Eh. apply Forall_forall. intros s Hs.
    assert (C : forallb (fun s => metadata_size (seg_objs s) <=? sg_next s) (segs dbg C50_f 20 0) = true)
      by (vm_compute; reflexivity).
    rewrite forallb_forall in C. specialize (C s Hs). lia. }
  split; [vm_compute; reflexivity|]. split.
  { intros i Hi. assert (Lx : length C50_f = 385%nat) by (vm_compute; reflexivity).
    assert (Q : (i < 104 \/ 128 <= i)%nat).
    { destruct (Nat.lt_ge_cases i 104) as [|Q1]; [now left|]. destruct (Nat.lt_ge_cases i 128) as [Q2|]; [|now right].
      exfalso. apply Hi. rewrite <- Eh. clear -Q1 Q2.
      assert (X : exists s r, segs dbg C50_f 20 0 = s :: r /\ metadata_size (seg_objs s) = 76 /\ sg_raw s = 76 /\ sg_next s = 100)
        by (do 2 eexists; vm_compute; repeat split; reflexivity).
      destruct X as [s [r [-> [X1 [X2 X3]]]]]. exists [], s, r. rewrite X1, X2, X3. change (offset []) with 0.
      split; [reflexivity|]. lia. }
    unfold C50_f'. destruct Q as [Q|Q].
    - rewrite nth_error_app1 by (rewrite firstn_length; lia).
      rewrite <- (firstn_skipn 104 C50_f) at 1. apply nth_error_app1. rewrite firstn_length. lia.
    - assert (L2 : length (firstn 104 C50_f ++ repeat xff 24) = 128%nat) by (rewrite app_length, firstn_length, repeat_length; lia).
      rewrite app_assoc, nth_error_app2 by lia. rewrite L2, nth_skip. f_equal. lia. }
  split; [vm_compute; discriminate|]. vm_compute. reflexivity.
Qed.

(** For a segment without metadata it does matter: changing one byte of data
    makes the file unreadable. *)
Definition C50_g (x : Z) : list byte :=
  tf_bytes (fst (run_calls dbg empty_file [CallChans LittleE SI32 [a] [1]%Z Contigious; CallChans LittleE SI32 [a] [x]%Z Contigious])).
Theorem C50_no_metadata_refuted : exists f f' F e,
  tdms_new dbg f = Ok F /\ lenN f = lenN f'
  /\ (exists b0, In b0 (ix_blocks (tf_ix F)) /\ firstn (N.to_nat (b_start b0)) f = firstn (N.to_nat (b_start b0)) f'
                 /\ b_start b0 + b_len b0 = lenN f)
  /\ tdms_new dbg f' = Err e.
Proof.
  exists (C50_g 0), (C50_g 1), (open_bytes dbg (C50_g 0)), (EIo UnexpectedEof). split; [vm_compute; reflexivity|].
  split; [vm_compute; reflexivity|]. split; [|vm_compute; reflexivity].
  exists (nth 1 (ix_blocks (tf_ix (open_bytes dbg (C50_g 0)))) (mkBlock 0 0 Contigious [] LittleE)).
  split; [vm_compute; now right; left|]. split; vm_compute; reflexivity.
Qed.

(** ** C51 A read needs only the data it covers *)
(** The other blocks of the channel may be cut short, of another type or of
    uneven lengths. *)
Theorem C51_reads_are_local : forall E H F t p start out,
  session E H F -> fixed t -> addressable E (tf_bytes F) -> mentioned (all_objs H) p ->
  Forall (stored_at (tf_bytes F) t H) (touched (locs_after H p) start (lenN out)) ->
  read_channel_from E F t p start out
  = (overlay out (firstn (length out) (skipn (N.to_nat start) (samples_after (tf_bytes F) t H p))), Ok tt).
Proof. intros. now apply read_touched. Qed.
(** A channel with 32-bit integers, then floats, then integers cut short: the
    first three can be read as integers, the next two as floats. *)
Definition C51_file : list byte :=
  firstn 330 (tf_bytes (fst (run_calls dbg empty_file
    [ CallChans LittleE SI32 [a] [1; 2; 3]%Z Contigious;
      CallChans LittleE SF64 [b; a] [7; 8; 9; 10] Contigious;
      CallChans LittleE SI32 [a; c] [4; 5]%Z Contigious ]))).
Example C51_case : exists H F, tdms_new dbg C51_file = Ok F /\ session dbg H F
  /\ addressable dbg C51_file /\ mentioned (all_objs H) a
  /\ Forall (stored_at C51_file SI32 H) (touched (locs_after H a) 1 2)
  /\ Forall (stored_at C51_file SF64 H) (touched (locs_after H a) 3 2)
  /\ ~ stored C51_file SI32 H a
  /\ channel_length dbg F a = Ok (Some 6)
  /\ read_channel_from dbg F SI32 a 1 [0; 0]%Z = ([2; 3]%Z, Ok tt)
  /\ read_channel_from dbg F SF64 a 3 [0; 0] = ([9; 10], Ok tt).
Proof.
  set (F := open_bytes dbg C51_file).
  assert (O : tdms_new dbg C51_file = Ok F) by (vm_compute; reflexivity).
  destruct (C14_open_is_session _ _ _ O) as [H [_ [Se _]]]. exists H, F. split; [exact O|]. split; [exact Se|].
  split; [vm_compute; split; [reflexivity|discriminate]|].
  destruct (C14_incremental _ _ _ Se) as [_ [_ [_ [Hb [Gp Gn]]]]].
  assert (G : get_positions (tf_ix F) a = Some [mkLoc 0 0 3; mkLoc 1 1 2; mkLoc 2 0 1]) by (vm_compute; reflexivity).
  assert (M : mentioned (all_objs H) a).
  { destruct (in_dec (list_eq_dec Byte.byte_eq_dec) a (map om_path (all_objs H))) as [|Hn]; [assumption|].
    rewrite (Gn a Hn) in G. discriminate. }
  rewrite (Gp a M) in G. injection G as G. split; [exact M|].
  assert (Ck : forall t l, stored_check t (lenN C51_file) (ix_blocks (tf_ix F)) l = true -> stored_at C51_file t H l).
  { intros t l C. unfold stored_check in C. rewrite Hb in C. unfold stored_at.
    destruct (nth_error (blocks_after H) (l_block l)) as [b0|]; [|discriminate].
    destruct (nth_error (b_chans b0) (l_chan l)) as [m|] eqn:Hm; [|discriminate].
    apply andb_true_iff in C. destruct C as [W Tt]. exists b0, m. split; [reflexivity|].
    split; [now apply whole_check_ok|]. split; [exact Hm|].
    apply existsb_exists in Tt. destruct Tt as [d [Hd Eq]]. replace (rm_type m) with d; [exact Hd|].
    destruct d, (rm_type m); reflexivity || discriminate. }
  rewrite G.
  split; [change (touched [mkLoc 0 0 3; mkLoc 1 1 2; mkLoc 2 0 1] 1 2) with [mkLoc 0 0 3];
          constructor; [apply Ck; vm_compute; reflexivity|constructor]|].
  split; [change (touched [mkLoc 0 0 3; mkLoc 1 1 2; mkLoc 2 0 1] 3 2) with [mkLoc 1 1 2];
          constructor; [apply Ck; vm_compute; reflexivity|constructor]|].
  split.
  { intros St. unfold stored in St. rewrite G in St. inversion St as [|x y _ St2]; subst. inversion St2 as [|x y X _]; subst.
    destruct X as [b0 [m [X1 [_ [X2 X3]]]]]. rewrite <- Hb in X1. vm_compute in X1. injection X1 as <-.
    vm_compute in X2. injection X2 as <-. destruct X3 as [X3|[]]. discriminate. }
  split; [vm_compute; reflexivity|]. split; vm_compute; reflexivity.
Qed.

(** ** C52 Exactly which files open *)
(** Opening succeeds exactly for the byte sequences made of segments, each
    readable where the one before it ends, that the index accepts in turn. *)
Theorem C52_open_iff : forall E f F,
  tdms_new E f = Ok F <->
  tf_bytes F = f /\ exists H, file_segments E f H /\ accepted E H (tf_ix F).
Proof.
  intros E f F. rewrite tdms_new_iff. split.
  - intros [B Ef]. split; [exact Ef|]. destruct (open_history E f _ B) as [H [A [Fs _]]]. eauto.
  - intros [Ef [H [Fs A]]]. split; [|exact Ef]. now apply accepted_opens with (H := H).
Qed.
(** Together with C17 and C20 (when the index accepts a segment) and C02-C09
    (when a segment can be read) this describes opening completely.  In
    particular two files with the same segments have the same index. *)
Theorem C52_segments_determine_index : forall E f f' F F' H,
  tdms_new E f = Ok F -> file_segments E f H -> file_segments E f' H ->
  tdms_new E f' = Ok F' -> tf_ix F' = tf_ix F.
Proof.
  intros E f f' F F' H O Fs Fs' O'. apply tdms_new_iff in O. apply tdms_new_iff in O'.
  destruct O as [B _]. destruct O' as [B' _]. destruct (open_segments E f _ H B Fs) as [A _].
  rewrite (accepted_opens E f' H _ A Fs') in B'. now injection B' as ->.
Qed.
Example C52_case : exists H, file_segments dbg C50_f H /\ H <> [] /\ accepted dbg H (tf_ix (open_bytes dbg C50_f)).
Proof.
  assert (O : tdms_new dbg C50_f = Ok (open_bytes dbg C50_f)) by (vm_compute; reflexivity).
  apply C52_open_iff in O. destruct O as [_ [H [Fs A]]]. exists H. split; [exact Fs|]. split; [|exact A].
  intros ->. destruct Fs as [_ [L|L]]; vm_compute in L; discriminate L.
Qed.

Print Assumptions C41_reopened_partial.
Print Assumptions C41_reopened_after_append_partial.
Print Assumptions C41_repeated_write_refuted.
Print Assumptions C41_injected_refuted.
Print Assumptions C44_in_session.
Print Assumptions C44_data_unchanged.
Print Assumptions C44_reopened_partial.
Print Assumptions C46_cut_partial.
Print Assumptions C46_earlier_samples_survive_partial.
Print Assumptions C46_length_of_cut_data_refuted.
Print Assumptions C50_exact.
Print Assumptions C50_structure.
Print Assumptions C50_no_metadata_refuted.
Print Assumptions C51_reads_are_local.
Print Assumptions C52_open_iff.
Print Assumptions C52_segments_determine_index.
