(** * C99 Files can be joined end to end *)
From Coq Require Import Strings.String.
From Verif Require Import Base Lib DataTypes MetaData Maps DataBlock Index RawData ChannelReader TdmsFile Vectors
  SpecCodec SpecIndex SpecSession SpecRead SpecWrite SpecLocal SpecVerdict SpecJoin Maps_proofs Codec_proofs Segment_proofs Parse_proofs Index_proofs History_proofs
  Session_proofs Open_proofs Verdict_proofs Block_proofs Request_proofs Plan_proofs Read_proofs Add_proofs Thm_Index Thm_Read Write_proofs Reopen_proofs Step_proofs Program_proofs Join_proofs.
Close Scope string_scope.
Local Notation a := (ch "g" "a").
Local Notation b := (ch "g" "b").

(** The segments of the joined bytes are those of both files. *)
Theorem C99_segments : forall E f g H K,
  file_segments E f H -> offset H = lenN f -> file_segments E g K -> offset (H ++ K) <= seek_max E ->
  file_segments E (f ++ g) (H ++ K).
Proof. intros. now apply segments_join. Qed.

(** The joined bytes open, if every segment with data finds its channel list. *)
Theorem C99_opens : forall E f F H g G K,
  tdms_new E f = Ok F -> file_segments E f H -> offset H = lenN f ->
  tdms_new E g = Ok G -> file_segments E g K -> lists_agree H K ->
  offset (H ++ K) < 2 ^ 64 -> offset (H ++ K) <= seek_max E ->
  exists J, tdms_new E (f ++ g) = Ok J.
Proof.
  intros E f F H g G K OF SF Ho OG SG Ag L1 L2.
  destruct (join_opens E f g F G H K OF SF OG SG Ho Ag L1 L2) as [J [OJ _]]. eauto.
Qed.

Section Answers.
Context (E : env) (f g : list byte) (F G J : tfile) (H K : list segment).
Context (OF : tdms_new E f = Ok F) (SF : file_segments E f H) (Ho : offset H = lenN f).
Context (OG : tdms_new E g = Ok G) (SG : file_segments E g K) (Ag : lists_agree H K).
Context (OJ : tdms_new E (f ++ g) = Ok J) (Lm : offset (H ++ K) <= seek_max E).

Lemma joined_session : session E (H ++ K) J.
Proof. eapply ss_open; [|exact OJ]. now apply C99_segments. Qed.
Lemma first_session : session E H F.
Proof. eapply ss_open; eauto. Qed.
Lemma second_session : session E K G.
Proof. eapply ss_open; eauto. Qed.
Lemma mentioned_join p : mentioned (all_objs (H ++ K)) p <-> mentioned (all_objs H) p \/ mentioned (all_objs K) p.
Proof. unfold mentioned. rewrite all_objs_app, map_app. apply in_app_iff. Qed.
End Answers.

Lemma property_from E H F p n : session E H F -> read_property F p n =
  if existsb (str_eqb p) (map om_path (all_objs H)) then Ok (last_prop (all_objs H) p n) else Err (EMissingObject p).
Proof.
  intros Se. apply session_any in Se. apply any_session_told in Se. destruct Se as [_ [Hk [_ Hp]]].
  specialize (Hk p). unfold known in Hk. unfold read_property. rewrite get_property_spec, Hp.
  destruct (existsb (str_eqb p) (map om_path (all_objs H))) eqn:X.
  - apply existsb_str in X. destruct (map_get p (ix_objs (tf_ix F))); [reflexivity|]. exfalso. now apply Hk.
  - destruct (map_get p (ix_objs (tf_ix F))) eqn:G; [|reflexivity]. exfalso.
    assert (M : mentioned (all_objs H) p) by (apply Hk; discriminate). apply existsb_str in M. congruence.
Qed.
Lemma step_from n kvs : forall acc, fold_left (prop_step n) kvs acc
  = match fold_left (prop_step n) kvs None with Some v => Some v | None => acc end.
Proof.
  induction kvs as [|kv kvs IH]; intros acc; cbn [fold_left]; [reflexivity|].
  rewrite IH, (IH (prop_step n None kv)). destruct (fold_left (prop_step n) kvs None); [reflexivity|].
  unfold prop_step. destruct (str_eqb n (fst kv)); reflexivity.
Qed.
Lemma prop_from os p n : forall acc, fold_left (prop_obj p n) os acc
  = match last_prop os p n with Some v => Some v | None => acc end.
Proof.
  unfold last_prop. induction os as [|o os IH]; intros acc; cbn [fold_left]; [reflexivity|].
  rewrite IH, (IH (prop_obj p n None o)). destruct (fold_left (prop_obj p n) os None); [reflexivity|].
  unfold prop_obj. destruct (str_eqb p (om_path o)); [apply step_from|reflexivity].
Qed.
Lemma prop_join H K p n : last_prop (all_objs (H ++ K)) p n
  = match last_prop (all_objs K) p n with Some v => Some v | None => last_prop (all_objs H) p n end.
Proof. rewrite all_objs_app. unfold last_prop at 1. rewrite fold_left_app. apply prop_from. Qed.
Lemma last_prop_unmentioned os p n : existsb (str_eqb p) (map om_path os) = false -> last_prop os p n = None.
Proof.
  unfold last_prop. induction os as [|o os IH]; intros Q; [reflexivity|]. cbn [map existsb fold_left] in *.
  apply orb_false_iff in Q. destruct Q as [Q1 Q2]. unfold prop_obj at 2. rewrite Q1. now apply IH.
Qed.

(** Properties: the later file wins. *)
Theorem C99_properties : forall E f F H g G K J p n,
  tdms_new E f = Ok F -> file_segments E f H -> offset H = lenN f ->
  tdms_new E g = Ok G -> file_segments E g K ->
  tdms_new E (f ++ g) = Ok J -> offset (H ++ K) <= seek_max E ->
  read_property J p n = later (read_property F p n) (read_property G p n).
Proof.
  intros E f F H g G K J p n OF SF Ho OG SG OJ Lm.
  rewrite (property_from E H F p n (first_session E f F H OF SF)), (property_from E K G p n (first_session E g G K OG SG)).
  rewrite (property_from E (H ++ K) J p n (joined_session E f g J H K SF Ho SG OJ Lm)).
  rewrite prop_join, all_objs_app, map_app, existsb_app.
  pose proof (last_prop_unmentioned (all_objs K) p n) as UK. pose proof (last_prop_unmentioned (all_objs H) p n) as UH.
  destruct (existsb (str_eqb p) (map om_path (all_objs K))), (existsb (str_eqb p) (map om_path (all_objs H)));
    cbn [orb later]; try rewrite (UK eq_refl); try rewrite (UH eq_refl); try reflexivity.
  all: destruct (last_prop (all_objs K) p n); reflexivity.
Qed.

(** Lengths add up. *)
Theorem C99_lengths : forall E f F H g G K J p nf ng,
  tdms_new E f = Ok F -> file_segments E f H -> offset H = lenN f ->
  tdms_new E g = Ok G -> file_segments E g K -> lists_agree H K ->
  tdms_new E (f ++ g) = Ok J -> offset (H ++ K) <= seek_max E ->
  length_after H p + length_after K p < 2 ^ 64 ->
  channel_length E F p = Ok nf -> channel_length E G p = Ok ng ->
  channel_length E J p = Ok (both nf ng).
Proof.
  intros E f F H g G K J p nf ng OF SF Ho OG SG Ag OJ Lm L64 LF LG.
  destruct (opened_ix E g G K OG SG) as [AK _].
  pose proof (C19_channel_length E H F p (first_session E f F H OF SF)) as [F1 F2].
  pose proof (C19_channel_length E K G p (first_session E g G K OG SG)) as [G1 G2].
  pose proof (C19_channel_length E (H ++ K) J p (joined_session E f g J H K SF Ho SG OJ Lm)) as [J1 J2].
  rewrite (length_join E H K _ p AK Ag) in J1. rewrite mentioned_join in J1, J2.
  assert (Zero : forall E0 H0 F0, session E0 H0 F0 -> ~ mentioned (all_objs H0) p -> length_after H0 p = 0).
  { intros E0 H0 F0 Se Nm. destruct (session_accepted _ _ _ Se) as [Ac Pl]. rewrite <- (accepted_length _ _ _ Ac Pl p).
    destruct (C14_incremental _ _ _ Se) as [_ [_ [_ [_ [_ X]]]]]. specialize (X p Nm). unfold get_positions in X.
    unfold old_locs. destruct (map_get p (ix_objs (tf_ix F0))); [discriminate|reflexivity]. }
  assert (D : forall os, mentioned os p \/ ~ mentioned os p).
  { intros os. unfold mentioned. destruct (existsb (str_eqb p) (map om_path os)) eqn:X; [left; now apply existsb_str|].
    right. intros Y. apply existsb_str in Y. congruence. }
  destruct (D (all_objs H)) as [MH|MH], (D (all_objs K)) as [MK|MK].
  - rewrite (F1 ltac:(lia) MH) in LF. rewrite (G1 ltac:(lia) MK) in LG. injection LF as <-. injection LG as <-.
    rewrite J1 by (tauto || lia). reflexivity.
  - rewrite (F1 ltac:(lia) MH) in LF. rewrite (proj1 G2 MK) in LG. injection LF as <-. injection LG as <-.
    rewrite J1 by (tauto || lia). rewrite (Zero E K G (first_session E g G K OG SG) MK). reflexivity.
  - rewrite (proj1 F2 MH) in LF. rewrite (G1 ltac:(lia) MK) in LG. injection LF as <-. injection LG as <-.
    rewrite J1 by (tauto || lia). rewrite (Zero E H F (first_session E f F H OF SF) MH). reflexivity.
  - rewrite (proj1 F2 MH) in LF. rewrite (proj1 G2 MK) in LG. injection LF as <-. injection LG as <-.
    apply J2. tauto.
Qed.

(** Reads give the samples of the first file, then those of the second. *)
Theorem C99_reads : forall E f F H g G K J t p start out,
  tdms_new E f = Ok F -> file_segments E f H -> offset H = lenN f ->
  tdms_new E g = Ok G -> file_segments E g K -> lists_agree H K ->
  tdms_new E (f ++ g) = Ok J -> offset (H ++ K) <= seek_max E -> addressable E (f ++ g) ->
  fixed t -> mentioned (all_objs H) p \/ mentioned (all_objs K) p -> stored f t H p -> stored g t K p ->
  read_channel_from E J t p start out
  = (overlay out (firstn (length out) (skipn (N.to_nat start) (samples_after f t H p ++ samples_after g t K p))), Ok tt).
Proof.
  intros E f F H g G K J t p start out OF SF Ho OG SG Ag OJ Lm Ad Fx M S1 S2.
  assert (Eb : tf_bytes J = f ++ g) by (apply tdms_new_iff in OJ; tauto).
  rewrite <- (join_samples E f g F G H K OF SF OG SG Ho Ag t p S1 S2), <- Eb.
  apply C28_window; rewrite ?Eb; auto.
  - exact (joined_session E f g J H K SF Ho SG OJ Lm).
  - now apply mentioned_join.
  - exact (join_stored E f g G H K OG SG Ho Ag t p S1 S2).
Qed.

(** The second file can follow every file exactly if it has its own channel
    lists; a file without channels can be followed by every file. *)
Theorem C99_own_lists : forall E K,
  own_lists K <-> forall H ix, accepted E H ix -> Forall plain H -> lists_agree H K.
Proof. intros E K. split; [intros O H ix _ _; now apply own_agree|apply agree_own]. Qed.
Theorem C99_no_channels : forall H K, active_after H = [] -> lists_agree H K.
Proof. exact inactive_agree. Qed.

(** If it has not, and counts samples where it lacks one, some file takes
    samples away from it. *)
Theorem C99_loses : forall E g G K A s B p,
  tdms_new E g = Ok G -> file_segments E g K ->
  K = A ++ s :: B -> ~ Exists (fun s => toc_newlist (sg_toc s) = true) (A ++ [s]) -> counts A s p ->
  exists H ix, accepted E H ix /\ Forall plain H
    /\ length_after (H ++ K) p < length_after H p + length_after K p.
Proof.
  intros E g G K A s B p OG SG Ek Nl Ct. destruct (opened_ix E g G K OG SG) as [AK _].
  destruct (unused (p :: map om_path (all_objs K))) as [x Nx]. cbn [In] in Nx.
  assert (Bd : Forall (fun s => sg_next s < 2 ^ 64 - 1) K).
  { destruct (accepted_described _ _ _ AK) as [_ [Hn _]]. clear -AK. induction AK as [|K ix u ix' n AK IH Ha]; [constructor|].
    apply Forall_app. split; [exact IH|]. constructor; [|constructor].
    destruct (accepted_described _ _ _ AK) as [Iv _]. destruct (add_next _ _ _ _ _ Iv Ha) as [-> [Hl _]].
    unfold two64 in Hl. lia. }
  destruct (one_accepted E x (2 ^ 64 - 1) ltac:(split; reflexivity)) as [ix [Ac P]].
  exists [one_seg x (2 ^ 64 - 1)], ix. split; [exact Ac|]. split; [exact P|].
  assert (Np : p <> x) by (intros ->; tauto).
  rewrite (one_length x p (2 ^ 64 - 1) eq_refl Np). rewrite N.add_0_l.
  refine (proj2 (joined_less E x p (2 ^ 64 - 1) eq_refl Np K _ AK _ Bd) A s B Ek Nl Ct). tauto.
Qed.

(** ** Files written by the library *)
Lemma offset_cons s K : offset (s :: K) = 28 + sg_next s + offset K.
Proof. change (s :: K) with ([s] ++ K). rewrite offset_join. unfold offset at 1. cbn [fold_left]. lia. Qed.
Lemma own_cons s K : toc_newlist (sg_toc s) = true \/ (toc_raw (sg_toc s) = false /\ own_lists K) -> own_lists (s :: K).
Proof.
  intros [Nl|[R Ow]] A u B Ek Ru; destruct A as [|v A]; cbn [app] in Ek; injection Ek as <- Ek.
  - constructor. exact Nl.
  - constructor. exact Nl.
  - congruence.
  - apply Exists_cons_tl. now apply (Ow A u B).
Qed.
Lemma written_own E : forall cs F F' rs, Forall (good_call E) cs -> run_calls E F cs = (F', rs) -> Forall (fun r => r = Ok tt) rs ->
  inv (tf_ix F) -> ix_next (tf_ix F) = lenN (tf_bytes F) -> map a_path (ix_active (tf_ix F)) = [] ->
  forall K, (forall i s, nth_error K i = Some s -> segment_read E (tf_bytes F') (lenN (tf_bytes F) + offset (firstn i K)) = Ok s) ->
  own_lists K.
Proof.
  induction cs as [|c cs IH]; intros F F' rs Gc Er Oks Iv Hn Ha K Rd.
  - injection Er as <- <-. destruct K as [|s K]; [intros A s B Ek; destruct A; discriminate|].
    specialize (Rd 0%nat s eq_refl). cbn [firstn] in Rd. change (offset []) with 0 in Rd. apply segment_read_len in Rd. lia.
  - inversion Gc as [|? ? Gc1 Gc2]; subst. cbn [run_calls] in Er.
    destruct (do_call E F c) as [F1 x] eqn:Ec. destruct (run_calls E F1 cs) as [F2 xs] eqn:Er2. injection Er as <- <-.
    inversion Oks as [|? ? Ox Oks2]; subst.
    destruct K as [|s K]; [intros A s B Ek; destruct A; discriminate|].
    destruct (run_grows E cs F1 F2 xs Er2) as [more Em].
    destruct (call_emits E F c F1 Ec) as [e [tc [m [d [n [Eb [Ad C]]]]]]].
    destruct (add_next _ _ _ _ _ Iv Ad) as [En [Hlt [En' Ha']]].
    assert (Lg : legible E F c).
    { destruct c; [exact Logic.I|]. left. rewrite Ha. intros [X _]. congruence. }
    assert (Nc : ~ leaves_out (map a_path (ix_active (tf_ix F))) c).
    { destruct c; cbn [leaves_out]; [tauto|]. rewrite Ha. intros [X _]. congruence. }
    destruct (call_read E F c F1 Iv Hn Gc1 Lg Ec) as [s1 [m1 [n1 [R1 [Sm [Ad1 [L1 _]]]]]]].
    destruct (add_next _ _ _ _ _ Iv Ad1) as [En1 _].
    assert (Es : s = s1 /\ s1 = snd (write_segment e tc m d)).
    { pose proof (Rd 0%nat s eq_refl) as R0. cbn [firstn] in R0. change (offset []) with 0 in R0. rewrite N.add_0_r, Em in R0.
      rewrite (segment_read_extend E _ more _ _ R1) in R0. split; [congruence|].
      pose proof (good_call_meta E F c Gc1) as Gm.
      destruct m as [m|].
      - assert (Gm' : good_meta E m).
        { destruct c as [e0 path kvs|e0 t chans vs lay].
          + destruct C as [_ [_ [C _]]]. injection C as ->. exact Gm.
          + destruct C as [_ [_ [_ [_ [omit [_ [C _]]]]]]]. destruct omit; [discriminate|]. injection C as ->. exact Gm. }
        pose proof (segment_round_trip E e tc m d (tf_bytes F) [] Gm') as RT. rewrite app_nil_r, <- Eb in RT.
        rewrite RT in R1; [congruence|].
        assert (Hs : sg_next (snd (write_segment e tc (Some m) d)) = metadata_size m + match d with Some d => wb_size d | None => 0 end) by reflexivity.
        rewrite <- Hs. unfold two64 in Hlt. lia.
      - exfalso. destruct c as [e0 path kvs|e0 t chans vs lay]; [destruct C as [_ [_ [C _]]]; discriminate|].
        destruct C as [_ [_ [_ [_ [omit [_ [C Om]]]]]]]. destruct omit; [|discriminate]. now apply Nc, Om. }
    destruct Es as [-> Es]. apply own_cons.
    destruct c as [e0 path kvs|e0 t chans vs lay].
    + right. destruct C as [-> [-> [-> ->]]]. split; [now rewrite Es|].
      apply (IH F1 F2 xs); auto.
      * pose proof (add_segment_inv E (tf_ix F) s1 Iv) as X. rewrite Ad1 in X. exact X.
      * rewrite En', L1. congruence.
      * rewrite Ha', Ha. reflexivity.
      * intros i u Hu. specialize (Rd (S i) u Hu). cbn [firstn] in Rd. rewrite offset_cons in Rd.
        rewrite L1, En1, Hn. replace (lenN (tf_bytes F) + 28 + sg_next s1 + offset (firstn i K))
          with (lenN (tf_bytes F) + (28 + sg_next s1 + offset (firstn i K))) by lia. exact Rd.
    + left. destruct C as [_ [_ [-> [-> [omit [-> [-> Om]]]]]]]. destruct omit; [exfalso; now apply Nc, Om|]. now rewrite Es.
Qed.

(** Every file written by successful calls has its own channel lists. *)
Theorem C99_written : forall E cs F rs K,
  Forall (good_call E) cs -> run_calls E empty_file cs = (F, rs) -> Forall (fun r => r = Ok tt) rs ->
  file_segments E (tf_bytes F) K -> own_lists K.
Proof.
  intros E cs F rs K Gc Er Oks [Rd _]. apply (written_own E cs empty_file F rs Gc Er Oks); auto.
  - apply inv_new.
  - intros i s Hi. change (lenN (tf_bytes empty_file)) with 0. rewrite N.add_0_l. now apply Rd.
Qed.

(** ** Cases *)
Definition C99_f : list byte := tf_bytes (fst (write_channels dbg SI32 empty_file [a] [1; 2]%Z Interleaved)).
Definition C99_g : list byte := tf_bytes (fst (write_channels dbg SI32 (fst (write_properties dbg empty_file a [(B "k", PI32 7)]))
  [a; b] [3; 4; 5; 6]%Z Interleaved)).
(** As a program may write it that does not set the flag in its first segment. *)
Definition C99_h : list byte := fst (write_segment LittleE (mkToc false false false false false false)
  (Some [mkObj b [] (RIRaw (mkRaw I32 2 None))]) (Some (mkWB 8 (concat (map (enc LittleE SI32) [8; 9]%Z))))).

(** The claim without its condition is false: the second file is read on its
    own, but behind the first its samples are lost. *)
Theorem C99_any_file_refuted : exists f F g G J,
  tdms_new dbg f = Ok F /\ ix_next (tf_ix F) = lenN f /\ tdms_new dbg g = Ok G /\ tdms_new dbg (f ++ g) = Ok J
  /\ channel_length dbg F b = Ok None /\ channel_length dbg G b = Ok (Some 2) /\ channel_length dbg J b = Ok (Some 0).
Proof.
  exists C99_f, (open_bytes dbg C99_f), C99_h, (open_bytes dbg C99_h), (open_bytes dbg (C99_f ++ C99_h)).
  do 6 (split; [vm_compute; reflexivity|]). vm_compute. reflexivity.
Qed.

Lemma some_is {A} (x y : A) : Some x = Some y -> x = y.
Proof. congruence. Qed.
Definition seg_at (f : list byte) (p : N) : segment :=
  match segment_read dbg f p with Ok s => s | _ => mkSeg toc_default 0 0 None end.
Definition C99_H : list segment := [seg_at C99_f 0].
Definition C99_K : list segment := [seg_at C99_g 0; seg_at C99_g (28 + sg_next (seg_at C99_g 0))].
Definition C99_J : tfile := open_bytes dbg (C99_f ++ C99_g).

Example C99_case :
  tdms_new dbg C99_f = Ok (open_bytes dbg C99_f) /\ file_segments dbg C99_f C99_H /\ offset C99_H = lenN C99_f
  /\ tdms_new dbg C99_g = Ok (open_bytes dbg C99_g) /\ file_segments dbg C99_g C99_K /\ own_lists C99_K
  /\ tdms_new dbg (C99_f ++ C99_g) = Ok C99_J
  /\ offset (C99_H ++ C99_K) <= seek_max dbg /\ offset (C99_H ++ C99_K) < 2 ^ 64
  /\ channel_length dbg C99_J a = Ok (Some 4) /\ channel_length dbg C99_J b = Ok (Some 2)
  /\ read_property C99_J a (B "k") = Ok (Some (PI32 7))
  /\ read_channel dbg C99_J SI32 a [0; 0; 0; 0; 0]%Z = ([1; 2; 3; 5; 0]%Z, Ok tt).
Proof.
  assert (Two : forall f K, length K = 2%nat -> (forall s, nth_error K 0 = Some s -> segment_read dbg f 0 = Ok s) ->
     (forall s, nth_error K 1 = Some s -> segment_read dbg f (offset (firstn 1 K)) = Ok s /\ offset (firstn 1 K) <= seek_max dbg) ->
     lenN f < offset K + 4 -> file_segments dbg f K).
  { intros f K L A0 A1 Le. split; [|now left]. intros [|[|i]] s Hi.
    - split; [now apply A0|]. vm_compute. discriminate.
    - now apply A1.
    - assert (nth_error K (S (S i)) <> None) as X by congruence. apply nth_error_Some in X. lia. }
  split; [vm_compute; reflexivity|]. split.
  { split; [|left; vm_compute; reflexivity]. intros [|i] s Hi; [|destruct i; discriminate]. apply some_is in Hi. subst s.
    split; [vm_compute; reflexivity|vm_compute; discriminate]. }
  split; [vm_compute; reflexivity|]. split; [vm_compute; reflexivity|]. split.
  { apply Two; [reflexivity| | |vm_compute; reflexivity]; intros s Hi; apply some_is in Hi; subst s.
    - vm_compute. reflexivity.
    - split; [vm_compute; reflexivity|vm_compute; discriminate]. }
  split.
  { apply own_cons. right. split; [vm_compute; reflexivity|]. apply own_cons. left. vm_compute. reflexivity. }
  split; [vm_compute; reflexivity|]. split; [vm_compute; discriminate|].
  do 4 (split; [vm_compute; reflexivity|]). vm_compute. reflexivity.
Qed.
Example C99_loses_case :
  tdms_new dbg C99_h = Ok (open_bytes dbg C99_h) /\ file_segments dbg C99_h ([] ++ seg_at C99_h 0 :: [])
  /\ ~ Exists (fun s => toc_newlist (sg_toc s) = true) ([] ++ [seg_at C99_h 0]) /\ counts [] (seg_at C99_h 0) b.
Proof.
  split; [vm_compute; reflexivity|]. split.
  { split; [|left; vm_compute; reflexivity]. intros [|i] s Hi; [|destruct i; discriminate]. apply some_is in Hi. subst s.
    split; [vm_compute; reflexivity|vm_compute; discriminate]. }
  split; [|split; vm_compute; reflexivity].
  intros X. inversion X as [? ? Y|? ? Y]; subst; [vm_compute in Y; discriminate|inversion Y].
Qed.

Print Assumptions C99_segments.
Print Assumptions C99_opens.
Print Assumptions C99_properties.
Print Assumptions C99_lengths.
Print Assumptions C99_reads.
Print Assumptions C99_own_lists.
Print Assumptions C99_no_channels.
Print Assumptions C99_loses.
Print Assumptions C99_written.
Print Assumptions C99_any_file_refuted.
