(** * Claim C106: a file that grows while it is read *)
From Coq Require Import Strings.String.
From Verif Require Import Base Lib DataTypes MetaData Maps DataBlock Index RawData ChannelReader TdmsFile
  SpecIndex SpecSession SpecRead SpecWrite Maps_proofs Index_proofs Plan_proofs Open_proofs Session_proofs History_proofs
  Program_proofs Cut_proofs Persist_proofs Verdict_proofs SpecBegin Vectors Thm_Open Thm_Index Thm_Read Thm_Persist Thm_Begin.
Close Scope string_scope.

Local Notation a := (ch "g" "a").
Local Notation b := (ch "g" "b").

Lemma accepted_unique E H ix : accepted E H ix -> forall ix', accepted E H ix' -> ix = ix'.
Proof.
  induction 1 as [|H ix s ix1 n A IH Ad]; intros ix' A'.
  - inversion A' as [|H0 x s0 y m A0 Ad0 Q]; [reflexivity|]. destruct H0; discriminate.
  - inversion A' as [Q|H0 x s0 y m A0 Ad0 Q]; [destruct H; discriminate|]. apply app_inj_tail in Q. destruct Q as [-> ->].
    rewrite <- (IH _ A0) in Ad0. congruence.
Qed.
Lemma accepted_grown E K : forall H ix, accepted E (H ++ K) ix -> exists ix0, accepted E H ix0 /\ grown ix0 ix.
Proof.
  induction K as [|s K IH] using rev_ind; intros H ix A; [rewrite app_nil_r in A; exists ix; split; [exact A|apply grown_refl]|].
  rewrite app_assoc in A. inversion A as [Q|H0 x s0 y m A0 Ad0 Q]; [destruct (H ++ K); discriminate|].
  apply app_inj_tail in Q. destruct Q as [-> ->]. destruct (IH _ _ A0) as [ix0 [A1 G1]]. exists ix0. split; [exact A1|].
  apply (grown_trans _ _ _ G1). pose proof (segment_grown E x s) as G. now rewrite Ad0 in G.
Qed.
Lemma opened_accepted E f F : tdms_new E f = Ok F -> tf_bytes F = f /\ exists H, file_segments E f H /\ accepted E H (tf_ix F).
Proof.
  intros O. pose proof (open_outcome E f) as Q. rewrite O in Q. destruct Q as [B [H [G [A En]]]]. split; [exact B|]. exists H.
  split; [|exact A]. split; [|exact En]. intros i s Hi. destruct (G i s Hi) as [X [Y _]]. auto.
Qed.

(** The segments found before are the first of those found later. *)
Theorem C106_segments : forall E f x F G H K,
  tdms_new E f = Ok F -> tdms_new E (f ++ x) = Ok G -> file_segments E f H -> file_segments E (f ++ x) K ->
  exists more, K = H ++ more.
Proof.
  intros E f x F G H K O1 O2 S1 S2. destruct (C104_exactly E (f ++ x) G K (length f) O2 S2) as [i [Li [W [Nw [Bad Good]]]]].
  rewrite firstn_app, Nat.sub_diag in Bad, Good. cbn [firstn] in Bad, Good. rewrite app_nil_r, firstn_all in Bad, Good.
  assert (D : (i = length K \/ N.of_nat (length f) < offset (firstn i K) + 4) \/ ((i < length K)%nat /\ offset (firstn i K) + 4 <= N.of_nat (length f))).
  { destruct (Nat.eq_dec i (length K)) as [Q|Q]; [now left; left|]. destruct (N.lt_ge_cases (N.of_nat (length f)) (offset (firstn i K) + 4)) as [X|X]; [now left; right|].
    right. split; [lia|exact X]. }
  destruct D as [D|[D1 D2]]; [|rewrite (Bad D1 D2) in O1; discriminate].
  destruct (Good D) as [F' [O' [S' _]]]. exists (skipn i K). rewrite (file_segments_unique E f H (firstn i K) S1 S'). now rewrite firstn_skipn.
Qed.
Lemma reopened_grown E f x F G : tdms_new E f = Ok F -> tdms_new E (f ++ x) = Ok G -> grown (tf_ix F) (tf_ix G).
Proof.
  intros O1 O2. destruct (opened_accepted _ _ _ O1) as [_ [H [S1 A1]]]. destruct (opened_accepted _ _ _ O2) as [_ [K [S2 A2]]].
  destruct (C106_segments _ _ _ _ _ _ _ O1 O2 S1 S2) as [more ->]. destruct (accepted_grown E more H _ A2) as [ix0 [A0 Gr]].
  now rewrite (accepted_unique _ _ _ A1 _ A0).
Qed.

(** ** A file opened before it grew: successful reads give the same as before *)
Theorem C106_open_file : forall E f x F t,
  tdms_new E f = Ok F ->
  (forall p start out out', read_channel_from E F t p start out = (out', Ok tt) ->
     read_channel_from E (mkTF (tf_ix F) (f ++ x)) t p start out = (out', Ok tt))
  /\ (forall chans start outs outs', read_channels_from E F t chans start outs = (outs', Ok tt) ->
     read_channels_from E (mkTF (tf_ix F) (f ++ x)) t chans start outs = (outs', Ok tt)).
Proof.
  intros E f x F t O. apply tdms_new_ok in O. destruct O as [_ B]. split.
  - intros p start out out' Rd. unfold read_channel_from in *. cbn [tf_ix tf_bytes]. rewrite B in Rd.
    destruct (get_positions (tf_ix F) p) as [ls|]; [|discriminate]. destruct (read_plan [ls] [start]) as [plan|e|e|]; try discriminate.
    unfold execute_read_plan in *. destruct (execute E f t (tf_ix F) plan _ _) as [o r] eqn:Ex. injection Rd as Q ->.
    rewrite (execute_same E f x t _ _ (grown_refl _) _ _ _ _ Ex). now rewrite Q.
  - intros chans start outs outs' Rd. unfold read_channels_from, ix_read_channels_from in *. cbn [tf_ix tf_bytes]. rewrite B in Rd.
    destruct (bind _ _) as [plan|e|e|]; cbn [recast] in *; try discriminate. unfold execute_read_plan in *.
    now apply (execute_same E f x t _ _ (grown_refl _)).
Qed.

(** ** A file opened again after it grew *)
(** All it knew is still known: blocks, objects and locations. *)
Theorem C106_known : forall E f x F G,
  tdms_new E f = Ok F -> tdms_new E (f ++ x) = Ok G ->
  (exists bs, ix_blocks (tf_ix G) = ix_blocks (tf_ix F) ++ bs)
  /\ forall p ls, get_positions (tf_ix F) p = Some ls -> exists more, get_positions (tf_ix G) p = Some (ls ++ more).
Proof.
  intros E f x F G O1 O2. destruct (reopened_grown _ _ _ _ _ O1 O2) as [B L]. split; [exact B|].
  intros p ls Q. destruct (L p ls Q) as [more [Q' _]]. eauto.
Qed.
(** A read that succeeded gives the same values again, perhaps more after them. *)
Theorem C106_values : forall E f x F G t p start out0 out0',
  tdms_new E f = Ok F -> tdms_new E (f ++ x) = Ok G ->
  read_channel_from E F t p start out0 = (out0', Ok tt) ->
  exists vs more r,
    (length vs + length more <= length out0)%nat
    /\ (forall out, length out = length out0 ->
          read_channel_from E F t p start out = (vs ++ skipn (length vs) out, Ok tt)
          /\ read_channel_from E G t p start out = (vs ++ more ++ skipn (length vs + length more) out, r))
    /\ (0 < length out0 -> length vs = length out0 -> r = Ok tt)%nat.
Proof.
  intros E f x F G t p start out0 out0' O1 O2. pose proof (tdms_new_ok _ _ _ O1) as [_ B1]. pose proof (tdms_new_ok _ _ _ O2) as [_ B2].
  apply (values_stay E F G x); [now apply (opened_inv E f)|now apply (reopened_grown E f x)|now rewrite B1, B2].
Qed.
(** ** As long as no further segment has begun, opening again is not needed *)
Theorem C106_same_file : forall E f x F G H K,
  tdms_new E f = Ok F -> tdms_new E (f ++ x) = Ok G -> file_segments E f H -> file_segments E (f ++ x) K ->
  (length K = length H <-> G = mkTF (tf_ix F) (f ++ x)).
Proof.
  intros E f x F G H K O1 O2 S1 S2. destruct (C106_segments _ _ _ _ _ _ _ O1 O2 S1 S2) as [more ->].
  destruct (opened_accepted _ _ _ O1) as [_ [H1 [S1' A1]]]. rewrite (file_segments_unique _ _ _ _ S1' S1) in A1. clear S1' H1.
  destruct (opened_accepted _ _ _ O2) as [B2 [K1 [S2' A2]]]. rewrite (file_segments_unique _ _ _ _ S2' S2) in A2. clear S2' K1.
  split.
  - intros L. rewrite app_length in L. assert (more = []) by (destruct more; [reflexivity|cbn [length] in L; lia]). subst more.
    rewrite app_nil_r in A2. rewrite (accepted_unique _ _ _ A1 _ A2). destruct G as [ix g]. cbn [tf_ix tf_bytes] in *. now rewrite B2.
  - intros ->. cbn [tf_ix] in A2. destruct (accepted_described _ _ _ A1) as [_ [D1 _]]. destruct (accepted_described _ _ _ A2) as [_ [D2 _]].
    rewrite D1, offset_app in D2. pose proof (offset_grows more (offset H)) as G. rewrite <- D2 in G.
    destruct more; [now rewrite app_nil_r|]. rewrite lenN_cons in G. lia.
Qed.

(** ** A reader beside a writer *)
(** Whatever program writes a file, and whenever a reader opens it: what was
    read once is read again by every later opening that succeeds. *)
Theorem C106_beside_writer : forall E F0 cs n1 n2 F G t p start out0 out0',
  let final := tf_bytes (fst (run_calls E F0 cs)) in
  (n1 <= n2)%nat ->
  tdms_new E (firstn n1 final) = Ok F -> tdms_new E (firstn n2 final) = Ok G ->
  read_channel_from E F t p start out0 = (out0', Ok tt) ->
  exists vs more r,
    (length vs + length more <= length out0)%nat
    /\ (forall out, length out = length out0 ->
          read_channel_from E F t p start out = (vs ++ skipn (length vs) out, Ok tt)
          /\ read_channel_from E G t p start out = (vs ++ more ++ skipn (length vs + length more) out, r))
    /\ (0 < length out0 -> length vs = length out0 -> r = Ok tt)%nat.
Proof.
  intros E F0 cs n1 n2 F G t p start out0 out0' final L O1 O2. apply (C106_values E (firstn n1 final) (skipn n1 (firstn n2 final))); [exact O1|].
  replace (firstn n1 final) with (firstn n1 (firstn n2 final)) by (rewrite firstn_firstn; f_equal; lia). rewrite firstn_skipn. exact O2.
Qed.

(** ** Cases *)
(** Two calls; a reader opens the file between them, while the metadata of the
    second arrive, while its last value is missing, and when all is there. *)
Definition follow_calls : list call :=
  [CallChans LittleE SI32 [a] [1; 2; 3]%Z Contigious; CallChans LittleE SI32 [b; a] [14; 15; 4; 5]%Z Contigious].
Definition follow_final : list byte := tf_bytes (fst (run_calls dbg empty_file follow_calls)).
Example C106_case :
  length follow_final = 200%nat
  /\ (exists F, tdms_new dbg (firstn 80 follow_final) = Ok F /\ read_channel_from dbg F SI32 a 0 [0; 0; 0; 0; 0]%Z = ([1; 2; 3; 0; 0]%Z, Ok tt)
       /\ read_channel_from dbg (mkTF (tf_ix F) follow_final) SI32 a 0 [0; 0; 0; 0; 0]%Z = ([1; 2; 3; 0; 0]%Z, Ok tt))
  /\ tdms_new dbg (firstn 100 follow_final) = Err (EIo UnexpectedEof)
  /\ (exists F G, tdms_new dbg (firstn 196 follow_final) = Ok F /\ tdms_new dbg follow_final = Ok G
       /\ read_channel_from dbg F SI32 b 0 [0; 0]%Z = ([14; 15]%Z, Ok tt)
       /\ read_channel_from dbg F SI32 a 0 [0; 0; 0; 0; 0]%Z = ([1; 2; 3; 4; 0]%Z, Err (EIo UnexpectedEof))
       /\ read_channel_from dbg (mkTF (tf_ix F) follow_final) SI32 a 0 [0; 0; 0; 0; 0]%Z = ([1; 2; 3; 4; 5]%Z, Ok tt)
       /\ G = mkTF (tf_ix F) follow_final).
Proof.
  split; [vm_compute; reflexivity|]. split.
  { exists (open_bytes dbg (firstn 80 follow_final)). do 2 (split; [vm_compute; reflexivity|]). vm_compute; reflexivity. }
  split; [vm_compute; reflexivity|].
  exists (open_bytes dbg (firstn 196 follow_final)), (open_bytes dbg follow_final).
  do 5 (split; [vm_compute; reflexivity|]). vm_compute. reflexivity.
Qed.

Print Assumptions C106_segments.
Print Assumptions C106_open_file.
Print Assumptions C106_known.
Print Assumptions C106_values.
Print Assumptions C106_same_file.
Print Assumptions C106_beside_writer.
