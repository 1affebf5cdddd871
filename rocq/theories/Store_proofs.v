(** * Programs of calls and queries: facts for claim C75 *)
From Verif Require Import Base Lib DataTypes Paths MetaData Maps_proofs DataBlock Index RawData ChannelReader TdmsFile
  SpecCodec SpecIndex SpecPaths SpecSession SpecRead SpecWrite SpecLocal
  Index_proofs History_proofs Open_proofs Session_proofs Paths_proofs Plan_proofs Read_proofs Add_proofs Write_proofs
  Step_proofs Program_proofs Reopen_proofs Vectors Thm_Open Thm_Index Thm_Paths Thm_Read Thm_Write Thm_Reopen SpecStore.

Lemma run_calls_snoc E cs : forall F c F1 rs F2 x, run_calls E F cs = (F1, rs) -> do_call E F1 c = (F2, x) ->
  run_calls E F (cs ++ [c]) = (F2, rs ++ [x]).
Proof.
  induction cs as [|c0 cs IH]; intros F c F1 rs F2 x R D; cbn [run_calls app] in *.
  - injection R as <- <-. now rewrite D.
  - destruct (do_call E F c0) as [G y]. destruct (run_calls E G cs) as [G2 ys] eqn:Q. injection R as <- <-.
    now rewrite (IH _ _ _ _ _ _ Q D).
Qed.
Lemma sequenced_app cs2 : forall cs1 prev, sequenced prev (cs1 ++ cs2) -> sequenced prev cs1.
Proof.
  induction cs1 as [|[e path kvs|e t chans vs lay] cs1 IH]; intros prev Sq; cbn [app sequenced] in *; [exact Logic.I|eauto|].
  destruct Sq as [G R]. split; [exact G|]. destruct prev as [[[d n] ch]|]; [|eauto].
  destruct R as [[A B]|[A [B [C D]]]]; [left|right]; eauto 6.
Qed.
Lemma remember_grows os : forall past, exists cs, fold_left remember os past = past ++ cs.
Proof.
  induction os as [|o os IH]; intros past; cbn [fold_left]; [exists []; now rewrite app_nil_r|].
  destruct (IH (remember past o)) as [cs Q]. rewrite Q. destruct o; cbn [remember]; eauto.
  destruct (refusal c); eauto. rewrite <- app_assoc. eauto.
Qed.

Lemma do_op_grows E F o F' x : do_op E F o = (F', x) -> exists bs, tf_bytes F' = tf_bytes F ++ bs.
Proof.
  assert (Same : F' = F -> exists bs, tf_bytes F' = tf_bytes F ++ bs) by (intros ->; exists []; now rewrite app_nil_r).
  destruct o; cbn [do_op]; intros D; try (injection D as <- _; now apply Same).
  - destruct (do_call E F c) as [G y] eqn:Q. injection D as <- _. now apply do_call_grows in Q.
  - destruct (tdms_new E (tf_bytes F)) as [G|y|y|] eqn:Q; injection D as <- _; try now apply Same.
    destruct (tdms_new_ok _ _ _ Q) as [_ ->]. exists []. now rewrite app_nil_r.
  - destruct (read_channel_from E F t p start out). injection D as <- _. now apply Same.
  - destruct (read_channels E F t chans outs). injection D as <- _. now apply Same.
Qed.
Lemma run_ops_grows E os : forall F F' xs, run_ops E F os = (F', xs) -> exists bs, tf_bytes F' = tf_bytes F ++ bs.
Proof.
  induction os as [|o os IH]; intros F F' xs R; cbn [run_ops] in R.
  - injection R as <- _. exists []. now rewrite app_nil_r.
  - destruct (do_op E F o) as [G y] eqn:Q. destruct (run_ops E G os) as [G2 ys] eqn:Q2. injection R as <- _.
    apply do_op_grows in Q. destruct Q as [b1 B1]. destruct (IH _ _ _ Q2) as [b2 B2].
    rewrite B2, B1, <- app_assoc. eauto.
Qed.

Lemma Forall2_len {A B} (R : A -> B -> Prop) l m : Forall2 R l m -> length l = length m.
Proof. induction 1; cbn [length]; congruence. Qed.

(** ** What is known about the file after some calls *)
Section Past.
Context (E : env) (F0 : tfile) (H0 : list segment) (sh : option shape_of).
Context (Op : tdms_new E (tf_bytes F0) = Ok F0) (Fs : file_segments E (tf_bytes F0) H0)
        (Ex : exact_end H0 F0) (Ls : last_shape H0 sh).
Notation og := (origin_of (tf_bytes F0) H0 sh).

Section Known.
Context (past : list call) (F : tfile) (rs : list (res unit)).
Context (Sq : sequenced sh past) (Er : run_calls E F0 past = (F, rs)) (Ad : addressable E (tf_bytes F)).

Lemma past_known : Forall (eq (Ok tt)) rs
  /\ exists H, session E H F
    /\ (forall p, mentioned (all_objs H) p <-> named og past p)
    /\ (forall p n, last_prop (all_objs H) p n = last_told og past p n)
    /\ (forall t p vs, holds og past t p vs ->
          stored (tf_bytes F) t H p /\ samples_after (tf_bytes F) t H p = vs).
Proof.
  destruct Ad as [A1 A2]. assert (A3 : lenN (tf_bytes F) < 2 ^ 64) by (etransitivity; [exact A1|reflexivity]).
  assert (Se0 : session E H0 F0) by (eapply ss_open; eauto).
  destruct (program E past H0 F0 F rs sh Se0 Ex Ls Sq Er A3) as [Rs [H [Se [_ [Men [Lp Sam]]]]]].
  split; [exact Rs|]. exists H. split; [exact Se|]. split; [exact Men|].
  split. { intros p n. rewrite Lp. reflexivity. }
  intros t p vs [vs0 [vss [[S0 ->] [G ->]]]]. destruct (Sam t p vss S0 G) as [_ [S1 Q]].
  split; [exact S1|exact Q].
Qed.

Lemma session_any H G : session E H G -> any_session E H G.
Proof. induction 1; [eapply as_open; eauto|eapply as_write; eauto|now apply as_bytes]. Qed.

Lemma query_ok o : (forall c, o <> OpCall c) -> o <> OpClose ->
  exists a, do_op E F o = (F, a) /\ expected og past o a.
Proof.
  intros Nc Nl. destruct past_known as [_ [H [Se [Men [Lp Sam]]]]].
  pose proof (session_any _ _ Se) as As.
  destruct o as [c| |p n|p|p| |g|t p start out|t chans outs]; cbn [do_op expected].
  - exfalso. now apply (Nc c).
  - exfalso. now apply Nl.
  - eexists. split; [reflexivity|]. destruct (property_value E H F p n As) as [P1 P2]. split; intros M.
    + rewrite P1, Lp by now apply Men. reflexivity.
    + rewrite P2; [reflexivity|]. now rewrite Men.
  - eexists. split; [reflexivity|]. destruct (C16_read_all E H F p As) as [P1 P2]. split; intros M.
    + destruct (read_all_properties F p) as [l|].
      * exists l. split; [reflexivity|]. destruct (P2 l eq_refl) as [Nd In2]. split; [exact Nd|]. intros n v. rewrite In2.
        rewrite (proj1 (property_value E H F p n As)), Lp by now apply Men. split; [now injection 1|now intros ->].
      * exfalso. apply (proj1 P1 eq_refl). now apply Men.
    + f_equal. apply P1. now rewrite Men.
  - eexists. split; [reflexivity|]. destruct (C19_channel_length E H F p Se) as [P1 P2]. split.
    + intros t vs M Fx Hv L. destruct (Sam t p vs Hv) as [_ Q].
      assert (Ln : length_after H p = lenN vs) by (rewrite <- (C36_samples_count (tf_bytes F) t H p), Q; reflexivity).
      rewrite Ln in P1. rewrite P1; [reflexivity|exact L|now apply Men].
    + intros M. f_equal. apply P2. now rewrite Men.
  - eexists. split; [reflexivity|]. intros Td.
    destruct (C25_list_groups E H F As) as [l [P1 [P2 [_ P3]]]].
    { intros p M. apply canonical_not_lone, Td, Men, M. }
    exists l. rewrite P1. split; [reflexivity|]. split; [exact P2|]. intros g. rewrite P3.
    split; intros [p [M G]]; exists p; (split; [now apply Men|exact G]).
  - eexists. split; [reflexivity|]. intros Td Ng.
    destruct (C26_list_channels E H F g As) as [l [P1 [P2 [_ P3]]]]; [intros p M; apply Td, Men, M|exact Ng|].
    exists l. rewrite P1. split; [reflexivity|]. split; [exact P2|]. intros x. rewrite P3. split.
    + intros [c [Nc' [-> M]]]. split; [now apply Men|eauto].
    + intros [M [c [Nc' ->]]]. exists c. split; [exact Nc'|]. split; [reflexivity|now apply Men].
  - destruct (read_channel_from E F t p start out) as [o r] eqn:R. eexists. split; [reflexivity|]. split; [|split].
    + intros vs M Fx Hv. destruct (Sam t p vs Hv) as [S1 Q].
      rewrite (C28_window E H F t p start out Se Fx Ad (proj2 (Men p) M) S1), Q in R. now injection R as <- <-.
    + intros t' vs Nm Fx Hv Lt Ne Dj. destruct (Sam t' p vs Hv) as [S1 Q].
      pose proof (locs_located H p) as Ll. pose proof (needed_samples (tf_bytes F) t' (blocks_after H) (locs_after H p) Ll start) as Nd.
      fold (samples_after (tf_bytes F) t' H p) in Nd. rewrite Q in Nd.
      pose proof (proj2 (Men p) Nm) as M.
      destruct (needed (locs_after H p) start) as [|[[j c] s] rest] eqn:Nq.
      { exfalso. cbn [map concat] in Nd. apply (f_equal (@length _)) in Nd. rewrite skipn_length in Nd. cbn [length] in Nd. unfold lenN in Lt. lia. }
      assert (Hin : In (j, c, s) (needed (locs_after H p) start)) by (rewrite Nq; now left).
      apply needed_in in Hin. destruct Hin as [l [Hl [Lb [Lc _]]]].
      unfold stored in S1. rewrite Forall_forall in S1. destruct (S1 l Hl) as [bk [m [Hb [_ [Hm Ht]]]]].
      rewrite Lb in Hb. rewrite Lc in Hm.
      exists (rm_type m). split; [exact Ht|].
      rewrite (C32_wrong_type E H F t p start out j c s rest bk m Se M Ne Nq Hb Hm (Dj _ Ht)) in R. now injection R as <- <-.
    + intros M. rewrite (C33_unknown_single E H F t p start out Se) in R by now rewrite Men. now injection R as <- <-.
  - destruct (read_channels E F t chans outs) as [o r] eqn:R. eexists. split; [reflexivity|].
    intros vss Fx Nd Nm Hv Big.
    assert (Lo : length outs = length chans) by (rewrite (Forall2_len _ _ _ Big), (Forall2_len _ _ _ Hv); reflexivity).
    assert (Mf : Forall (mentioned (all_objs H)) chans) by (eapply Forall_impl; [|exact Nm]; intros q; apply Men).
    assert (St : Forall (stored (tf_bytes F) t H) chans).
    { clear -Hv Sam. induction Hv as [|q vs chans vss Hq Hv IH]; constructor; [|exact IH]. now destruct (Sam t q vs Hq) as [S1 _]. }
    rewrite (C30_whole_channels_partial E H F t chans outs Se Fx Ad Mf St Nd Lo) in R; [injection R as <- <-|].
    + f_equal. unfold singly. clear Nd Lo Nc Nl. revert outs Big Mf St Nm. induction Hv as [|q vs chans vss Hq Hv IH]; intros outs Big Mf St Nm;
        inversion Big as [|out vs0 outs0 vss0 Le Big']; subst; [reflexivity|].
      inversion Mf; inversion St; inversion Nm; subst. cbn [combine map fst snd]. f_equal; [|now apply IH].
      destruct (Sam t q vs Hq) as [S1 Q].
      rewrite (C28_window E H F t q 0 out Se Fx Ad) by assumption. cbn [fst]. rewrite Q. cbn [N.to_nat skipn].
      f_equal. now apply firstn_all2.
    + intros q out Hin. apply In_nth_error in Hin. destruct Hin as [i Hi].
      assert (Hc : nth_error chans i = Some q /\ nth_error outs i = Some out).
      { clear -Hi. revert outs i Hi. induction chans as [|c0 chans IH]; intros [|o0 outs] [|i] Hi; cbn [combine nth_error] in *; try discriminate.
        - injection Hi as <- <-. auto.
        - now apply IH. }
      destruct Hc as [Hq Ho].
      assert (X : exists vs, nth_error vss i = Some vs).
      { destruct (nth_error vss i) eqn:Y; [eauto|]. apply nth_error_None in Y. rewrite <- (Forall2_len _ _ _ Big) in Y.
        apply nth_error_None in Y. congruence. }
      destruct X as [vs Hvs].
      assert (Hh : holds og past t q vs /\ (length vs <= length out)%nat).
      { clear -Hv Big Hq Ho Hvs. revert outs Big i Hq Ho Hvs. induction Hv as [|q0 vs0 chans vss Hx Hv IH]; intros outs Big [|i] Hq Ho Hvs;
          cbn [nth_error] in *; try discriminate; inversion Big; subst; cbn [nth_error] in *.
        - injection Hq as <-. injection Ho as <-. injection Hvs as <-. auto.
        - eapply IH; eauto. }
      destruct Hh as [Hh Le]. destruct (Sam t q vs Hh) as [_ ->]. exact Le.
Qed.
End Known.

Lemma refused_call F c x : refusal c = Some x -> do_call E F c = (F, Err x).
Proof.
  destruct c as [e path kvs|e t chans vs lay]; cbn [refusal do_call]; [discriminate|]. destruct chans as [|c0 cs].
  - injection 1 as <-. apply C38_no_channels.
  - destruct (N.eqb_spec (lenN vs mod lenN (c0 :: cs)) 0) as [Z|Z]; [discriminate|]. injection 1 as <-.
    apply C38_bad_length; [discriminate|exact Z].
Qed.

Lemma o_chans_active : o_chans og = active_after H0.
Proof.
  unfold o_chans. cbn [o_shape origin_of]. destruct sh as [[[d k] l]|]; cbn [last_shape] in Ls; [symmetry; apply Ls|now symmetry].
Qed.
Lemma origin_next : ix_next (tf_ix F0) = lenN (tf_bytes F0).
Proof.
  rewrite <- Ex. assert (Se0 : session E H0 F0) by (eapply ss_open; eauto).
  apply session_accepted in Se0. destruct Se0 as [A _]. now destruct (accepted_described _ _ _ A) as [_ [X _]].
Qed.

Lemma store_run os : forall past F rs F' xs,
  run_calls E F0 past = (F, rs) -> sequenced sh (fold_left remember os past) ->
  closes E og past os ->
  run_ops E F os = (F', xs) -> addressable E (tf_bytes F') ->
  all_expected og past os xs
  /\ exists rs', run_calls E F0 (fold_left remember os past) = (F', rs').
Proof.
  induction os as [|o os IH]; intros past F rs F' xs Er Sq Cl R Ad; cbn [run_ops] in R.
  - injection R as <- <-. split; [exact Logic.I|eauto].
  - destruct (do_op E F o) as [F1 x] eqn:Do. destruct (run_ops E F1 os) as [F2 ys] eqn:Rn. injection R as <- <-.
    cbn [fold_left] in Sq |- *. cbn [all_expected closes] in *. destruct Cl as [Now Cl].
    destruct (remember_grows os (remember past o)) as [more Mo]. pose proof Sq as Sq1. rewrite Mo in Sq1. apply sequenced_app in Sq1.
    destruct (run_ops_grows _ _ _ _ _ Rn) as [b2 B2].
    assert (Ad1 : addressable E (tf_bytes F1)).
    { destruct Ad as [A1 A2]. rewrite B2, lenN_app in A1, A2. split; lia. }
    destruct (do_op_grows _ _ _ _ _ Do) as [b1 B1].
    assert (Ad0 : addressable E (tf_bytes F)).
    { destruct Ad1 as [A1 A2]. rewrite B1, lenN_app in A1, A2. split; lia. }
    assert (Sq0 : sequenced sh past).
    { destruct (remember_grows [o] past) as [m2 M2]. cbn [fold_left] in M2. rewrite M2 in Sq1. now apply sequenced_app in Sq1. }
    assert (Step : expected og past o x /\ exists rs1, run_calls E F0 (remember past o) = (F1, rs1)).
    { destruct o as [c| |p n|p|p| |g|t p start out|t chans outs];
        try (match type of Do with do_op _ _ ?q = _ =>
               destruct (query_ok past F rs Sq0 Er Ad0 q) as [a [D X]]; [intros ? Z; discriminate Z|discriminate|] end;
             rewrite D in Do; injection Do as <- <-; split; [exact X|exists rs; exact Er]).
      - cbn [do_op expected remember] in *. destruct (refusal c) as [err|] eqn:Rf.
        + rewrite (refused_call _ _ _ Rf) in Do. injection Do as <- <-. split; [reflexivity|eauto].
        + destruct (do_call E F c) as [G y] eqn:Dc. injection Do as <- <-.
          pose proof (run_calls_snoc _ _ _ _ _ _ _ _ Er Dc) as Rs. split; [|eauto].
          destruct (past_known _ _ _ Sq1 Rs Ad1) as [Ok1 _]. rewrite Forall_forall in Ok1.
          f_equal. symmetry. apply Ok1. apply in_app_iff. right. now left.
      - destruct (Now eq_refl) as [Gc Rt]. rewrite o_chans_active in Rt. pose proof origin_next as Nx. cbn [do_op expected remember] in *.
        destruct (past_known _ _ _ Sq0 Er Ad0) as [Ok0 _].
        rewrite (C41_reopened_after_append_partial E (tf_bytes F0) F0 H0 past F rs Op Fs Nx Gc Rt Er Ok0 (proj2 Ad0)) in Do. injection Do as <- <-. split; [reflexivity|eauto]. }
    destruct Step as [X [rs1 Er1]].
    destruct (IH (remember past o) F1 rs1 F2 ys Er1 Sq) as [Al Fin]; [exact Cl|exact Rn|exact Ad|]. split; [split; assumption|exact Fin].
Qed.
End Past.

(** ** The empty origin *)
Definition same_origin (o o' : origin) : Prop :=
  (forall p, o_named o p <-> o_named o' p) /\ (forall p n, o_prop o p n = o_prop o' p n)
  /\ (forall t p vs, o_holds o t p vs <-> o_holds o' t p vs).
Lemma no_origin : same_origin (origin_of [] [] None) nothing.
Proof.
  split; [|split].
  - intros p. cbn [o_named origin_of nothing]. split; [intros []|intros []].
  - reflexivity.
  - intros t p vs. cbn [o_holds origin_of nothing]. split; [intros [_ ->]; reflexivity|intros ->; split; [constructor|reflexivity]].
Qed.
Lemma expected_same o o' past q x : same_origin o o' -> expected o past q x -> expected o' past q x.
Proof.
  intros [Sn [Sp Sh]].
  assert (Nm : forall p, named o' past p <-> named o past p) by (intros p; unfold named; rewrite Sn; reflexivity).
  assert (Lt : forall p n, last_told o' past p n = last_told o past p n) by (intros p n; unfold last_told; now rewrite Sp).
  assert (Ho : forall t p vs, holds o' past t p vs -> holds o past t p vs).
  { intros t p vs [v0 [vss [A B]]]. exists v0, vss. split; [now apply Sh|exact B]. }
  assert (Td : tidy o' past -> tidy o past) by (intros T p M; apply T, Nm, M).
  destruct q as [c| |p n|p|p| |g|t p start out|t chans outs]; cbn [expected]; try tauto.
  - rewrite Nm, Lt. tauto.
  - rewrite Nm. intros [A B]. split; [|exact B]. intros M. destruct (A M) as [l [P1 [P2 P3]]].
    exists l. split; [exact P1|]. split; [exact P2|]. intros n v. now rewrite Lt.
  - intros [A B]. split; [|intros M; apply B; now rewrite <- Nm]. intros t vs M Fx Hv L. apply (A t vs); auto. now apply Nm.
  - intros A T. destruct (A (Td T)) as [l [P1 [P2 P3]]]. exists l. split; [exact P1|]. split; [exact P2|].
    intros g. rewrite P3. split; intros [p [M G]]; exists p; (split; [now apply Nm|exact G]).
  - intros A T Ng. destruct (A (Td T) Ng) as [l [P1 [P2 P3]]]. exists l. split; [exact P1|]. split; [exact P2|].
    intros y. rewrite P3, Nm. reflexivity.
  - intros [A [B C]]. split; [|split; [|intros M; apply C; now rewrite <- Nm]].
    + intros vs M Fx Hv. apply A; auto. now apply Nm.
    + intros t' vs M Fx Hv Ls Ne Dj. apply (B t' vs); auto. now apply Nm.
  - intros A vss Fx Nd Fn Hv Big. apply A with (vss := vss); auto.
    + eapply Forall_impl; [|exact Fn]. intros p. apply Nm.
    + clear -Hv Ho. induction Hv; constructor; auto.
Qed.
Lemma all_same o o' : same_origin o o' -> forall os past xs, all_expected o past os xs -> all_expected o' past os xs.
Proof.
  intros Sm. induction os as [|q os IH]; intros past [|x xs]; cbn [all_expected]; try tauto.
  intros [A B]. split; [eapply expected_same; eauto|auto].
Qed.
Lemma closes_same E o o' : o_chans o = o_chans o' -> forall os past, closes E o past os -> closes E o' past os.
Proof.
  intros Q. induction os as [|q os IH]; intros past; cbn [closes]; [tauto|]. rewrite Q. intros [A B]. auto.
Qed.
Lemma empty_segments E : file_segments E (tf_bytes empty_file) [].
Proof. split; [intros [|i] s Hi; discriminate|]. left. reflexivity. Qed.
