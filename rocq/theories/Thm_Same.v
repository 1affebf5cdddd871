(** * C101 Which programs make files with the same contents *)
From Coq Require Import Strings.String.
From Verif Require Import Base Lib DataTypes Paths MetaData Maps DataBlock Index RawData ChannelReader TdmsFile Vectors
  SpecCodec SpecIndex SpecSession SpecRead SpecWrite SpecKept SpecCopy SpecSame
  Index_proofs Session_proofs Thm_Index Thm_Read Thm_Write Program_proofs Exact_proofs Thm_Reopen Copy_proofs Thm_Kept Thm_Copy.
Close Scope string_scope.

Lemma gives_some ty p c : sound ty c -> exists vs, gives (ty p) p c vs.
Proof.
  destruct c as [e path kvs|e t chans vs lay]; cbn [sound]; intros So; [exists []; constructor|]. destruct So as [_ Ft].
  destruct (in_dec (list_eq_dec Byte.byte_eq_dec) p chans) as [Hp|Hp]; [|exists []; now apply gives_other].
  rewrite Forall_forall in Ft. pose proof (Ft p Hp) as Et. subst t. apply In_nth_error in Hp. destruct Hp as [i Hi].
  eexists. eapply gives_chans, Hi.
Qed.
Lemma gives_all ty p cs : Forall (sound ty) cs -> exists vss, Forall2 (gives (ty p) p) cs vss.
Proof.
  induction 1 as [|c cs Hc _ [vss IH]]; [exists []; constructor|]. destruct (gives_some ty p c Hc) as [vs Hv].
  exists (vs :: vss). now constructor.
Qed.
Lemma gives_det ty p c vs vs' : sound ty c -> gives (ty p) p c vs -> gives (ty p) p c vs' -> vs = vs'.
Proof.
  destruct c as [e path kvs|e t chans ws lay]; cbn [sound]; intros So G G'.
  - assert (N : forall u, gives (ty p) p (CallProps e path kvs) u -> u = []) by (intros u Y; inversion Y; subst; reflexivity).
    now rewrite (N _ G), (N _ G').
  - destruct So as [[_ [_ [Nd _]]] Ft].
    destruct (in_dec (list_eq_dec Byte.byte_eq_dec) p chans) as [Hp|Hp].
    + rewrite Forall_forall in Ft. pose proof (Ft p Hp) as Et. subst t.
      destruct (gives_inv _ _ _ _ _ _ _ _ G) as [[A _]|[Q [i [Hi Ev]]]]; [contradiction|].
      destruct (gives_inv _ _ _ _ _ _ _ _ G') as [[A _]|[Q' [i' [Hi' Ev']]]]; [contradiction|].
      assert (i = i') by (apply (proj1 (NoDup_nth_error chans) Nd); [apply nth_error_Some; congruence|congruence]). subst i'.
      rewrite (Eqdep_dec.UIP_dec sty_eq_dec Q eq_refl) in Ev. rewrite (Eqdep_dec.UIP_dec sty_eq_dec Q' eq_refl) in Ev'.
      cbn in Ev, Ev'. congruence.
    + destruct (gives_inv _ _ _ _ _ _ _ _ G) as [[_ ->]|[_ [i [Hi _]]]]; [|exfalso; apply Hp; eapply nth_error_In, Hi].
      destruct (gives_inv _ _ _ _ _ _ _ _ G') as [[_ ->]|[_ [i [Hi _]]]]; [|exfalso; apply Hp; eapply nth_error_In, Hi]. reflexivity.
Qed.
Lemma gives_unnamed t p c vs : ~ names p c -> gives t p c vs -> vs = [].
Proof.
  intros Nn G. destruct G as [| |e chans vs lay i Hi]; [reflexivity|reflexivity|]. exfalso. apply Nn. cbn [names]. eapply nth_error_In, Hi.
Qed.
Lemma told_unnamed p n cs : forall acc, ~ Exists (names p) cs -> fold_left (prop_call p n) cs acc = acc.
Proof.
  induction cs as [|c cs IH]; intros acc Nn; [reflexivity|]. cbn [fold_left].
  assert (X : prop_call p n acc c = acc).
  { destruct c as [e path kvs|e t chans vs lay]; [|reflexivity]. cbn [prop_call].
    rewrite (proj2 (str_eqb_neq p path)); [reflexivity|]. intros ->. apply Nn. left. reflexivity. }
  rewrite X. apply IH. intros Y. apply Nn. now right.
Qed.
Lemma given_unnamed t p cs vss : ~ Exists (names p) cs -> Forall2 (gives t p) cs vss -> concat vss = [].
Proof.
  intros Nn F. induction F as [|c vs cs vss G F IH]; [reflexivity|]. cbn [concat].
  rewrite (gives_unnamed t p c vs), IH; [reflexivity| | |exact G].
  - intros X. apply Nn. now right.
  - intros X. apply Nn. now left.
Qed.
Lemma names_dec p cs : {Exists (names p) cs} + {~ Exists (names p) cs}.
Proof.
  apply Exists_dec. intros [e path kvs|e t chans vs lay]; cbn [names].
  - apply (list_eq_dec Byte.byte_eq_dec).
  - apply (in_dec (list_eq_dec Byte.byte_eq_dec)).
Qed.
Lemma overlay_same {A} (x : A) (a b : list A) : length a = length b ->
  overlay (repeat x (length a)) a = overlay (repeat x (length a)) b -> a = b.
Proof.
  intros L. rewrite overlay_whole, L, overlay_whole. auto.
Qed.

(** The files of two programs give the same answers exactly if the programs tell
    the same: which calls told it, in which order, byte order and layout, cannot
    be seen. *)
Theorem C101_exactly : forall E ty cs1 cs2 F1 F2 rs1 rs2,
  (forall p, fixed (ty p)) -> Forall (sound ty) cs1 -> Forall (sound ty) cs2 ->
  sequenced None cs1 -> sequenced None cs2 ->
  run_calls E empty_file cs1 = (F1, rs1) -> run_calls E empty_file cs2 = (F2, rs2) ->
  addressable E (tf_bytes F1) -> addressable E (tf_bytes F2) ->
  same_contents E ty F1 F2 <-> same_told ty cs1 cs2.
Proof.
  intros E ty cs1 cs2 F1 F2 rs1 rs2 Ft So1 So2 Sq1 Sq2 R1 R2 A1 A2.
  assert (L64 : forall n, n < 2 ^ 63 -> n < 2 ^ 64) by (intros n Hn; etransitivity; [exact Hn|reflexivity]).
  destruct (program E cs1 [] empty_file F1 rs1 None (fresh_session E) eq_refl eq_refl Sq1 R1 (L64 _ (proj1 A1))) as [_ [H1 [Se1 [_ [Me1 [Pr1 Sa1]]]]]].
  destruct (program E cs2 [] empty_file F2 rs2 None (fresh_session E) eq_refl eq_refl Sq2 R2 (L64 _ (proj1 A2))) as [_ [H2 [Se2 [_ [Me2 [Pr2 Sa2]]]]]].
  assert (M1 : forall p, mentioned (all_objs H1) p <-> Exists (names p) cs1) by (intros p; rewrite Me1; split; [intros [[]|X]; exact X|auto]).
  assert (M2 : forall p, mentioned (all_objs H2) p <-> Exists (names p) cs2) by (intros p; rewrite Me2; split; [intros [[]|X]; exact X|auto]).
  assert (P1 : forall p n, last_prop (all_objs H1) p n = fold_left (prop_call p n) cs1 None) by (intros; now rewrite Pr1).
  assert (P2 : forall p n, last_prop (all_objs H2) p n = fold_left (prop_call p n) cs2 None) by (intros; now rewrite Pr2).
  clear Me1 Me2 Pr1 Pr2.
  assert (V1 : forall p vss, Forall2 (gives (ty p) p) cs1 vss -> Exists (names p) cs1 ->
    channel_length E F1 p = Ok (Some (lenN (concat vss)))
    /\ forall start out, read_channel_from E F1 (ty p) p start out = (overlay out (firstn (length out) (skipn (N.to_nat start) (concat vss))), Ok tt)).
  { intros p vss G Nm. destruct (Sa1 (ty p) p vss) as [Le [St Q]]; [constructor|exact G|]. cbn [samples_after app] in Q.
    change (samples_after (tf_bytes empty_file) (ty p) [] p) with (@nil (carrier (ty p))) in Q. cbn [app] in Q. split.
    - rewrite <- Q, C36_samples_count. apply (C19_channel_length E H1 F1 p Se1); [|now apply M1].
      rewrite <- (C36_samples_count (tf_bytes F1) (ty p)), Q. apply L64. eapply N.le_lt_trans; [|exact (proj1 A1)].
      change (tf_bytes empty_file) with (@nil byte) in Le. change (lenN (@nil byte)) with 0 in Le. lia.
    - intros start out. rewrite <- Q. apply C28_window; auto. now apply M1. }
  assert (V2 : forall p vss, Forall2 (gives (ty p) p) cs2 vss -> Exists (names p) cs2 ->
    channel_length E F2 p = Ok (Some (lenN (concat vss)))
    /\ forall start out, read_channel_from E F2 (ty p) p start out = (overlay out (firstn (length out) (skipn (N.to_nat start) (concat vss))), Ok tt)).
  { intros p vss G Nm. destruct (Sa2 (ty p) p vss) as [Le [St Q]]; [constructor|exact G|].
    change (samples_after (tf_bytes empty_file) (ty p) [] p) with (@nil (carrier (ty p))) in Q. cbn [app] in Q. split.
    - rewrite <- Q, C36_samples_count. apply (C19_channel_length E H2 F2 p Se2); [|now apply M2].
      rewrite <- (C36_samples_count (tf_bytes F2) (ty p)), Q. apply L64. eapply N.le_lt_trans; [|exact (proj1 A2)].
      change (tf_bytes empty_file) with (@nil byte) in Le. change (lenN (@nil byte)) with 0 in Le. lia.
    - intros start out. rewrite <- Q. apply C28_window; auto. now apply M2. }
  pose proof (session_any _ _ _ Se1) as An1. pose proof (session_any _ _ _ Se2) as An2. split.
  - intros [_ [_ [Rp [Ra [Cl Rd]]]]].
    assert (Nm : forall p, Exists (names p) cs1 <-> Exists (names p) cs2).
    { intros p. rewrite <- M1, <- M2. destruct (C16_read_all E _ _ p An1) as [N1 _]. destruct (C16_read_all E _ _ p An2) as [N2 _].
      rewrite Ra in N2. destruct (c_dec_all H1 p) as [X|X], (c_dec_all H2 p) as [Y|Y]; try tauto. }
    split; [exact Nm|]. split.
    + intros p n. destruct (names_dec p cs1) as [X|X].
      * specialize (Rp p n). rewrite (proj1 (property_value E H1 F1 p n An1)) in Rp by now apply M1.
        rewrite (proj1 (property_value E H2 F2 p n An2)) in Rp by now apply M2, Nm. rewrite P1, P2 in Rp. congruence.
      * rewrite !told_unnamed; [reflexivity|now rewrite <- Nm|exact X].
    + intros p vss1 vss2 G1 G2. destruct (names_dec p cs1) as [X|X].
      * destruct (V1 p vss1 G1 X) as [L1 Q1]. destruct (V2 p vss2 G2) as [L2 Q2]; [now apply Nm|].
        specialize (Cl p). rewrite L1, L2 in Cl. assert (Ll : length (concat vss1) = length (concat vss2)) by (injection Cl; unfold lenN; lia).
        destruct (two_values (ty p) (Ft p)) as [x [_ _]]. apply (overlay_same x); [exact Ll|].
        specialize (Rd p 0 (repeat x (length (concat vss1)))). rewrite Q1, Q2 in Rd. cbn [N.to_nat skipn] in Rd. rewrite repeat_length in Rd.
        rewrite Ll in Rd at 2. rewrite !firstn_all in Rd. injection Rd as Rd. now symmetry.
      * rewrite (given_unnamed (ty p) p cs1 vss1 X G1). symmetry. apply (given_unnamed (ty p) p cs2); [now rewrite <- Nm|exact G2].
  - intros [Nm [Pe Ve]].
    assert (Me : forall p, mentioned (all_objs H2) p <-> mentioned (all_objs H1) p) by (intros p; rewrite M1, M2; symmetry; apply Nm).
    destruct (keys_same E H1 H2 F1 F2 An1 An2 Me) as [K1 K2].
    assert (Rp : forall p n, read_property F2 p n = read_property F1 p n).
    { intros p n. destruct (property_value E H1 F1 p n An1) as [A B]. destruct (property_value E H2 F2 p n An2) as [A' B'].
      destruct (c_dec_all H1 p) as [X|X].
      - rewrite (A X), (A' (proj2 (Me p) X)). now rewrite P1, P2, Pe.
      - rewrite B, B'; [reflexivity|now rewrite Me|exact X]. }
    split; [exact K1|]. split; [exact K2|]. split; [exact Rp|]. split; [exact (props_same E (fun _ => LittleE) (fun _ => Contigious) ty C100_blank [] F1 H1 H1 H2 F1 F2 An1 An2 Me Rp)|].
    split.
    + intros p. destruct (names_dec p cs1) as [X|X].
      * destruct (gives_all ty p cs1 So1) as [v1 G1]. destruct (gives_all ty p cs2 So2) as [v2 G2].
        rewrite (proj1 (V1 p v1 G1 X)), (proj1 (V2 p v2 G2 (proj1 (Nm p) X))), (Ve p v1 v2 G1 G2). reflexivity.
      * rewrite (proj1 (proj2 (C19_channel_length E H1 F1 p Se1)) (fun Y => X (proj1 (M1 p) Y))).
        apply (proj2 (C19_channel_length E H2 F2 p Se2)). now rewrite M2, <- Nm.
    + intros p start out. destruct (names_dec p cs1) as [X|X].
      * destruct (gives_all ty p cs1 So1) as [v1 G1]. destruct (gives_all ty p cs2 So2) as [v2 G2].
        rewrite (proj2 (V1 p v1 G1 X)), (proj2 (V2 p v2 G2 (proj1 (Nm p) X))), (Ve p v1 v2 G1 G2). reflexivity.
      * rewrite (C33_unknown_single E H1 F1 (ty p) p start out Se1) by now rewrite M1.
        apply (C33_unknown_single E H2 F2 (ty p) p start out Se2). now rewrite M2, <- Nm.
Qed.

(** Calls about different objects can change places, and the byte order of any
    call can change. *)
Lemma given_same ty p : forall cs v1 v2, Forall (sound ty) cs -> Forall2 (gives (ty p) p) cs v1 -> Forall2 (gives (ty p) p) cs v2 -> v1 = v2.
Proof.
  intros cs v1 v2 So G1. revert v2. induction G1 as [|c vs cs v1 Gc G1 IH]; intros v2 G2; inversion G2 as [|? vs' ? v2' Gc' G2']; subst; [reflexivity|].
  inversion So as [|? ? Sc So']; subst. f_equal; [eapply gives_det; eauto|now apply IH].
Qed.
Theorem C101_swap : forall ty A c d B, Forall (sound ty) (A ++ c :: d :: B) -> unrelated c d ->
  same_told ty (A ++ c :: d :: B) (A ++ d :: c :: B).
Proof.
  intros ty A c d B So Un. split; [|split].
  - intros p. rewrite !Exists_app, !Exists_cons. tauto.
  - intros p n. rewrite !fold_left_app. cbn [fold_left]. f_equal. set (acc := fold_left (prop_call p n) A None).
    assert (X : forall c0 a, ~ names p c0 -> prop_call p n a c0 = a).
    { intros [e path kvs|e t chans vs lay] a Nn; [|reflexivity]. cbn [prop_call names] in *.
      rewrite (proj2 (str_eqb_neq p path)); [reflexivity|]. intros ->. now apply Nn. }
    destruct (names_dec p [c]) as [Y|Y].
    + assert (Nd : ~ names p d) by (intros Z; apply (Un p); split; [inversion Y as [? ? Y'|? ? Y']; [exact Y'|inversion Y']|exact Z]).
      now rewrite !(X d) by exact Nd.
    + assert (Nc : ~ names p c) by (intros Z; apply Y; now left). now rewrite !(X c) by exact Nc.
  - intros p v1 v2 G1 G2. apply Forall2_app_inv_l in G1. destruct G1 as [a1 [r1 [Ga1 [Gr1 ->]]]].
    apply Forall2_app_inv_l in G2. destruct G2 as [a2 [r2 [Ga2 [Gr2 ->]]]].
    inversion Gr1 as [|? x1 ? r1' Gc1 Gr1']; subst. inversion Gr1' as [|? y1 ? b1 Gd1 Gb1]; subst.
    inversion Gr2 as [|? y2 ? r2' Gd2 Gr2']; subst. inversion Gr2' as [|? x2 ? b2 Gc2 Gb2]; subst.
    rewrite Forall_app in So. destruct So as [Sa So]. inversion So as [|? ? Sc So']; subst. inversion So' as [|? ? Sd Sb]; subst.
    rewrite !concat_app. cbn [concat]. rewrite (given_same ty p A a1 a2 Sa Ga1 Ga2), (given_same ty p B b1 b2 Sb Gb1 Gb2).
    rewrite (gives_det ty p c x1 x2 Sc Gc1 Gc2), (gives_det ty p d y1 y2 Sd Gd1 Gd2). f_equal.
    destruct (names_dec p [c]) as [Y|Y].
    + assert (Nd : ~ names p d) by (intros Z; apply (Un p); split; [inversion Y as [? ? Y'|? ? Y']; [exact Y'|inversion Y']|exact Z]).
      now rewrite (gives_unnamed _ _ _ _ Nd Gd2).
    + assert (Nc : ~ names p c) by (intros Z; apply Y; now left). now rewrite (gives_unnamed _ _ _ _ Nc Gc2).
Qed.
Theorem C101_byte_order : forall ty cs1 cs2, Forall (sound ty) cs1 -> Forall2 reordered cs1 cs2 -> same_told ty cs1 cs2.
Proof.
  intros ty cs1 cs2 So R. split; [|split].
  - intros p. clear So. induction R as [|c d cs1 cs2 Rc R IH]; [tauto|]. rewrite !Exists_cons, IH.
    destruct Rc; cbn [names]; tauto.
  - intros p n. generalize (@None pval) as acc. clear So. induction R as [|c d cs1 cs2 Rc R IH]; intros acc; [reflexivity|].
    cbn [fold_left]. destruct Rc; cbn [prop_call]; apply IH.
  - intros p v1 v2 G1 G2. f_equal. revert v1 v2 G1 G2. induction R as [|c d cs1 cs2 Rc R IH]; intros v1 v2 G1 G2.
    + inversion G1; inversion G2; reflexivity.
    + inversion So as [|? ? Sc So']; subst. inversion G1 as [|? x1 ? r1 Gc1 Gr1]; subst. inversion G2 as [|? x2 ? r2 Gc2 Gr2]; subst.
      f_equal; [|now apply IH]. apply (gives_det ty p c x1 x2 Sc Gc1). clear - Gc2 Rc Sc.
      destruct Rc as [e e' path kvs|e e' t chans vs lay].
      * assert (X : x2 = []) by (inversion Gc2; subst; reflexivity). subst x2. constructor.
      * destruct (gives_inv _ _ _ _ _ _ _ _ Gc2) as [[Hp ->]|[Q [i [Hi ->]]]]; [now apply gives_other|].
        revert vs Gc2 Sc. destruct Q. intros vs _ _. cbn [eq_rect]. now apply gives_chans.
Qed.

(** One call that gives interleaved values to two channels after a property call,
    and five calls: the channels one by one, one of them in two parts, and a
    property set twice. *)
Definition C101_a : str := ch "g" "a".
Definition C101_b : str := ch "g" "b".
Definition C101_one : list call :=
  [CallProps LittleE (B "/'g'") [(B "n", PI32 5)];
   CallChans LittleE SI32 [C101_a; C101_b] [1; 2; 3; 4; 5; 6]%Z Interleaved].
Definition C101_two : list call :=
  [CallChans BigE SI32 [C101_b] [2; 4; 6]%Z Contigious;
   CallProps BigE (B "/'g'") [(B "n", PI32 4)];
   CallChans LittleE SI32 [C101_a] [1]%Z Contigious;
   CallChans BigE SI32 [C101_a] [3; 5]%Z Contigious;
   CallProps LittleE (B "/'g'") [(B "n", PI32 5)]].
(** The second without its last call. *)
Definition C101_short : list call := firstn 4 C101_two.
Lemma C101_nd : NoDup [C101_a; C101_b].
Proof. constructor; [intros [X|[]]; discriminate|]. constructor; [intros []|constructor]. Qed.
Lemma C101_one_sound : Forall (sound (fun _ => SI32)) C101_one.
Proof.
  pose proof C101_nd. constructor; [exact Logic.I|]. constructor; [|constructor].
  split; [apply good_i32; try assumption; try discriminate; reflexivity|repeat constructor].
Qed.
Lemma C101_two_sound : Forall (sound (fun _ => SI32)) C101_two.
Proof.
  assert (Nd : forall x : str, NoDup [x]) by (intros x; constructor; [intros []|constructor]).
  constructor; [split; [apply good_i32; try apply Nd; try discriminate; reflexivity|repeat constructor]|].
  constructor; [exact Logic.I|].
  constructor; [split; [apply good_i32; try apply Nd; try discriminate; reflexivity|repeat constructor]|].
  constructor; [split; [apply good_i32; try apply Nd; try discriminate; reflexivity|repeat constructor]|].
  constructor; [exact Logic.I|constructor].
Qed.
Example C101_case : let ty := fun _ : str => SI32 in
  let F1 := fst (run_calls dbg empty_file C101_one) in let F2 := fst (run_calls dbg empty_file C101_two) in
  let F3 := fst (run_calls dbg empty_file C101_short) in
  (forall p, fixed (ty p)) /\ Forall (sound ty) C101_one /\ Forall (sound ty) C101_two
  /\ sequenced None C101_one /\ sequenced None C101_two /\ sequenced None C101_short
  /\ addressable dbg (tf_bytes F1) /\ addressable dbg (tf_bytes F2) /\ addressable dbg (tf_bytes F3)
  /\ tf_bytes F1 <> tf_bytes F2
  /\ same_told ty C101_one C101_two /\ same_contents dbg ty F1 F2
  /\ ~ same_told ty C101_one C101_short /\ ~ same_contents dbg ty F1 F3
  /\ (exists A c d Bs, C101_two = A ++ c :: d :: Bs /\ unrelated c d).
Proof.
  cbv zeta. assert (Fx : forall p : str, fixed ((fun _ : str => SI32) p)) by (intros p; repeat split; discriminate).
  pose proof C101_one_sound as S1. pose proof C101_two_sound as S2.
  assert (S3 : Forall (sound (fun _ => SI32)) C101_short).
  { pose proof S2 as X. rewrite <- (firstn_skipn 4 C101_two), Forall_app in X. exact (proj1 X). }
  assert (G : forall c, In c C101_one \/ In c C101_two -> match c with CallProps _ _ _ => True | CallChans e t chans vs lay => good_values t chans vs end).
  { intros c Hc. rewrite Forall_forall in S1, S2. assert (X : sound (fun _ => SI32) c) by (destruct Hc as [Y|Y]; [now apply S1|now apply S2]).
    destruct c; [exact Logic.I|exact (proj1 X)]. }
  assert (Q1 : sequenced None C101_one).
  { split; [apply (G (CallChans LittleE SI32 [C101_a; C101_b] [1; 2; 3; 4; 5; 6]%Z Interleaved)); left; right; now left|exact Logic.I]. }
  assert (Gb := G (CallChans BigE SI32 [C101_b] [2; 4; 6]%Z Contigious) (or_intror (or_introl eq_refl))).
  assert (Ga := G (CallChans LittleE SI32 [C101_a] [1]%Z Contigious) (or_intror (or_intror (or_intror (or_introl eq_refl))))).
  assert (Ga2 := G (CallChans BigE SI32 [C101_a] [3; 5]%Z Contigious) (or_intror (or_intror (or_intror (or_intror (or_introl eq_refl)))))).
  assert (Nc : ~ continues [C101_b] [C101_a]) by (intros [_ [[x X]|[x X]]]; discriminate).
  assert (Ch : chunked Contigious (lenN [1]%Z / lenN [C101_a]) (lenN [3; 5]%Z / lenN [C101_a]) [C101_a])
    by (split; [reflexivity|]; split; [reflexivity|right; now left]).
  assert (Q3 : sequenced None C101_short).
  { unfold C101_short, C101_two. cbn [firstn sequenced]. split; [exact Gb|]. split; [exact Ga|]. left. split; [exact Nc|].
    split; [exact Ga2|]. right. split; [reflexivity|]. split; [now left|]. split; [exact Ch|exact Logic.I]. }
  assert (Q2 : sequenced None C101_two).
  { unfold C101_two. cbn [sequenced]. split; [exact Gb|]. split; [exact Ga|]. left. split; [exact Nc|].
    split; [exact Ga2|]. right. split; [reflexivity|]. split; [now left|]. split; [exact Ch|exact Logic.I]. }
  clear G Gb Ga Ga2 Nc Ch.
  assert (A1 : addressable dbg (tf_bytes (fst (run_calls dbg empty_file C101_one)))) by (vm_compute; split; [reflexivity|discriminate]).
  assert (A2 : addressable dbg (tf_bytes (fst (run_calls dbg empty_file C101_two)))) by (vm_compute; split; [reflexivity|discriminate]).
  assert (A3 : addressable dbg (tf_bytes (fst (run_calls dbg empty_file C101_short)))) by (vm_compute; split; [reflexivity|discriminate]).
  assert (T : same_told (fun _ => SI32) C101_one C101_two).
  { split; [|split].
    - intros p. unfold C101_one, C101_two. rewrite !Exists_cons, !Exists_nil. cbn [names In]. tauto.
    - intros p n. unfold C101_one, C101_two. cbn [fold_left prop_call].
      destruct (str_eqb p (B "/'g'")); [|reflexivity]. cbn [fold_left prop_step fst snd]. unfold prop_step. cbn [fst snd].
      now destruct (str_eqb (B "n") n), (str_eqb n (B "n")).
    - intros p v1 v2 G1 G2. destruct (list_eq_dec Byte.byte_eq_dec p C101_a) as [->|Na].
      { assert (W1 : Forall2 (gives SI32 C101_a) C101_one [[]; [1; 3; 5]%Z]).
        { constructor; [constructor|]. constructor; [|constructor]. change [1; 3; 5]%Z with (dealt Interleaved 2 0 [1; 2; 3; 4; 5; 6]%Z).
          apply (gives_chans SI32 C101_a _ [C101_a; C101_b]). reflexivity. }
        assert (W2 : Forall2 (gives SI32 C101_a) C101_two [[]; []; [1]%Z; [3; 5]%Z; []]).
        { constructor; [apply gives_other; intros [X|[]]; discriminate|]. constructor; [constructor|].
          constructor; [exact (gives_chans SI32 C101_a LittleE [C101_a] [1]%Z Contigious 0 eq_refl)|].
          constructor; [exact (gives_chans SI32 C101_a BigE [C101_a] [3; 5]%Z Contigious 0 eq_refl)|]. constructor; [constructor|constructor]. }
        rewrite (given_same (fun _ => SI32) C101_a _ _ _ S1 G1 W1), (given_same (fun _ => SI32) C101_a _ _ _ S2 G2 W2). reflexivity. }
      destruct (list_eq_dec Byte.byte_eq_dec p C101_b) as [->|Nb].
      { assert (W1 : Forall2 (gives SI32 C101_b) C101_one [[]; [2; 4; 6]%Z]).
        { constructor; [constructor|]. constructor; [|constructor]. change [2; 4; 6]%Z with (dealt Interleaved 2 1 [1; 2; 3; 4; 5; 6]%Z).
          apply (gives_chans SI32 C101_b _ [C101_a; C101_b]). reflexivity. }
        assert (W2 : Forall2 (gives SI32 C101_b) C101_two [[2; 4; 6]%Z; []; []; []; []]).
        { constructor; [exact (gives_chans SI32 C101_b BigE [C101_b] [2; 4; 6]%Z Contigious 0 eq_refl)|]. constructor; [constructor|].
          constructor; [apply gives_other; intros [X|[]]; discriminate|]. constructor; [apply gives_other; intros [X|[]]; discriminate|].
          constructor; [constructor|constructor]. }
        rewrite (given_same (fun _ => SI32) C101_b _ _ _ S1 G1 W1), (given_same (fun _ => SI32) C101_b _ _ _ S2 G2 W2). reflexivity. }
      assert (W1 : Forall2 (gives SI32 p) C101_one [[]; []]).
      { constructor; [constructor|]. constructor; [|constructor]. apply gives_other. intros [X|[X|[]]]; congruence. }
      assert (W2 : Forall2 (gives SI32 p) C101_two [[]; []; []; []; []]).
      { constructor; [apply gives_other; intros [X|[]]; congruence|]. constructor; [constructor|].
        constructor; [apply gives_other; intros [X|[]]; congruence|]. constructor; [apply gives_other; intros [X|[]]; congruence|].
        constructor; [constructor|constructor]. }
      rewrite (given_same (fun _ => SI32) p _ _ _ S1 G1 W1), (given_same (fun _ => SI32) p _ _ _ S2 G2 W2). reflexivity. }
  assert (T3 : ~ same_told (fun _ => SI32) C101_one C101_short).
  { intros [_ [X _]]. specialize (X (B "/'g'") (B "n")). vm_compute in X. discriminate. }
  destruct (run_calls dbg empty_file C101_one) as [F1 rs1] eqn:R1. destruct (run_calls dbg empty_file C101_two) as [F2 rs2] eqn:R2.
  destruct (run_calls dbg empty_file C101_short) as [F3 rs3] eqn:R3. cbn [fst] in *.
  do 5 (split; [assumption|]). split; [exact Q3|]. do 3 (split; [assumption|]). split.
  { assert (L : lenN (tf_bytes (fst (run_calls dbg empty_file C101_one))) <> lenN (tf_bytes (fst (run_calls dbg empty_file C101_two))))
      by (vm_compute; discriminate). rewrite R1, R2 in L. cbn [fst] in L. intros X. apply L. now rewrite X. }
  split; [exact T|]. split; [exact (proj2 (C101_exactly dbg _ _ _ _ _ _ _ Fx S1 S2 Q1 Q2 R1 R2 A1 A2) T)|]. split; [exact T3|].
  split; [intros X; apply T3; exact (proj1 (C101_exactly dbg _ _ _ _ _ _ _ Fx S1 S3 Q1 Q3 R1 R3 A1 A3) X)|].
  exists [], (CallChans BigE SI32 [C101_b] [2; 4; 6]%Z Contigious), (CallProps BigE (B "/'g'") [(B "n", PI32 4)]). eexists.
  split; [reflexivity|]. intros p [[X|[]] Y]. cbn [names] in Y. subst p. discriminate.
Qed.
Example C101_case_byte_order : Forall (sound (fun _ => SI32)) C101_one
  /\ Forall2 reordered C101_one
       [CallProps BigE (B "/'g'") [(B "n", PI32 5)]; CallChans BigE SI32 [C101_a; C101_b] [1; 2; 3; 4; 5; 6]%Z Interleaved].
Proof. split; [exact C101_one_sound|repeat constructor]. Qed.

Print Assumptions C101_exactly.
Print Assumptions C101_swap.
Print Assumptions C101_byte_order.
