(** * C95 Exactly which files list their channels *)
From Coq Require Import Strings.String.
From Verif Require Import Base Lib Paths DataTypes MetaData Maps DataBlock Index RawData TdmsFile Vectors SpecIndex SpecSession SpecPaths
  Maps_proofs Index_proofs Session_proofs Paths_proofs Thm_Index Thm_Paths SpecListing.
Close Scope string_scope.

Lemma filter_channels_app a b l : filter_channels (a ++ b) = Ok l ->
  exists la lb, filter_channels a = Ok la /\ filter_channels b = Ok lb /\ l = la ++ lb.
Proof.
  revert l. induction a as [|p a IH]; intros l; cbn [app filter_channels].
  - intros X. exists [], l. auto.
  - destruct (cp_try_from p) as [c|e|x|]; try discriminate.
    + destruct (filter_channels (a ++ b)) as [r| | |]; try discriminate. cbn [bind]. intros X. injection X as <-.
      destruct (IH r eq_refl) as [la [lb [-> [Eb ->]]]]. exists (c :: la), lb. cbn [bind app]. auto.
    + apply IH.
Qed.
Lemma try_from_channel g c : noslash g -> noslash c -> cp_try_from (raw_channel g c) = Ok (path_channel g c).
Proof.
  intros Hg Hc. destruct (cp_try_from_cases (raw_channel g c)) as [[g' [c' [A [B [C D]]]]]|[[L X]|[_ [_ Np]]]].
  - apply raw_channel_eq_slash in C; auto. destruct C as [-> ->]. exact D.
  - exfalso. apply parse_path_lone in L. rewrite parse_path_channel in L by assumption. discriminate.
  - exfalso. now apply (Np g c Hg Hc).
Qed.
Lemma twice ps x y v l : In x ps -> In y ps -> x <> y -> cp_try_from x = Ok v -> cp_try_from y = Ok v ->
  filter_channels ps = Ok l -> ~ NoDup l.
Proof.
  intros Hx Hy Ne Cx Cy Ef Nd. apply in_split in Hx. destruct Hx as [p1 [p2 ->]].
  destruct (filter_channels_app _ _ _ Ef) as [l1 [l2 [E1 [E2 ->]]]].
  cbn [filter_channels] in E2. rewrite Cx in E2. destruct (filter_channels p2) as [r| | |] eqn:E3; try discriminate.
  cbn [bind] in E2. injection E2 as <-.
  assert (M : forall ps l0, In y ps -> filter_channels ps = Ok l0 -> In v l0).
  { intros ps l0 Hi Ef0. apply in_split in Hi. destruct Hi as [q1 [q2 ->]].
    destruct (filter_channels_app _ _ _ Ef0) as [m1 [m2 [_ [Em ->]]]]. cbn [filter_channels] in Em. rewrite Cy in Em.
    destruct (filter_channels q2) as [r0| | |]; try discriminate. cbn [bind] in Em. injection Em as <-. apply in_or_app. right. now left. }
  apply NoDup_remove_2 in Nd. apply Nd. apply in_app_or in Hy. destruct Hy as [Hy|[Hy|Hy]]; [|contradiction|].
  - apply in_or_app. left. exact (M _ _ Hy E1).
  - apply in_or_app. right. exact (M _ _ Hy E3).
Qed.
Lemma filter_sorted ps : (forall g c, noslash g -> noslash c -> In (raw_channel g c) ps -> noquote g /\ noquote c) -> sorted ps ->
  forall l, filter_channels ps = Ok l -> sorted l /\ incl l ps.
Proof.
  induction ps as [|p ps IH]; intros Hq Sp l; cbn [filter_channels].
  - intros X. injection X as <-. split; [constructor|intros x []].
  - inversion Sp as [|? ? S1 S2]; subst. 
    assert (IH' := IH (fun g c Hg Hc Hi => Hq g c Hg Hc (or_intror Hi)) S1). clear IH.
    destruct (cp_try_from_cases p) as [[g [c [Hg [Hc [-> X]]]]]|[[L X]|[[e X] [_ Np]]]]; rewrite X; [|discriminate|].
    + destruct (filter_channels ps) as [r| | |]; try discriminate. cbn [bind]. intros Y. injection Y as <-.
      destruct (IH' r eq_refl) as [Sl Il]. destruct (Hq g c Hg Hc (or_introl eq_refl)) as [Qg Qc].
      assert (Ep : path_channel g c = raw_channel g c) by now rewrite path_channel_raw, !escape_id.
      rewrite Ep. split.
      * constructor; [exact Sl|]. rewrite Forall_forall in *. intros x Hx. apply S2. now apply Il.
      * intros x [<-|Hx]; [now left|right; now apply Il].
    + intros Y. destruct (IH' l Y) as [Sl Il]. split; [exact Sl|]. intros x Hx. right. now apply Il.
Qed.

(** The call panics exactly when an object whose path starts with the argument has
    a part that is one quote. *)
Theorem C95_panics : forall E H F s, any_session E H F ->
  list_channels_in_group F s = Panic PSlice <-> exists r, mentioned (all_objs H) (s ++ r) /\ lone_quote (s ++ r).
Proof.
  intros E H F s Se. destruct (session_keys E H F Se) as [Sk Hk]. split.
  - intros X. destruct (Exists_dec (fun p => parse_path p = Panic PSlice) (filter (is_prefix s) (map_keys (ix_objs (tf_ix F))))) as [D|D].
    { intros p. destruct (parse_path p) as [a|e|[]|]; (left; reflexivity) || (right; discriminate). }
    + apply Exists_exists in D. destruct D as [p [Hp D]]. apply filter_In in Hp. destruct Hp as [Hp Pr].
      apply is_prefix_app in Pr. destruct Pr as [r ->]. exists r. split; [now apply Hk|].
      pose proof (parse_path_inv (s ++ r)) as Q. rewrite D in Q. now destruct Q.
    + exfalso. destruct (C26_by_prefix E H F s Se) as [l [Y _]]; [|congruence].
      intros p r -> Hp L. apply D. apply Exists_exists. exists (s ++ r). split; [|now apply parse_path_lone].
      apply filter_In. split; [now apply Hk|]. apply is_prefix_app. eauto.
  - intros [r [M L]]. unfold list_channels_in_group, paths_starting_with. rewrite (range_prefix s (ix_objs (tf_ix F)) Sk).
    apply filter_channels_lone. exists (s ++ r). split; [|exact L]. apply filter_In. split; [now apply Hk|]. apply is_prefix_app. eauto.
Qed.

(** A name with quotes, up to the first. *)
Lemma first_quote s : ~ noquote s -> exists u v, s = u ++ x27 :: v /\ noquote u.
Proof.
  induction s as [|b s IH]; intros H; [exfalso; apply H; intros []|].
  destruct (Byte.byte_eq_dec b x27) as [->|N]; [exists [], s; split; [reflexivity|intros []]|].
  destruct IH as [u [v [-> Q]]].
  { intros Q. apply H. intros [X|X]; [now apply N|now apply Q]. }
  exists (b :: u), v. split; [reflexivity|]. intros [X|X]; [now apply N|now apply Q].
Qed.
Lemma noquote_dec s : {noquote s} + {~ noquote s}.
Proof. unfold noquote. destruct (in_dec Byte.byte_eq_dec x27 s); [right|left]; auto. Qed.

(** The channels of every group are listed exactly if no path behind a group has a
    part of one quote and no channel has a quote in its names. *)
Theorem C95_exactly : forall E H F, any_session E H F ->
  (forall g, noslash g -> lists_group F H g) <-> listable H.
Proof.
  intros E H F Se. destruct (session_keys E H F Se) as [Sk Hk]. split.
  - intros A. assert (L : forall g r, noslash g -> noquote g -> mentioned (all_objs H) (raw_group g ++ r) -> ~ lone_quote (raw_group g ++ r)).
    { intros g r Ng Qg M L. destruct (A g Ng) as [l [X _]].
      assert (Y : list_channels_in_group F (path_group g) = Panic PSlice).
      { apply (C95_panics E H F _ Se). rewrite path_group_raw, (escape_id g Qg). eauto. }
      congruence. }
    split; [exact L|]. intros g c Ng Nc M.
    assert (Qg : noquote g).
    { destruct (noquote_dec g) as [Q|Q]; [exact Q|exfalso]. destruct (first_quote g Q) as [u [v [-> Qu]]].
      assert (Nu : noslash u) by (intros X; apply Ng; apply in_or_app; now left).
      destruct (A u Nu) as [l [X [_ Hl]]].
      destruct (C26_by_prefix E H F (path_group u) Se) as [l' [X' Hl']].
      { intros p r ->. rewrite path_group_raw, (escape_id u Qu). now apply L. }
      rewrite X in X'. injection X' as <-.
      assert (Y : In (path_channel (u ++ x27 :: v) c) l).
      { apply Hl'. exists (u ++ x27 :: v), c, (v ++ [x27] ++ raw_group c). repeat (split; [assumption|]). split; [|reflexivity].
        rewrite path_group_raw, (escape_id u Qu). unfold raw_channel, raw_group. cbn [app]. rewrite <- !app_assoc. reflexivity. }
      apply Hl in Y. destruct Y as [c' [_ [Y _]]]. rewrite !path_channel_raw in Y.
      apply raw_channel_eq_slash in Y; try (now apply escape_noslash). 
      destruct Y as [Y _]. apply (f_equal (@length byte)) in Y. unfold escape_name in Y. rewrite !map_length, app_length in Y. cbn [length] in Y. lia. }
    split; [exact Qg|]. destruct (noquote_dec c) as [Q|Q]; [exact Q|exfalso].
    destruct (A g Ng) as [l [X [Sl Hl]]].
    destruct (C26_by_prefix E H F (path_group g) Se) as [l' [X' Hl']].
    { intros p r ->. rewrite path_group_raw, (escape_id g Qg). now apply L. }
    assert (Y : In (path_channel g c) l).
    { rewrite X in X'. injection X' as <-. apply Hl'. exists g, c, (raw_group c). repeat (split; [assumption|]). split; [|reflexivity].
      rewrite path_group_raw, (escape_id g Qg). reflexivity. }
    apply Hl in Y. destruct Y as [_ [_ [_ M']]].
    assert (Nc' : noslash (escape_name c)) by now apply escape_noslash.
    assert (Ep : path_channel g c = raw_channel g (escape_name c)) by now rewrite path_channel_raw, (escape_id g Qg).
    assert (In' : forall c0, mentioned (all_objs H) (raw_channel g c0) ->
      In (raw_channel g c0) (filter (is_prefix (path_group g)) (map_keys (ix_objs (tf_ix F))))).
    { intros c0 M0. apply filter_In. split; [now apply Hk|]. apply is_prefix_app. exists (raw_group c0).
      rewrite path_group_raw, (escape_id g Qg). reflexivity. }
    unfold list_channels_in_group, paths_starting_with in X. rewrite (range_prefix (path_group g) (ix_objs (tf_ix F)) Sk) in X.
    apply (twice _ (raw_channel g c) (raw_channel g (escape_name c)) (path_channel g c) l (In' c M)) in X.
    + apply X. now apply sorted_NoDup.
    + apply In'. now rewrite <- Ep.
    + intros Z. apply raw_channel_eq_slash in Z; auto. destruct Z as [_ Z]. apply Q. rewrite Z. apply escape_noquote.
    + now apply try_from_channel.
    + rewrite try_from_channel by assumption. rewrite !path_channel_raw, escape_idem. reflexivity.
  - intros [L Q] g Ng. assert (Ng' : noslash (escape_name g)) by now apply escape_noslash.
    destruct (C26_by_prefix E H F (path_group g) Se) as [l [X Hl]].
    { intros p r ->. rewrite path_group_raw. apply L; [exact Ng'|apply escape_noquote]. }
    exists l. split; [exact X|]. split.
    + unfold list_channels_in_group, paths_starting_with in X. rewrite (range_prefix (path_group g) (ix_objs (tf_ix F)) Sk) in X.
      refine (proj1 (filter_sorted _ _ _ l X)).
      * intros g0 c0 N0 N1 Hi. apply filter_In in Hi. apply Q; auto. now apply Hk.
      * apply sorted_filter. exact Sk.
    + intros x. rewrite Hl. split.
      * intros [g0 [c0 [r [N0 [N1 [M [Er ->]]]]]]]. destruct (Q g0 c0 N0 N1 M) as [Q0 Q1].
        assert (Eg : g0 = escape_name g).
        { apply (prefix_channel (escape_name g) g0 c0 (escape_noquote g) Q0). apply is_prefix_app. rewrite <- path_group_raw. eauto. }
        subst g0. exists c0. split; [exact N1|]. rewrite !path_channel_raw, escape_idem. split; [reflexivity|].
        rewrite (escape_id c0 Q1). exact M.
      * intros [c [Nc [-> M]]]. rewrite path_channel_raw in *. exists (escape_name g), (escape_name c), (raw_group (escape_name c)).
        split; [exact Ng'|]. split; [now apply escape_noslash|]. split; [exact M|]. split; [reflexivity|].
        rewrite path_channel_raw, !escape_idem. reflexivity.
Qed.

(** Files with paths of the form the library writes are such (C26). *)
Theorem C95_canonical : forall H, (forall p, mentioned (all_objs H) p -> canonical p) -> listable H.
Proof.
  intros H C. split.
  - intros g r _ _ M. now apply canonical_not_lone, C.
  - intros g c Ng _ M. now apply canonical_channel; [apply C|].
Qed.

(** All channels that are listed, for any argument, are in the file exactly if for
    every channel the path with the quotes replaced is. *)
Theorem C95_resolvable : forall E H F, any_session E H F ->
  (forall s l x, list_channels_in_group F s = Ok l -> In x l -> mentioned (all_objs H) x)
  <-> (forall g c, noslash g -> noslash c -> mentioned (all_objs H) (raw_channel g c) ->
        (forall r, mentioned (all_objs H) (raw_channel g c ++ r) -> ~ lone_quote (raw_channel g c ++ r)) ->
        mentioned (all_objs H) (path_channel g c)).
Proof.
  intros E H F Se. split.
  - intros A g c Ng Nc M Nl. destruct (C26_by_prefix E H F (raw_channel g c) Se) as [l [X Hl]].
    { intros p r ->. apply Nl. }
    apply (A _ l _ X). apply Hl. exists g, c, []. rewrite app_nil_r. auto.
  - intros A s l x X Hx. assert (Nl : forall r, mentioned (all_objs H) (s ++ r) -> ~ lone_quote (s ++ r)).
    { intros r M L. assert (Y : list_channels_in_group F s = Panic PSlice) by (apply (C95_panics E H F s Se); eauto). congruence. }
    destruct (C26_by_prefix E H F s Se) as [l' [X' Hl]]; [intros p r ->; apply Nl|].
    rewrite X in X'. injection X' as <-. apply Hl in Hx. destruct Hx as [g [c [r [Ng [Nc [M [Er ->]]]]]]].
    apply A; auto. intros r'. rewrite Er, <- app_assoc. apply Nl.
Qed.

(** Two groups and a name with a quote; and the file of C26 in which a foreign
    program has written a quote. *)
Example C95_case : exists H, any_session dbg H (open_bytes dbg (tf_bytes C25_file)) /\ listable H
  /\ lists_group (open_bytes dbg (tf_bytes C25_file)) H (B "it's") /\ mentioned (all_objs H) (ch "it's" "x").
Proof.
  assert (O : tdms_new dbg (tf_bytes C25_file) = Ok (open_bytes dbg (tf_bytes C25_file))) by (vm_compute; reflexivity).
  destruct (C14_open_is_session _ _ _ O) as [H [_ [Se _]]]. exists H. apply session_any in Se. split; [exact Se|].
  destruct (session_keys _ _ _ Se) as [_ Hk].
  assert (L : listable H).
  { apply C95_canonical. intros p M. apply Hk in M.
    replace (all_paths (tf_ix (open_bytes dbg (tf_bytes C25_file)))) with
      [path_group (B "alone"); ch "b" "c"; path_group (B "g"); ch "g" "a"; ch "g" "b"; ch "g" "c"; ch "it's" "x"] in M by (vm_compute; reflexivity).
    assert (N : forall n, existsb (Byte.eqb slash) n = false -> noslash n).
    { intros n Hn Hi. assert (X : existsb (Byte.eqb slash) n = true) by (apply existsb_exists; exists slash; auto). congruence. }
    assert (Cg : forall g, existsb (Byte.eqb slash) g = false -> canonical (path_group g)) by (intros g Hg; now apply (C26_constructed_canonical g g); apply N).
    assert (Cc : forall g c, existsb (Byte.eqb slash) g = false -> existsb (Byte.eqb slash) c = false -> canonical (path_channel g c))
      by (intros g c Hg Hc; now apply (C26_constructed_canonical g c); apply N).
    destruct M as [<-|[<-|[<-|[<-|[<-|[<-|[<-|[]]]]]]]]; (apply Cg || apply Cc); reflexivity. }
  split; [exact L|]. split; [|apply (proj1 (Hk _)); vm_compute; do 6 right; left; reflexivity].
  apply (C95_exactly _ _ _ Se); [exact L|]. intros X. vm_compute in X. intuition discriminate.
Qed.
Example C95_case_foreign : exists H, any_session dbg H (odd_file (B "/'g'x'/'c'")) /\ ~ listable H
  /\ ~ lists_group (odd_file (B "/'g'x'/'c'")) H (B "g").
Proof.
  set (f := fst (write_segment LittleE toc_default (Some [mkObj (B "/'g'x'/'c'") [] RINone]) None)).
  assert (O : tdms_new dbg f = Ok (odd_file (B "/'g'x'/'c'"))) by (vm_compute; reflexivity).
  destruct (C14_open_is_session _ _ _ O) as [H [_ [Se _]]]. exists H. apply session_any in Se. split; [exact Se|].
  destruct (session_keys _ _ _ Se) as [_ Hk]. split.
  - intros [_ Q]. destruct (Q (B "g'x") (B "c")) as [X _].
    + intros X. vm_compute in X. intuition discriminate.
    + intros X. vm_compute in X. intuition discriminate.
    + apply (proj1 (Hk _)). vm_compute. now left.
    + apply X. vm_compute. right. now left.
  - intros [l [X [_ Hl]]]. vm_compute in X. injection X as <-. destruct (Hl (path_channel (B "g'x") (B "c"))) as [Y _].
    destruct Y as [c [_ [Y _]]]; [vm_compute; auto|]. apply (f_equal (fun s => nth_error s 3)) in Y. vm_compute in Y. discriminate.
Qed.
Print Assumptions C95_panics.
Print Assumptions C95_exactly.
Print Assumptions C95_canonical.
Print Assumptions C95_resolvable.
