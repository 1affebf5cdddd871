(** * Claims C21-C27: paths and listings *)
From Coq Require Import Strings.String.
From Verif Require Import Base Lib DataTypes Paths MetaData Maps DataBlock Index TdmsFile Maps_proofs
  SpecIndex Index_proofs History_proofs SpecSession Session_proofs SpecPaths Paths_proofs Vectors Thm_Index.
Close Scope string_scope.

(** ** C21 Path construction and parsing agree *)
Theorem C21_build_parse : forall g c g' c',
  noslash g -> noslash c -> escaped g g' -> escaped c c' ->
  parse_path path_file = Ok (None, None)
  /\ parse_path (path_group g) = Ok (Some g', None)
  /\ parse_path (path_channel g c) = Ok (Some g', Some c')
  /\ pp_try_from path_file = Ok path_file
  /\ pp_try_from (path_group g) = Ok (path_group g)
  /\ pp_try_from (path_channel g c) = Ok (path_channel g c)
  /\ cp_try_from (path_channel g c) = Ok (path_channel g c).
Proof.
  intros g c g' c' Hg Hc Eg Ec. apply escaped_unique in Eg, Ec. subst g' c'.
  assert (Pg : parse_path (path_group g) = Ok (Some (escape_name g), None)).
  { rewrite path_group_raw. now apply parse_path_group, escape_noslash. }
  assert (Pc : parse_path (path_channel g c) = Ok (Some (escape_name g), Some (escape_name c))).
  { rewrite path_channel_raw. apply parse_path_channel; now apply escape_noslash. }
  assert (Tc : pp_try_from (path_channel g c) = Ok (path_channel g c)).
  { unfold pp_try_from. rewrite Pc. cbn [bind]. now rewrite !path_channel_raw, !escape_idem. }
  do 3 (split; [reflexivity||assumption|]). split; [reflexivity|].
  split; [unfold pp_try_from; rewrite Pg; cbn [bind]; now rewrite !path_group_raw, escape_idem|].
  split; [exact Tc|]. unfold cp_try_from. rewrite Tc. cbn [bind]. unfold cp_of_pp, is_channel.
  rewrite path_channel_raw, depth_raw_channel by now apply escape_noslash. reflexivity.
Qed.
Example C21_case :
  noslash (B "it's") /\ noslash (B "") /\ escaped (B "it's") (bytes [105;116;34;115])
  /\ parse_path (path_channel (B "it's") (B "")) = Ok (Some (bytes [105;116;34;115]), Some (B "")).
Proof.
  split; [intros H; cbn in H; intuition discriminate|]. split; [intros []|].
  split; [apply escape_escaped|reflexivity].
Qed.
(** With a slash in a name the path that was built does not parse. *)
Theorem C21_slash_refuted : exists g c,
  parse_path (path_channel g c) = Err (EInvalidObjectPath (path_channel g c)).
Proof. exists (B "a/b"), (B "c"). reflexivity. Qed.

(** ** C22 Path accessors *)
Theorem C22_accessors_partial : forall g c g' c',
  noslash g -> noslash c -> escaped g g' -> escaped c c' ->
  pp_group_name path_file = Ok None /\ pp_channel_name path_file = Ok None
  /\ pp_group_name (path_group g) = Ok (Some g') /\ pp_channel_name (path_group g) = Ok None
  /\ pp_group_name (path_channel g c) = Ok (Some g') /\ pp_channel_name (path_channel g c) = Ok (Some c')
  /\ cp_group_name (path_channel g c) = Ok g' /\ cp_channel_name (path_channel g c) = Ok c'.
Proof.
  intros g c g' c' Hg Hc Eg Ec. apply escaped_unique in Eg, Ec. subst g' c'.
  apply escape_noslash in Hg. apply escape_noslash in Hc.
  assert (Sg : tl (split_slash (path_group g)) = [inq (escape_name g)]).
  { rewrite path_group_raw, raw_group_inq. change (slash :: ?x) with ([] ++ slash :: x).
    rewrite split_app by (intros []). cbn [tl]. now apply split_noslash, noslash_inq. }
  assert (Sc : tl (split_slash (path_channel g c)) = [inq (escape_name g); inq (escape_name c)]).
  { rewrite path_channel_raw. unfold raw_channel. rewrite !raw_group_inq.
    change ((slash :: ?x) ++ ?y) with ([] ++ slash :: x ++ y).
    rewrite split_app by (intros []). cbn [tl]. rewrite split_app by now apply noslash_inq.
    now rewrite split_noslash by now apply noslash_inq. }
  do 2 (split; [reflexivity|]).
  unfold cp_group_name, cp_channel_name, pp_group_name, pp_channel_name. rewrite Sg, Sc.
  cbn [levels_nth]. rewrite !quoted_inq, !strip_inq. cbn [bind expect levels_nth].
  rewrite ?quoted_inq, ?strip_inq. cbn [bind expect levels_nth]. repeat split.
Qed.
Example C22_case :
  cp_group_name (path_channel (B "group") (B "it's")) = Ok (B "group")
  /\ cp_channel_name (path_channel (B "group") (B "it's")) = Ok (bytes [105;116;34;115]).
Proof. split; reflexivity. Qed.
(** Missing: names containing '/'.  There the claim is false: the accessors
    panic, or give a different name. *)
Theorem C22_slash_refuted :
  cp_channel_name (path_channel (B "a/b") (B "c")) = Panic PExpect
  /\ cp_group_name (path_channel (B "a/b") (B "c")) = Ok (B "c")
  /\ pp_group_name (path_group (B "a/")) = Panic PSlice
  /\ (exists p, cp_of_pp (path_group (B "a/b")) = Ok p /\ cp_group_name p = Panic PExpect).
Proof. repeat split; try reflexivity. eexists. split; reflexivity. Qed.
(** For every name the path itself is built without failing; the accessors can
    only fail as above: by slicing a part that is one quote, or by [expect]. *)
Lemma levels_nth_cases ps : forall n,
  (exists x, levels_nth n ps = Ok x) \/ (levels_nth n ps = Panic PSlice /\ In [squote] ps).
Proof.
  induction ps as [|p ps IH]; intros n; cbn [levels_nth]; [eauto|].
  destruct (quoted p) eqn:Q.
  - destruct (quoted_inv p Q) as [->|[g ->]].
    + right. split; [reflexivity|now left].
    + rewrite strip_inq. cbn [bind]. destruct n as [|n]; [eauto|].
      destruct (IH n) as [H|[H K]]; [auto|]. right. split; [exact H|now right].
  - destruct (IH n) as [H|[H K]]; [auto|]. right. split; [exact H|now right].
Qed.
Lemma split_lone s p : In p (split_slash s) -> exists a b, s = a ++ p ++ b
  /\ (a = [] \/ exists a', a = a' ++ [slash]) /\ (b = [] \/ exists b', b = slash :: b').
Proof.
  remember (length s) as n eqn:Hn. revert s p Hn. induction n as [n IH] using lt_wf_ind. intros s p -> Hin.
  destruct (split_inv s) as [q [Hq [[-> E]|[r [-> E]]]]]; rewrite E in Hin.
  - destruct Hin as [<-|[]]. exists [], []. rewrite app_nil_r. auto.
  - destruct Hin as [<-|Hin].
    + exists [], (slash :: r). split; [reflexivity|]. split; [auto|]. right. eauto.
    + destruct (IH (length r)) with (s := r) (p := p) as [a [b [-> [Ha Hb]]]]; auto.
      { rewrite app_length. cbn [length]. lia. }
      exists (q ++ slash :: a), b. split; [rewrite <- app_assoc; reflexivity|]. split; [|exact Hb].
      right. destruct Ha as [->|[a' ->]]; [exists q|exists (q ++ slash :: a')]; rewrite <- ?app_assoc; reflexivity.
Qed.
Theorem C22_panics_only_on_lone_quote : forall s,
  (forall a b, s <> a ++ [slash; squote; slash] ++ b) -> (forall a, s <> a ++ [slash; squote]) ->
  (exists x, pp_group_name s = Ok x) /\ (exists x, pp_channel_name s = Ok x).
Proof.
  intros s N1 N2.
  assert (L : forall n, exists x, levels_nth n (tl (split_slash s)) = Ok x).
  { intros n. destruct (levels_nth_cases (tl (split_slash s)) n) as [H|[_ H]]; [exact H|]. exfalso.
    destruct (split_inv s) as [q [Hq [[_ Q]|[r [-> Q]]]]]; rewrite Q in H; cbn [tl] in H; [destruct H|].
    apply split_lone in H. destruct H as [a [b [-> [Ha Hb]]]].
    destruct Hb as [->|[b' ->]].
    - rewrite app_nil_r in N2. destruct Ha as [->|[a' ->]].
      + eapply N2. reflexivity.
      + apply (N2 (q ++ slash :: a')). repeat (rewrite <- ?app_assoc; cbn [app]). reflexivity.
    - destruct Ha as [->|[a' ->]].
      + apply (N1 q b'). reflexivity.
      + apply (N1 (q ++ slash :: a') b'). repeat (rewrite <- ?app_assoc; cbn [app]). reflexivity. }
  split; apply L.
Qed.
Example C22_lone_case : exists x, pp_group_name (path_group (B "a/b")) = Ok x.
Proof. eexists. reflexivity. Qed.

(** ** C23 Distinct objects get distinct paths *)
Theorem C23_distinct : forall g c h d g' c' h' d',
  escaped g g' -> escaped c c' -> escaped h h' -> escaped d d' ->
  (path_channel g c = path_channel h d <-> g' = h' /\ c' = d')
  /\ (path_group g = path_group h <-> g' = h')
  /\ path_group g <> path_channel h d
  /\ path_file <> path_group g /\ path_file <> path_channel g c.
Proof.
  intros g c h d g' c' h' d' E1 E2 E3 E4. apply escaped_unique in E1, E2, E3, E4. subst g' c' h' d'.
  rewrite !path_channel_raw, !path_group_raw. split; [split|split; [split|split; [|split; discriminate]]].
  - intros H. apply raw_channel_eq in H; auto using escape_noquote.
  - intros [-> ->]. reflexivity.
  - apply raw_group_eq.
  - intros ->. reflexivity.
  - intros H. apply raw_group_channel in H; auto using escape_noquote.
Qed.
(** Names that differ only in the kind of quote share a path. *)
Example C23_case :
  path_channel (B "a'b") (B "c") = path_channel (bytes [97;34;98]) (B "c")
  /\ path_channel (B "a/b") (B "c") <> path_channel (B "a") (B "b/c").
Proof. split; [reflexivity|discriminate]. Qed.

(** ** C24 Path parsing classifies every string *)
Theorem C24_parse : forall s,
  match parse_path s with
  | Ok (None, None) => s = [x2f]
  | Ok (Some g, None) => noslash g /\ s = raw_group g
  | Ok (Some g, Some c) => noslash g /\ noslash c /\ s = raw_channel g c
  | Ok (None, Some _) => False
  | Err e => e = EInvalidObjectPath s /\ s <> [x2f] /\ (forall g, ~ group_of s g) /\ ~ lone_quote s
  | Panic p => p = PSlice /\ lone_quote s
  | Diverge => False
  end.
Proof.
  intros s. pose proof (parse_path_inv s) as H.
  destruct (parse_path s) as [[[g|] [c|]]|e|p|] eqn:P; auto.
  split; [exact H|]. split; [intros ->; discriminate|]. split.
  - intros g [Hg [->|[c [Hc ->]]]]; [rewrite parse_path_group in P by assumption|rewrite parse_path_channel in P by assumption]; discriminate.
  - intros L. apply parse_path_lone in L. congruence.
Qed.
Theorem C24_channel_path : forall s,
  (exists p, cp_try_from s = Ok p) <-> exists g c, noslash g /\ noslash c /\ s = raw_channel g c.
Proof.
  intros s. destruct (cp_try_from_cases s) as [[g [c [Hg [Hc [-> X]]]]]|[[L X]|[[e X] [_ N]]]]; rewrite X.
  - split; eauto 6.
  - split; [intros [p Hp]; discriminate|]. intros [g [c [Hg [Hc ->]]]].
    apply parse_path_lone in L. rewrite parse_path_channel in L by assumption. discriminate.
  - split; [intros [p Hp]; discriminate|]. intros [g [c [Hg [Hc ->]]]]. exfalso. now apply (N g c).
Qed.
Example C24_case :
  parse_path (B "/'a'b'/'c'") = Ok (Some (B "a'b"), Some (B "c"))
  /\ parse_path (B "/'a'/b") = Err (EInvalidObjectPath (B "/'a'/b"))
  /\ cp_try_from (B "/'a'/'b'") = Ok (B "/'a'/'b'").
Proof. repeat split. Qed.
(** A string can also make parsing panic. *)
Theorem C24_panic_refuted : parse_path (B "/'") = Panic PSlice /\ lone_quote (B "/'/'c'").
Proof.
  split; [reflexivity|]. exists [], (B "'c'"). split; [now left|]. right. reflexivity.
Qed.

(** ** C25 list_groups *)
Lemma session_keys E H F : any_session E H F ->
  sorted (all_paths (tf_ix F)) /\ forall p, In p (all_paths (tf_ix F)) <-> mentioned (all_objs H) p.
Proof.
  intros S. apply any_session_told in S. destruct S as [I [Hk _]]. split; [apply (inv_sorted _ I)|].
  intros p. rewrite <- Hk. apply map_get_key.
Qed.

Theorem C25_list_groups : forall E H F,
  any_session E H F ->
  (forall p, mentioned (all_objs H) p -> ~ lone_quote p) ->
  exists l, list_groups F = Ok l /\ sorted l /\ NoDup l
    /\ forall g, In g l <-> exists p, mentioned (all_objs H) p /\ group_of p g.
Proof.
  intros E H F S Hn. destruct (session_keys E H F S) as [Sk Hk]. unfold list_groups.
  destruct (collect_groups_ok (all_paths (tf_ix F)) []) as [l [X [Sl Hl]]].
  - constructor.
  - intros p Hp. now apply Hn, Hk.
  - exists l. split; [exact X|]. split; [exact Sl|]. split; [now apply sorted_NoDup|].
    intros g. rewrite Hl. split.
    + intros [[]|[p [Hp G]]]. exists p. split; [now apply Hk|exact G].
    + intros [p [Hp G]]. right. exists p. split; [now apply Hk|exact G].
Qed.
(** The condition is exact: otherwise the call panics. *)
Theorem C25_panics_iff : forall E H F,
  any_session E H F ->
  (list_groups F = Panic PSlice <-> exists p, mentioned (all_objs H) p /\ lone_quote p).
Proof.
  intros E H F S. destruct (session_keys E H F S) as [_ Hk]. split.
  - intros X. destruct (Exists_dec (fun p => parse_path p = Panic PSlice) (all_paths (tf_ix F))) as [D|D].
    { intros p. destruct (parse_path p) as [a|e|[]|]; (left; reflexivity) || (right; discriminate). }
    + apply Exists_exists in D. destruct D as [p [Hp D]]. exists p. split; [now apply Hk|].
      pose proof (parse_path_inv p) as Q. rewrite D in Q. now destruct Q.
    + exfalso. destruct (C25_list_groups E H F S) as [l [Y _]]; [|congruence].
      intros p Hp L. apply D. apply Exists_exists. exists p. split; [now apply Hk|]. now apply parse_path_lone.
  - intros [p [Hp L]]. apply collect_groups_lone. exists p. split; [now apply Hk|exact L].
Qed.
Definition C25_file : tfile :=
  fst (write_properties dbg
    (fst (write_channels dbg SI32 C14_file [ch "it's" "x"; ch "b" "c"] [1;2]%Z Interleaved))
    (path_group (B "alone")) []).
Example C25_case :
  list_groups C25_file = Ok [B "alone"; B "b"; B "g"; bytes [105;116;34;115]]
  /\ list_groups (open_bytes dbg (tf_bytes C14_file)) = Ok [B "g"].
Proof. vm_compute. split; reflexivity. Qed.
(** A group whose name contains a slash is not listed, and a group called "/"
    makes the call panic. *)
Theorem C25_slash_refuted :
  list_groups (fst (write_properties dbg C14_file (path_group (B "a/b")) [])) = Ok [B "g"]
  /\ snd (write_properties dbg C14_file (path_group (B "/")) []) = Ok tt
  /\ list_groups (fst (write_properties dbg C14_file (path_group (B "/")) [])) = Panic PSlice.
Proof. vm_compute. repeat split. Qed.

(** ** C26 list_channels_in_group *)
(** For any path argument: the well-formed channels whose stored path starts
    with it. *)
Theorem C26_by_prefix : forall E H F s,
  any_session E H F ->
  (forall p r, p = s ++ r -> mentioned (all_objs H) p -> ~ lone_quote p) ->
  exists l, list_channels_in_group F s = Ok l
    /\ forall x, In x l <-> exists g c r, noslash g /\ noslash c /\ mentioned (all_objs H) (raw_channel g c)
                                       /\ raw_channel g c = s ++ r /\ x = path_channel g c.
Proof.
  intros E H F s S Hn. destruct (session_keys E H F S) as [Sk Hk]. unfold list_channels_in_group, paths_starting_with.
  rewrite (range_prefix s (ix_objs (tf_ix F)) Sk).
  destruct (filter_channels_ok (filter (is_prefix s) (map_keys (ix_objs (tf_ix F))))) as [l [X [Hl _]]].
  - intros p Hp. apply filter_In in Hp. destruct Hp as [Hp Pr]. apply is_prefix_app in Pr.
    destruct Pr as [r Pr]. apply (Hn p r Pr). now apply Hk.
  - exists l. split; [exact X|]. intros x. rewrite Hl. split.
    + intros [g [c [Hg [Hc [Hin ->]]]]]. apply filter_In in Hin. destruct Hin as [Hin Pr].
      apply is_prefix_app in Pr. destruct Pr as [r Pr]. exists g, c, r.
      repeat (split; [assumption||(now apply Hk)|]). reflexivity.
    + intros [g [c [r [Hg [Hc [Hin [Pr ->]]]]]]]. exists g, c. split; [exact Hg|]. split; [exact Hc|].
      split; [|reflexivity]. apply filter_In. split; [now apply Hk|]. apply is_prefix_app. eauto.
Qed.

(** For a group path, in a file all of whose paths have the form the library
    writes. *)
Theorem C26_list_channels : forall E H F g,
  any_session E H F ->
  (forall p, mentioned (all_objs H) p -> canonical p) ->
  noslash g ->
  exists l, list_channels_in_group F (path_group g) = Ok l /\ sorted l /\ NoDup l
    /\ forall x, In x l <-> exists c, noslash c /\ x = path_channel g c /\ mentioned (all_objs H) x.
Proof.
  intros E H F g S Hc Hg. destruct (session_keys E H F S) as [Sk Hk]. unfold list_channels_in_group, paths_starting_with.
  rewrite (range_prefix (path_group g) (ix_objs (tf_ix F)) Sk).
  assert (Can : forall p, In p (map_keys (ix_objs (tf_ix F))) -> canonical p) by (intros p Hp; now apply Hc, Hk).
  destruct (filter_channels_ok (filter (is_prefix (path_group g)) (map_keys (ix_objs (tf_ix F))))) as [l [X [Hl Hs]]].
  - intros p Hp. apply filter_In in Hp. destruct Hp as [Hp _]. now apply canonical_not_lone, Can.
  - exists l. split; [exact X|].
    destruct Hs as [Sl Il].
    { intros g' c' Hin. apply filter_In in Hin. destruct Hin as [Hin _]. apply Can in Hin.
      destruct Hin as [Q|[[h [Sh [_ Q]]]|[h [d [Sh [Qh [Sd [Qd Q]]]]]]]]; [discriminate| |].
      - symmetry in Q. now apply raw_group_channel_slash in Q.
      - assert (Z : noslash g').
        { pose proof (parse_path_channel h d Sh Sd) as P. rewrite <- Q in P.
          pose proof (f_equal path_depth Q) as Dp. rewrite (depth_raw_channel h d Sh Sd) in Dp.
          unfold raw_channel in Dp. rewrite depth_app, !raw_group_inq in Dp.
          change (slash :: ?x) with ([slash] ++ x) in Dp. rewrite !depth_app in Dp.
          change (path_depth [slash]) with 1%nat in Dp.
          assert (D0 : path_depth (inq g') = 0%nat) by lia.
          intros Y. unfold path_depth in D0. apply length_zero_iff_nil in D0.
          assert (Z2 : In slash (filter (fun b => Byte.eqb b slash) (inq g'))).
          { apply filter_In. split; [right; apply in_or_app; now left|apply byte_eqb_refl]. }
          rewrite D0 in Z2. destruct Z2. }
        apply raw_channel_eq_slash in Q; [|exact Z|exact Sh]. now destruct Q as [-> ->]. }
    { now apply sorted_filter. }
    split; [exact Sl|]. split; [now apply sorted_NoDup|]. intros x. rewrite Hl. split.
    + intros [g' [c [Hg' [Hc' [Hin ->]]]]]. apply filter_In in Hin. destruct Hin as [Hin Pr].
      pose proof (Can _ Hin) as K. apply canonical_channel in K; [|exact Hg']. destruct K as [Kg Kc].
      rewrite path_group_raw in Pr. apply prefix_channel in Pr; auto using escape_noquote. subst g'.
      exists c. split; [exact Hc'|].
      assert (Q : path_channel (escape_name g) c = raw_channel (escape_name g) c) by now rewrite path_channel_raw, escape_idem, (escape_id c).
      split; [now rewrite !path_channel_raw, escape_idem|]. rewrite Q. now apply Hk.
    + intros [c [Hc' [-> M]]]. exists (escape_name g), (escape_name c). rewrite path_channel_raw in *.
      split; [now apply escape_noslash|]. split; [now apply escape_noslash|]. split.
      * apply filter_In. split; [now apply Hk|]. rewrite path_group_raw. apply prefix_channel; auto using escape_noquote.
      * now rewrite path_channel_raw, !escape_idem.
Qed.
(** Everything the constructors produce for names without a slash is canonical. *)
Theorem C26_constructed_canonical : forall g c, noslash g -> noslash c ->
  canonical path_file /\ canonical (path_group g) /\ canonical (path_channel g c).
Proof.
  intros g c Hg Hc. rewrite path_group_raw, path_channel_raw. split; [now left|].
  split; [right; left; exists (escape_name g)|right; right; exists (escape_name g), (escape_name c)];
    repeat split; auto using escape_noquote; now apply escape_noslash.
Qed.
Example C26_case :
  list_channels_in_group C25_file (path_group (B "g")) = Ok [ch "g" "a"; ch "g" "b"; ch "g" "c"]
  /\ list_channels_in_group C25_file (path_group (B "it's")) = Ok [ch "it's" "x"]
  /\ list_channels_in_group C25_file (path_group (B "i")) = Ok []
  /\ list_channels_in_group C25_file path_file = Ok [ch "b" "c"; ch "g" "a"; ch "g" "b"; ch "g" "c"; ch "it's" "x"].
Proof. vm_compute. repeat split. Qed.
(** With other paths the full claim fails: channels of a group whose name
    contains a slash are not listed, and a stored path [/'g'x'/'c'] (which
    parses as group [g'x]) is listed under [g]. *)
Definition odd_file (p : str) : tfile :=
  open_bytes dbg (fst (write_segment LittleE toc_default (Some [mkObj p [] RINone]) None)).
Theorem C26_foreign_refuted :
  (let F := fst (write_channels dbg SI32 C14_file [ch "a/b" "c"] [1]%Z Interleaved) in
   list_channels_in_group F (path_group (B "a/b")) = Ok []
   /\ channel_length dbg F (ch "a/b" "c") = Ok (Some 1))
  /\ list_channels_in_group (odd_file (B "/'g'x'/'c'")) (path_group (B "g")) = Ok [path_channel (B "g'x") (B "c")].
Proof. vm_compute. repeat split. Qed.

(** ** C27 Listed channels can be looked up *)
Theorem C27_resolvable : forall E H F s l x,
  any_session E H F ->
  (forall p, mentioned (all_objs H) p -> canonical p) ->
  list_channels_in_group F s = Ok l -> In x l ->
  mentioned (all_objs H) x /\ get_positions (tf_ix F) x <> None
  /\ (forall n, exists v, read_property F x n = Ok v) /\ read_all_properties F x <> None
  /\ channel_length E F x <> Ok None.
Proof.
  intros E H F s l x S Hc X Hin.
  destruct (C26_by_prefix E H F s S) as [l' [X' Hl]].
  { intros p r _ M. apply canonical_not_lone. now apply Hc. }
  rewrite X in X'. injection X' as <-. apply Hl in Hin.
  destruct Hin as [g [c [r [Hg [Hc' [M [_ ->]]]]]]].
  pose proof (canonical_channel g c (Hc _ M) Hg) as [Qg Qc].
  assert (Q : path_channel g c = raw_channel g c) by now rewrite path_channel_raw, !escape_id.
  rewrite Q in *. split; [exact M|].
  apply any_session_told in S. destruct S as [_ [Hk _]]. apply Hk in M. unfold known in M.
  unfold get_positions, read_property, get_object_property, read_all_properties, get_object_properties, channel_length, ix_channel_length.
  destruct (map_get (raw_channel g c) (ix_objs (tf_ix F))) as [od|]; [|contradiction].
  split; [discriminate|]. split; [eauto|]. split; [discriminate|].
  intros Y. apply bind_ok in Y. destruct Y as [y [_ Y]]. discriminate.
Qed.
Example C27_case :
  exists l, list_channels_in_group C25_file path_file = Ok l /\ In (ch "it's" "x") l
  /\ channel_length dbg C25_file (ch "it's" "x") = Ok (Some 1).
Proof. eexists. vm_compute. repeat split. auto 6. Qed.
(** The same file: the listed path does not exist. *)
Theorem C27_foreign_refuted : exists F x,
  tdms_new dbg (tf_bytes F) = Ok F
  /\ list_channels_in_group F (path_group (B "g")) = Ok [x] /\ channel_length dbg F x = Ok None.
Proof. exists (odd_file (B "/'g'x'/'c'")), (path_channel (B "g'x") (B "c")). vm_compute. repeat split. Qed.

Print Assumptions C21_build_parse.
Print Assumptions C21_slash_refuted.
Print Assumptions C22_accessors_partial.
Print Assumptions C22_slash_refuted.
Print Assumptions C22_panics_only_on_lone_quote.
Print Assumptions C23_distinct.
Print Assumptions C24_parse.
Print Assumptions C24_channel_path.
Print Assumptions C24_panic_refuted.
Print Assumptions C25_list_groups.
Print Assumptions C25_panics_iff.
Print Assumptions C25_slash_refuted.
Print Assumptions C26_by_prefix.
Print Assumptions C26_list_channels.
Print Assumptions C26_constructed_canonical.
Print Assumptions C26_foreign_refuted.
Print Assumptions C27_resolvable.
Print Assumptions C27_foreign_refuted.
