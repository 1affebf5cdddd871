(** * C92 What the accessors of a path give, for every name *)
From Coq Require Import Strings.String.
From Verif Require Import Base Lib Paths SpecPaths SpecNames Paths_proofs Vectors.
Close Scope string_scope.

Lemma outer_dec n : outer n \/ ~ outer n.
Proof.
  destruct n as [|b n]; [right; intros [r [X|X]]; [discriminate|now destruct r]|].
  destruct (Byte.eqb b x2f) eqn:K; [left; exists n; left; apply byte_eqb_eq in K; congruence|]. apply byte_eqb_neq in K.
  destruct (Byte.eqb (last (b :: n) x00) x2f) eqn:L.
  - left. exists (removelast (b :: n)). right. apply byte_eqb_eq in L. rewrite <- L. apply app_removelast_last. discriminate.
  - right. apply byte_eqb_neq in L. intros [r [X|X]]; [congruence|]. rewrite X, last_last in L. congruence.
Qed.
Lemma slash_dec n : noslash n \/ ~ noslash n.
Proof.
  unfold noslash. destruct (in_dec (fun a b => match Byte.eqb a b as c return Byte.eqb a b = c -> {a = b} + {a <> b} with
    | true => fun H => left (proj1 (byte_eqb_eq a b) H) | false => fun H => right (proj1 (byte_eqb_neq a b) H) end eq_refl) x2f n); tauto.
Qed.
Lemma outer_slash n : outer n -> ~ noslash n.
Proof. intros [r [-> | ->]] H; apply H; [now left|apply in_or_app; right; now left]. Qed.
Lemma name_cases n : noslash n \/ inner n \/ outer n.
Proof. destruct (slash_dec n); [auto|]. destruct (outer_dec n); [auto|]. right. left. split; assumption. Qed.

(** Escaping does not touch slashes. *)
Lemma escape_app x y : escape_name (x ++ y) = escape_name x ++ escape_name y.
Proof. apply map_app. Qed.
Lemma escape_outer n : outer (escape_name n) <-> outer n.
Proof.
  split.
  - intros [r [X|X]].
    + destruct n as [|b n]; [discriminate|]. cbn [escape_name map] in X. injection X as X _.
      destruct (Byte.eqb b squote) eqn:K; [discriminate|]. subst b. exists n. now left.
    + destruct n as [|b n] using rev_ind; [now destruct r|]. clear IHn. rewrite escape_app in X. apply app_inj_tail in X. destruct X as [_ X].
      destruct (Byte.eqb b squote) eqn:K; [discriminate|]. subst b. exists n. now right.
  - intros [r [-> | ->]]; [exists (escape_name r); now left|]. exists (escape_name r). right. now rewrite escape_app.
Qed.

(** ** The parts of a quoted name *)
Section Parts.
Context (k : nat) (rest : str) (Hr : rest = [] \/ exists r, rest = slash :: r).

Lemma rest_parts : exists ps, split_slash rest = [] :: ps.
Proof.
  destruct Hr as [-> | [r ->]]; [exists []; reflexivity|]. exists (split_slash r). cbn [split_slash].
  now rewrite byte_eqb_refl.
Qed.
Lemma end_parts : exists ps, split_slash (squote :: rest) = [squote] :: ps /\ tl (split_slash rest) = ps.
Proof. destruct rest_parts as [ps E]. exists ps. cbn [split_slash]. change (Byte.eqb squote slash) with false. cbv iota. rewrite E. auto. Qed.

Lemma quoted_plain b p : b <> squote -> quoted (b :: p) = false.
Proof. intros H. unfold quoted. apply byte_eqb_neq in H. now rewrite H. Qed.

(** Behind the opening quote: without the first part, and with it when a slash
    came before. *)
Lemma behind e : noquote e ->
  (forall q, e <> q ++ [slash]) ->
  levels_nth k (tl (split_slash (e ++ squote :: rest))) = levels_nth k (tl (split_slash rest))
  /\ (e <> [] -> levels_nth k (split_slash (e ++ squote :: rest)) = levels_nth k (tl (split_slash rest))).
Proof.
  induction e as [|b e IH]; intros Nq Ns.
  - split; [|congruence]. cbn [app]. destruct end_parts as [ps [-> ->]]. reflexivity.
  - assert (Nq' : noquote e) by (intros X; apply Nq; now right).
    assert (Ns' : forall q, e <> q ++ [slash]) by (intros q X; apply (Ns (b :: q)); now rewrite X).
    assert (Nb : b <> squote) by (intros ->; apply Nq; now left).
    destruct (IH Nq' Ns') as [T S0]. cbn [app split_slash]. destruct (Byte.eqb b slash) eqn:K.
    + apply byte_eqb_eq in K. subst b. assert (Ne : e <> []) by (intros ->; apply (Ns []); reflexivity).
      cbn [tl levels_nth quoted]. auto.
    + destruct (split_slash (e ++ squote :: rest)) as [|p ps] eqn:Es; [now apply split_nonempty in Es|].
      cbn [tl] in *. split; [exact T|]. intros _. cbn [levels_nth]. rewrite quoted_plain by exact Nb. exact T.
Qed.
Lemma behind_end e : noquote e ->
  levels_nth k (tl (split_slash ((e ++ [slash]) ++ squote :: rest))) = Panic PSlice
  /\ levels_nth k (split_slash ((e ++ [slash]) ++ squote :: rest)) = Panic PSlice.
Proof.
  destruct end_parts as [ps [Ee _]].
  assert (Lone : levels_nth k ([squote] :: ps) = Panic PSlice) by (destruct k; reflexivity).
  induction e as [|b e IH]; intros Nq.
  - cbn [app]. cbn [split_slash] in *. rewrite byte_eqb_refl. cbn [tl]. fold (split_slash (squote :: rest)).
    change (Byte.eqb squote slash) with false in *. cbv iota in *. rewrite Ee. cbn [levels_nth quoted]. split; exact Lone.
  - assert (Nq' : noquote e) by (intros X; apply Nq; now right).
    assert (Nb : b <> squote) by (intros ->; apply Nq; now left).
    destruct (IH Nq') as [T S0]. cbn [app] in *. cbn [split_slash]. destruct (Byte.eqb b slash) eqn:K.
    + cbn [tl levels_nth quoted]. auto.
    + destruct (split_slash ((e ++ [slash]) ++ squote :: rest)) as [|p ps'] eqn:Es; [now apply split_nonempty in Es|].
      cbn [tl] in *. split; [exact T|]. cbn [levels_nth]. rewrite quoted_plain by exact Nb. exact T.
Qed.

(** The whole of it. *)
Lemma level_plain e : noslash e ->
  levels_nth k (split_slash (squote :: e ++ squote :: rest))
  = match k with O => Ok (Some e) | S k' => levels_nth k' (tl (split_slash rest)) end.
Proof.
  intros Ns.
  assert (Es : split_slash (squote :: e ++ squote :: rest) = inq e :: tl (split_slash rest)).
  { destruct Hr as [-> | [r ->]].
    - change (squote :: e ++ [squote]) with (inq e). cbn [split_slash tl]. apply split_noslash. now apply noslash_inq.
    - replace (squote :: e ++ squote :: slash :: r) with (inq e ++ slash :: r).
      2: { unfold inq. cbn [app]. now rewrite <- app_assoc. }
      rewrite split_app by now apply noslash_inq. cbn [split_slash]. now rewrite byte_eqb_refl. }
  rewrite Es. cbn [levels_nth]. rewrite quoted_inq, strip_inq. cbn [bind]. destruct k; reflexivity.
Qed.
Lemma quote_first e p ps : split_slash (e ++ squote :: rest) = p :: ps -> noquote e -> ~ noslash e -> hd x00 e <> slash ->
  levels_nth k (split_slash (squote :: e ++ squote :: rest)) = levels_nth k ps.
Proof.
  intros Es Nq Sl Hs. change (squote :: e ++ squote :: rest) with (squote :: (e ++ squote :: rest)). cbn [split_slash].
  change (Byte.eqb squote slash) with false. cbv iota. rewrite Es. cbn [levels_nth].
  assert (Hq : quoted (squote :: p) = false).
  { destruct (split_inv e) as [q [Nsq [[-> _]|[r [-> _]]]]]; [contradiction|].
    rewrite <- app_assoc in Es. cbn [app] in Es. rewrite split_app in Es by exact Nsq. injection Es as <- _.
    destruct q as [|b q] using rev_ind; [now cbn in Hs|]. clear IHq.
    unfold quoted. rewrite byte_eqb_refl. cbn [andb]. rewrite app_comm_cons, last_last. apply byte_eqb_neq. intros ->.
    apply Nq. apply in_or_app. left. apply in_or_app. right. now left. }
  now rewrite Hq.
Qed.
Lemma level_inner e : noquote e -> inner e ->
  levels_nth k (split_slash (squote :: e ++ squote :: rest)) = levels_nth k (tl (split_slash rest)).
Proof.
  intros Nq [Sl No]. destruct (split_slash (e ++ squote :: rest)) as [|p ps] eqn:Es; [now apply split_nonempty in Es|].
  rewrite (quote_first e p ps Es Nq Sl).
  - destruct (behind e Nq) as [T _]; [intros q ->; apply No; exists q; now right|]. rewrite Es in T. exact T.
  - intros X. destruct e as [|b e]; [discriminate|]. cbn in X. subst b. apply No. exists e. now left.
Qed.
Lemma level_outer e : noquote e -> outer e ->
  levels_nth k (split_slash (squote :: e ++ squote :: rest)) = Panic PSlice.
Proof.
  intros Nq O. destruct (Byte.eqb (hd x00 e) slash) eqn:K.
  - apply byte_eqb_eq in K. destruct e as [|b e]; [discriminate|]. cbn in K. subst b.
    change (squote :: (slash :: e) ++ squote :: rest) with ([squote] ++ slash :: (e ++ squote :: rest)).
    rewrite split_app by apply noslash_lone. cbn [levels_nth]. destruct k; reflexivity.
  - apply byte_eqb_neq in K. destruct O as [r [-> | ->]]; [now cbn in K|]. change [x2f] with [slash] in *.
    destruct (split_slash ((r ++ [slash]) ++ squote :: rest)) as [|p ps] eqn:Es; [now apply split_nonempty in Es|].
    rewrite (quote_first (r ++ [slash]) p ps Es Nq); [|intros X; apply X; apply in_or_app; right; now left|exact K].
    destruct (behind_end r) as [T _]; [intros X; apply Nq; apply in_or_app; now left|]. rewrite Es in T. exact T.
Qed.
End Parts.

Definition parts_tail (ns : list str) : str := concat (map (fun n => slash :: squote :: escape_name n ++ [squote]) ns).
Lemma tail_rest ns : parts_tail ns = [] \/ exists r, parts_tail ns = slash :: r.
Proof. destruct ns as [|n ns]; [now left|]. right. eexists. reflexivity. Qed.
Lemma levels_asked ns : forall k, asked k ns (levels_nth k (tl (split_slash (parts_tail ns)))).
Proof.
  induction ns as [|n ns IH]; intros k; [constructor|].
  assert (Ep : tl (split_slash (parts_tail (n :: ns))) = split_slash (squote :: escape_name n ++ squote :: parts_tail ns)).
  { unfold parts_tail. cbn [map concat]. fold (parts_tail ns). cbn [app]. rewrite <- app_assoc. cbn [app].
    change (slash :: ?x) with ([] ++ slash :: x) at 1. rewrite split_app by (intros []). reflexivity. }
  rewrite Ep. destruct (name_cases n) as [Ns|[In0|O]].
  - rewrite level_plain; [|apply tail_rest|now apply escape_noslash]. destruct k as [|k]; [apply asked_this; [exact Ns|apply escape_escaped]|].
    apply asked_next; auto.
  - rewrite level_inner; [apply asked_skip; auto|apply tail_rest|apply escape_noquote|].
    destruct In0 as [Sl No]. split; [intros X; apply Sl; now apply escape_noslash|intros X; apply No; now apply escape_outer].
  - rewrite level_outer; [now apply asked_panic|apply tail_rest|apply escape_noquote|now apply escape_outer].
Qed.

(** ** C92 The accessors, for all names *)
Theorem C92_accessors : forall g c,
  asked 0 [g] (pp_group_name (path_group g)) /\ asked 1 [g] (pp_channel_name (path_group g))
  /\ asked 0 [g; c] (pp_group_name (path_channel g c)) /\ asked 1 [g; c] (pp_channel_name (path_channel g c)).
Proof.
  intros g c.
  assert (Eg : path_group g = parts_tail [g]) by (unfold parts_tail; cbn [map concat]; now rewrite app_nil_r).
  assert (Ec : path_channel g c = parts_tail [g; c]).
  { unfold parts_tail, path_channel. cbn [map concat app]. rewrite app_nil_r, <- app_assoc. reflexivity. }
  unfold pp_group_name, pp_channel_name. rewrite Eg, Ec. repeat split; apply levels_asked.
Qed.
(** [asked] has one answer. *)
Theorem C92_determined : forall k ns r r', asked k ns r -> asked k ns r' -> r = r'.
Proof.
  intros k ns r r' A. revert r'. induction A as [k|n n' ns Ns Es|k n ns r Ns A IH|k n ns r In0 A IH|k n ns O]; intros r' B; inversion B; subst; auto;
    try (exfalso; match goal with
      | H : outer ?n, H' : noslash ?n |- _ => exact (outer_slash n H H')
      | H : inner ?n, H' : noslash ?n |- _ => exact (proj1 H H')
      | H : inner ?n, H' : outer ?n |- _ => exact (proj2 H H') end).
  match goal with H : escaped _ _ |- _ => apply escaped_unique in H end. apply escaped_unique in Es. congruence.
Qed.
(** So the accessors give the names back exactly when these have no slash. *)
Theorem C92_exactly : forall g c g' c', escaped g g' -> escaped c c' ->
  (pp_group_name (path_group g) = Ok (Some g') <-> noslash g)
  /\ (cp_group_name (path_channel g c) = Ok g' /\ cp_channel_name (path_channel g c) = Ok c' <-> noslash g /\ noslash c).
Proof.
  intros g c g' c' Eg Ec. destruct (C92_accessors g c) as [A1 [_ [A3 A4]]].
  pose proof (escaped_unique _ _ Eg) as Ug. pose proof (escaped_unique _ _ Ec) as Uc.
  split; [split|split].
  - intros X. rewrite X in A1. inversion A1 as [| | |? ? ? ? ? A|]; subst; [assumption|inversion A].
  - intros Ns. apply (C92_determined 0 [g]); [exact A1|]. now constructor.
  - unfold cp_group_name, cp_channel_name, expect. intros [X Y].
    assert (X' : pp_group_name (path_channel g c) = Ok (Some g')).
    { destruct (pp_group_name (path_channel g c)) as [[x|]| | |]; cbn [bind] in X; congruence. }
    assert (Y' : pp_channel_name (path_channel g c) = Ok (Some c')).
    { destruct (pp_channel_name (path_channel g c)) as [[x|]| | |]; cbn [bind] in Y; congruence. }
    rewrite Y' in A4. inversion A4 as [| |? ? ? ? Ng A|? ? ? ? In0 A|]; subst.
    + split; [exact Ng|]. inversion A as [| | |? ? ? ? ? A0|]; subst; [assumption|inversion A0].
    + exfalso. inversion A as [| |? ? ? ? ? A0|? ? ? ? ? A0|]; subst; inversion A0.
  - intros [Ng Nc]. unfold cp_group_name, cp_channel_name, expect.
    rewrite (C92_determined 0 [g; c] _ (Ok (Some g')) A3) by now constructor.
    rewrite (C92_determined 1 [g; c] _ (Ok (Some c')) A4) by (apply asked_next; [exact Ng|now constructor]). auto.
Qed.
(** And with a slash inside the name of the group, the name of the channel is
    given for that of the group. *)
Theorem C92_wrong_name : forall g c c', inner g -> noslash c -> escaped c c' ->
  cp_group_name (path_channel g c) = Ok c' /\ cp_channel_name (path_channel g c) = Panic PExpect.
Proof.
  intros g c c' In0 Nc Ec. destruct (C92_accessors g c) as [_ [_ [A3 A4]]]. unfold cp_group_name, cp_channel_name, expect.
  rewrite (C92_determined 0 [g; c] _ (Ok (Some c')) A3) by (apply asked_skip; [exact In0|now constructor]).
  rewrite (C92_determined 1 [g; c] _ (Ok None) A4) by (apply asked_skip; [exact In0|apply asked_next; [exact Nc|constructor]]). auto.
Qed.

(** ** Parsing the paths that are built *)
Lemma first_part e more : noquote e -> ~ noslash e ->
  exists q r ps, e = q ++ slash :: r /\ noslash q /\ split_slash (squote :: e ++ more) = (squote :: q) :: ps
    /\ parse_name (squote :: q) = if Nat.eqb (length q) 0 then Panic PSlice else Ok None.
Proof.
  intros Nq Sl. destruct (split_inv e) as [q [Ns [[-> _]|[r [-> _]]]]]; [contradiction|].
  exists q, r, (split_slash (r ++ more)). split; [reflexivity|]. split; [exact Ns|]. split.
  - rewrite <- app_assoc. cbn [app]. change (squote :: q ++ slash :: r ++ more) with ((squote :: q) ++ slash :: (r ++ more)).
    apply split_app. intros [X|X]; [discriminate|contradiction].
  - destruct q as [|b q]; [reflexivity|]. cbn [length Nat.eqb]. unfold parse_name, quoted. rewrite byte_eqb_refl. cbn [andb].
    replace (Byte.eqb (last (squote :: b :: q) x00) squote) with false; [reflexivity|]. symmetry. apply byte_eqb_neq.
    destruct q as [|z q] using rev_ind; [|clear IHq].
    + cbn [last]. intros ->. apply Nq. now left.
    + rewrite !app_comm_cons, last_last. intros ->. apply Nq. right. apply in_or_app. left. apply in_or_app. right. now left.
Qed.

(** A path that was built parses exactly when the names have no slash; it panics
    when the first name with a slash starts with it; otherwise it is refused. *)
Theorem C92_parse : forall g c g' c', escaped g g' -> escaped c c' ->
  (noslash g /\ noslash c -> parse_path (path_channel g c) = Ok (Some g', Some c'))
  /\ ((exists r, g = x2f :: r) \/ (noslash g /\ exists r, c = x2f :: r) -> parse_path (path_channel g c) = Panic PSlice)
  /\ (~ (noslash g /\ noslash c) -> ~ ((exists r, g = x2f :: r) \/ (noslash g /\ exists r, c = x2f :: r)) ->
      parse_path (path_channel g c) = Err (EInvalidObjectPath (path_channel g c))).
Proof.
  intros g c g' c' Eg Ec. apply escaped_unique in Eg, Ec. subst g' c'.
  assert (Hd : forall n q r, noslash q -> escape_name n = q ++ slash :: r -> length q = 0%nat <-> exists x, n = x2f :: x).
  { intros n q r Nq X. split.
    - intros L. destruct q; [|discriminate]. destruct n as [|b n]; [discriminate|]. cbn [escape_name map app] in X. injection X as X _.
      destruct (Byte.eqb b squote); [discriminate|]. subst b. now exists n.
    - intros [x ->]. destruct q as [|b q]; [reflexivity|]. exfalso. cbn [escape_name map app] in X. injection X as X _.
      apply Nq. left. symmetry. exact X. }
  set (s := path_channel g c).
  assert (Ps : parse_path s = ('(group, p1) <- next_part s (split_slash (squote :: escape_name g ++ squote :: slash :: inq (escape_name c))) ;;
                  '(channel, p2) <- next_part s p1 ;;
                  match p2 with
                  | [] => Ok (group, channel)
                  | p :: _ => _x <- parse_name p ;; Err (EInvalidObjectPath s)
                  end)).
  { rewrite parse_path_parts by (discriminate || reflexivity). unfold s, path_channel. cbn [app tl]. unfold inq. reflexivity. }
  rewrite Ps. clearbody s. clear Ps.
  destruct (slash_dec g) as [Ng|Sg].
  - replace (squote :: escape_name g ++ squote :: slash :: inq (escape_name c)) with (inq (escape_name g) ++ slash :: inq (escape_name c)).
    2: { unfold inq. cbn [app]. now rewrite <- app_assoc. }
    rewrite split_app by (apply noslash_inq; now apply escape_noslash). cbn [next_part]. rewrite parse_name_inq. cbn [bind].
    destruct (slash_dec c) as [Nc|Sc].
    + rewrite split_noslash by (apply noslash_inq; now apply escape_noslash). cbn [next_part]. rewrite parse_name_inq. cbn [bind].
      split; [reflexivity|]. split; [|tauto]. intros [[r ->]|[_ [r ->]]]; exfalso; [apply Ng|apply Nc]; now left.
    + destruct (first_part (escape_name c) [squote]) as [q [r [ps [Eq [Nq [Es Pn]]]]]]; [apply escape_noquote|intros X; apply Sc; now apply escape_noslash|].
      unfold inq. rewrite Es. cbn [next_part]. rewrite Pn. pose proof (Hd c q r Nq Eq) as K.
      destruct (Nat.eqb (length q) 0) eqn:L; [apply Nat.eqb_eq in L|apply Nat.eqb_neq in L]; cbn [bind]; (split; [tauto|split]).
      * reflexivity.
      * intros _ X. exfalso. apply X. right. tauto.
      * intros [[x ->]|[_ X]]; exfalso; [apply Ng; now left|tauto].
      * reflexivity.
  - destruct (first_part (escape_name g) (squote :: slash :: inq (escape_name c))) as [q [r [ps [Eq [Nq [Es Pn]]]]]];
      [apply escape_noquote|intros X; apply Sg; now apply escape_noslash|].
    rewrite Es. cbn [next_part]. rewrite Pn. pose proof (Hd g q r Nq Eq) as K.
    destruct (Nat.eqb (length q) 0) eqn:L; [apply Nat.eqb_eq in L|apply Nat.eqb_neq in L]; cbn [bind]; (split; [tauto|split]).
    + reflexivity.
    + intros _ X. exfalso. apply X. left. tauto.
    + intros [X|[X _]]; exfalso; tauto.
    + reflexivity.
Qed.
Example C92_case_inner : inner (B "a/b").
Proof.
  split; [intros H; apply H; right; now left|]. intros [r [X|X]]; [discriminate|].
  apply (f_equal (fun l => last l x00)) in X. rewrite last_last in X. discriminate.
Qed.
Example C92_case :
  cp_group_name (path_channel (B "a/b") (B "it's")) = Ok (bytes [105;116;34;115])
  /\ pp_group_name (path_group (B "a/b")) = Ok None
  /\ outer (B "km/") /\ pp_channel_name (path_channel (B "v") (B "km/")) = Panic PSlice
  /\ cp_group_name (path_channel (B "v") (B "km/")) = Ok (B "v")
  /\ parse_path (path_channel (B "v") (B "/h")) = Panic PSlice
  /\ parse_path (path_channel (B "v") (B "km/h")) = Err (EInvalidObjectPath (path_channel (B "v") (B "km/h"))).
Proof. repeat split; try reflexivity. exists (B "km"). now right. Qed.
Print Assumptions C92_accessors.
Print Assumptions C92_determined.
Print Assumptions C92_exactly.
Print Assumptions C92_wrong_name.
Print Assumptions C92_parse.
