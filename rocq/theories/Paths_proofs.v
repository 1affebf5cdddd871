(** * Lemmas about paths and listings *)
From Verif Require Import Base Lib Paths MetaData Maps DataBlock Index TdmsFile Maps_proofs SpecPaths.

Lemma slash_eqb b : Byte.eqb b slash = true <-> b = slash.
Proof. apply byte_eqb_eq. Qed.

Lemma split_nonempty s : split_slash s <> [].
Proof. destruct s as [|b r]; cbn [split_slash]; [discriminate|]. destruct (Byte.eqb b slash); [discriminate|]. destruct (split_slash r); discriminate. Qed.

Lemma split_noslash p : noslash p -> split_slash p = [p].
Proof.
  induction p as [|b p IH]; intros H; cbn [split_slash]; [reflexivity|].
  destruct (Byte.eqb b slash) eqn:K.
  - apply byte_eqb_eq in K. exfalso. apply H. now left.
  - rewrite IH; [reflexivity|]. intros X. apply H. now right.
Qed.

Lemma split_app p r : noslash p -> split_slash (p ++ slash :: r) = p :: split_slash r.
Proof.
  induction p as [|b p IH]; intros H; cbn [app split_slash].
  - now rewrite byte_eqb_refl.
  - destruct (Byte.eqb b slash) eqn:K.
    + apply byte_eqb_eq in K. exfalso. apply H. now left.
    + rewrite IH; [reflexivity|]. intros X. apply H. now right.
Qed.

Lemma split_inv s : exists p, noslash p /\
  ((s = p /\ split_slash s = [p]) \/ exists r, s = p ++ slash :: r /\ split_slash s = p :: split_slash r).
Proof.
  induction s as [|b s IH].
  - exists []. split; [intros []|]. auto.
  - destruct (Byte.eqb b slash) eqn:K.
    + apply byte_eqb_eq in K. subst b. exists []. split; [intros []|]. right. exists s.
      split; [reflexivity|]. cbn [split_slash]. now rewrite byte_eqb_refl.
    + assert (Hb : b <> slash) by now apply byte_eqb_neq.
      destruct IH as [p [Hp H]]. exists (b :: p). split.
      { intros [X|X]; [now apply Hb|now apply Hp]. }
      destruct H as [[-> H]|[r [-> H]]].
      * left. split; [reflexivity|]. apply split_noslash. intros [X|X]; [now apply Hb|now apply Hp].
      * right. exists r. split; [reflexivity|]. apply (split_app (b :: p)).
        intros [X|X]; [now apply Hb|now apply Hp].
Qed.

(** A name in quotes. *)
Definition inq (g : str) : str := squote :: g ++ [squote].

Lemma noslash_inq g : noslash g -> noslash (inq g).
Proof.
  intros H [X|X]; [discriminate|]. apply in_app_or in X. destruct X as [X|[X|[]]]; [now apply H|discriminate].
Qed.
Lemma noslash_inq_inv g : noslash (inq g) -> noslash g.
Proof. intros H X. apply H. right. apply in_or_app. now left. Qed.

Lemma quoted_inq g : quoted (inq g) = true.
Proof.
  unfold quoted, inq. rewrite byte_eqb_refl. cbn [andb]. rewrite app_comm_cons, last_last. apply byte_eqb_refl.
Qed.
Lemma strip_inq g : strip (inq g) = Ok g.
Proof.
  unfold strip, inq. cbn [length tl]. rewrite app_length. cbn [length].
  replace (Nat.ltb (S (length g + 1)) 2) with false by (symmetry; apply Nat.ltb_ge; lia).
  now rewrite removelast_last.
Qed.
Lemma quoted_inv p : quoted p = true -> p = [squote] \/ exists g, p = inq g.
Proof.
  destruct p as [|b p]; [discriminate|]. unfold quoted. intros H. apply andb_true_iff in H.
  destruct H as [H1 H2]. apply byte_eqb_eq in H1. subst b.
  destruct (list_eq_dec Byte.byte_eq_dec p []) as [->|Hn]; [now left|]. right.
  destruct (exists_last Hn) as [g [x ->]]. rewrite app_comm_cons, last_last in H2.
  apply byte_eqb_eq in H2. subst x. exists g. reflexivity.
Qed.

Lemma parse_name_inq g : parse_name (inq g) = Ok (Some g).
Proof. unfold parse_name. now rewrite quoted_inq, strip_inq. Qed.
Lemma parse_name_lone : parse_name [squote] = Panic PSlice.
Proof. reflexivity. Qed.
Lemma parse_name_cases p :
  (exists g, p = inq g /\ parse_name p = Ok (Some g))
  \/ (p = [squote] /\ parse_name p = Panic PSlice)
  \/ (parse_name p = Ok None /\ quoted p = false).
Proof.
  destruct (quoted p) eqn:Q.
  - destruct (quoted_inv p Q) as [->|[g ->]]; [right; left; auto|]. left. exists g. split; [auto|apply parse_name_inq].
  - right. right. unfold parse_name. now rewrite Q.
Qed.

Lemma raw_group_inq g : raw_group g = slash :: inq g.
Proof. reflexivity. Qed.

(** ** parse_path *)
Lemma parse_path_parts s : s <> [] -> s <> [slash] -> hd x00 s = slash ->
  parse_path s = ('(group, p1) <- next_part s (split_slash (tl s)) ;;
                  '(channel, p2) <- next_part s p1 ;;
                  match p2 with
                  | [] => Ok (group, channel)
                  | p :: _ => _x <- parse_name p ;; Err (EInvalidObjectPath s)
                  end).
Proof.
  destruct s as [|b s]; [contradiction|]. cbn [hd]. intros _ H ->. unfold parse_path.
  rewrite byte_eqb_refl. destruct s as [|b s]; [contradiction|].
  cbn [tl]. change (split_slash (slash :: b :: s)) with ([] :: split_slash (b :: s)). reflexivity.
Qed.

Lemma parse_path_root : parse_path [slash] = Ok (None, None).
Proof. reflexivity. Qed.

Lemma parse_path_group g : noslash g -> parse_path (raw_group g) = Ok (Some g, None).
Proof.
  intros H. rewrite parse_path_parts by (discriminate || reflexivity).
  rewrite raw_group_inq at 2. cbn [tl]. rewrite split_noslash by now apply noslash_inq.
  cbn [next_part]. rewrite parse_name_inq. reflexivity.
Qed.

Lemma raw_channel_tl g c : tl (raw_channel g c) = inq g ++ slash :: inq c.
Proof. reflexivity. Qed.

Lemma parse_path_channel g c : noslash g -> noslash c -> parse_path (raw_channel g c) = Ok (Some g, Some c).
Proof.
  intros Hg Hc. rewrite parse_path_parts by (discriminate || reflexivity).
  rewrite raw_channel_tl, split_app by now apply noslash_inq.
  rewrite (split_noslash (inq c)) by now apply noslash_inq.
  cbn [next_part]. rewrite parse_name_inq. cbn [bind next_part]. rewrite parse_name_inq. reflexivity.
Qed.

Lemma noslash_lone : noslash [squote].
Proof. intros [X|[]]; discriminate. Qed.

Lemma parse_path_lone s : lone_quote s -> parse_path s = Panic PSlice.
Proof.
  intros [pre [r [Hp Hs]]].
  assert (L : exists rest, s = pre ++ slash :: rest /\ exists more, split_slash rest = [squote] :: more).
  { destruct Hs as [->| ->].
    - exists [squote]. split; [reflexivity|]. exists []. reflexivity.
    - exists ([squote] ++ slash :: r). split; [reflexivity|]. exists (split_slash r). apply split_app, noslash_lone. }
  clear Hs. destruct L as [rest [-> [more Hm]]].
  assert (Hr : rest <> []) by (intros ->; cbn in Hm; discriminate).
  destruct Hp as [->|[[g [Hg ->]]|[g [c [Hg [Hc ->]]]]]].
  - rewrite parse_path_parts; [|discriminate|cbn; congruence|reflexivity].
    cbn [app tl]. rewrite Hm. cbn [next_part]. now rewrite parse_name_lone.
  - rewrite parse_path_parts; [|discriminate|discriminate|reflexivity].
    rewrite raw_group_inq at 2. cbn [app tl]. change (inq g ++ slash :: rest) with (inq g ++ slash :: rest).
    rewrite split_app by now apply noslash_inq. rewrite Hm. cbn [next_part].
    rewrite parse_name_inq. cbn [bind next_part]. now rewrite parse_name_lone.
  - rewrite parse_path_parts; [|discriminate|discriminate|reflexivity].
    replace (tl (raw_channel g c ++ slash :: rest)) with (inq g ++ slash :: inq c ++ slash :: rest).
    2:{ unfold raw_channel. rewrite !raw_group_inq. cbn [app tl]. now rewrite <- app_assoc. }
    rewrite split_app by now apply noslash_inq.
    rewrite split_app by now apply noslash_inq. rewrite Hm. cbn [next_part].
    rewrite parse_name_inq. cbn [bind next_part]. rewrite parse_name_inq. cbn [bind next_part].
    now rewrite parse_name_lone.
Qed.

(** The shape of the string for each result. *)
Lemma parse_path_inv s :
  match parse_path s with
  | Ok (None, None) => s = [slash]
  | Ok (Some g, None) => noslash g /\ s = raw_group g
  | Ok (Some g, Some c) => noslash g /\ noslash c /\ s = raw_channel g c
  | Ok (None, Some _) => False
  | Err e => e = EInvalidObjectPath s
  | Panic p => p = PSlice /\ lone_quote s
  | Diverge => False
  end.
Proof.
  destruct s as [|b s]; [reflexivity|].
  destruct (Byte.eqb b slash) eqn:K; [|unfold parse_path; now rewrite K].
  apply byte_eqb_eq in K. subst b.
  destruct (list_eq_dec Byte.byte_eq_dec s []) as [->|Hn]; [reflexivity|].
  rewrite parse_path_parts; [|discriminate|congruence|reflexivity]. cbn [tl].
  destruct (split_inv s) as [p [Hp Hs]].
  assert (E1 : exists more, split_slash s = p :: more) by (destruct Hs as [[_ Q]|[r [_ Q]]]; eauto).
  destruct E1 as [more Hm]. rewrite Hm. cbn [next_part].
  destruct (parse_name_cases p) as [[g [-> Pn]]|[[-> Pn]|[Pn _]]]; rewrite Pn; cbn [bind]; [| |reflexivity].
  2:{ split; [reflexivity|]. exists []. destruct Hs as [[-> _]|[r [-> _]]].
      - exists []. split; [now left|]. now left.
      - exists r. split; [now left|]. now right. }
  apply noslash_inq_inv in Hp.
  destruct Hs as [[-> Q]|[r [-> Q]]].
  { rewrite Q in Hm. injection Hm as <-. cbn [next_part bind]. split; [exact Hp|reflexivity]. }
  rewrite Q in Hm. injection Hm as <-.
  destruct (split_inv r) as [p2 [Hp2 Hs2]].
  assert (E2 : exists more, split_slash r = p2 :: more) by (destruct Hs2 as [[_ Q2]|[r2 [_ Q2]]]; eauto).
  destruct E2 as [more2 Hm2]. rewrite Hm2. cbn [next_part].
  destruct (parse_name_cases p2) as [[c [-> Pn2]]|[[-> Pn2]|[Pn2 _]]]; rewrite Pn2; cbn [bind]; [| |reflexivity].
  2:{ split; [reflexivity|]. exists (raw_group g). destruct Hs2 as [[-> _]|[r2 [-> _]]].
      - exists []. split; [right; left; eauto|]. left. reflexivity.
      - exists r2. split; [right; left; eauto|]. right. reflexivity. }
  apply noslash_inq_inv in Hp2.
  destruct Hs2 as [[-> Q2]|[r2 [-> Q2]]].
  { rewrite Q2 in Hm2. injection Hm2 as <-. split; [exact Hp|]. split; [exact Hp2|reflexivity]. }
  rewrite Q2 in Hm2. injection Hm2 as <-.
  destruct (split_inv r2) as [p3 [Hp3 Hs3]].
  assert (E3 : exists more, split_slash r2 = p3 :: more) by (destruct Hs3 as [[_ Q3]|[r3 [_ Q3]]]; eauto).
  destruct E3 as [more3 Hm3]. rewrite Hm3.
  destruct (parse_name_cases p3) as [[d [-> Pn3]]|[[-> Pn3]|[Pn3 _]]]; rewrite Pn3; cbn [bind]; [reflexivity| |reflexivity].
  split; [reflexivity|]. exists (raw_channel g c).
  assert (Assoc : forall x, slash :: inq g ++ slash :: inq c ++ slash :: x = raw_channel g c ++ slash :: x).
  { intros x. unfold raw_channel. rewrite !raw_group_inq. cbn [app]. now rewrite <- app_assoc. }
  destruct Hs3 as [[-> _]|[r3 [-> _]]].
  - exists []. split; [right; right; eauto 6|]. left. apply Assoc.
  - exists r3. split; [right; right; eauto 6|]. right. apply Assoc.
Qed.

(** ** escaping *)
Lemma escape_escaped s : escaped s (escape_name s).
Proof.
  unfold escaped, escape_name. induction s as [|b s IH]; cbn [map]; constructor; [|exact IH].
  destruct (Byte.eqb b squote) eqn:K.
  - apply byte_eqb_eq in K. now left.
  - apply byte_eqb_neq in K. now right.
Qed.
Lemma escaped_unique a b : escaped a b -> b = escape_name a.
Proof.
  unfold escaped, escape_name. induction 1 as [|x y a b H _ IH]; [reflexivity|]. cbn [map]. rewrite <- IH.
  destruct H as [[-> ->]|[H ->]]; [reflexivity|]. apply byte_eqb_neq in H.
  change (Byte.eqb x squote = false) in H. now rewrite H.
Qed.
Lemma escape_noquote s : noquote (escape_name s).
Proof.
  unfold noquote, escape_name. rewrite in_map_iff. intros [b [H _]].
  destruct (Byte.eqb b squote) eqn:K; [discriminate|]. apply byte_eqb_neq in K. now apply K.
Qed.
Lemma escape_id s : noquote s -> escape_name s = s.
Proof.
  induction s as [|b s IH]; intros H; [reflexivity|]. cbn [escape_name map]. fold (escape_name s).
  rewrite IH by (intros X; apply H; now right).
  replace (Byte.eqb b squote) with false; [reflexivity|]. symmetry. apply byte_eqb_neq.
  intros ->. apply H. now left.
Qed.
Lemma escape_idem s : escape_name (escape_name s) = escape_name s.
Proof. apply escape_id, escape_noquote. Qed.
Lemma escape_noslash s : noslash (escape_name s) <-> noslash s.
Proof.
  unfold noslash, escape_name. rewrite in_map_iff. split.
  - intros H X. apply H. exists slash. split; [reflexivity|exact X].
  - intros H [b [X Hb]]. destruct (Byte.eqb b squote) eqn:K; [discriminate|]. subst b. now apply H.
Qed.

Lemma path_group_raw g : path_group g = raw_group (escape_name g).
Proof. reflexivity. Qed.
Lemma path_channel_raw g c : path_channel g c = raw_channel (escape_name g) (escape_name c).
Proof. unfold path_channel, raw_channel, raw_group. cbn [app]. rewrite <- app_assoc. reflexivity. Qed.

(** ** uniqueness of the decomposition *)
Lemma app_sep (x : byte) a b r r' : ~ In x a -> ~ In x b -> a ++ x :: r = b ++ x :: r' -> a = b /\ r = r'.
Proof.
  revert b. induction a as [|y a IH]; intros [|z b] Ha Hb H; cbn [app] in H.
  - split; congruence.
  - injection H as -> _. exfalso. apply Hb. now left.
  - injection H as -> _. exfalso. apply Ha. now left.
  - injection H as -> H. destruct (IH b) as [-> ->]; auto; intros X; [apply Ha|apply Hb]; now right.
Qed.

Lemma raw_group_eq g g' : raw_group g = raw_group g' -> g = g'.
Proof. intros H. injection H as H. now apply app_inv_tail in H. Qed.
Lemma raw_channel_eq g c g' c' : noquote g -> noquote g' -> raw_channel g c = raw_channel g' c' -> g = g' /\ c = c'.
Proof.
  intros Hg Hg' H. injection H as H. rewrite <- !app_assoc in H. cbn [app] in H.
  apply app_sep in H; [|assumption|assumption]. destruct H as [-> H]. split; [reflexivity|]. injection H as H. now apply app_inv_tail in H.
Qed.
Lemma raw_channel_eq_slash g c g' c' : noslash g -> noslash g' -> raw_channel g c = raw_channel g' c' -> g = g' /\ c = c'.
Proof.
  intros Hg Hg' H. unfold raw_channel in H. rewrite !raw_group_inq in H. injection H as H.
  change (squote :: (g ++ [x27]) ++ slash :: inq c) with (inq g ++ slash :: inq c) in H.
  assert (H2 : inq g ++ slash :: inq c = inq g' ++ slash :: inq c') by (unfold inq at 1 3; cbn [app]; congruence).
  apply app_sep in H2; [|now apply noslash_inq|now apply noslash_inq]. destruct H2 as [Ha Hb].
  split; [injection Ha as Ha|injection Hb as Hb]; now apply app_inv_tail in H || (apply app_inv_tail in Ha; exact Ha) || (apply app_inv_tail in Hb; exact Hb).
Qed.
Lemma raw_group_channel g c g' : noquote g -> noquote g' -> raw_group g' = raw_channel g c -> False.
Proof.
  intros Hg Hg' H. injection H as H. rewrite <- app_assoc in H. cbn [app] in H.
  apply app_sep in H; [|assumption|assumption]. destruct H as [_ H]. discriminate.
Qed.
Lemma raw_group_channel_slash g c g' : noslash g' -> raw_group g' = raw_channel g c -> False.
Proof.
  intros Hg H. injection H as H. assert (X : In x2f (g' ++ [x27])).
  { rewrite H. apply in_or_app. right. now left. }
  apply in_app_or in X. destruct X as [X|[X|[]]]; [now apply Hg|discriminate].
Qed.

(** ** depth *)
Lemma depth_app a b : path_depth (a ++ b) = (path_depth a + path_depth b)%nat.
Proof. unfold path_depth. now rewrite filter_app, app_length. Qed.
Lemma depth_noslash a : noslash a -> path_depth a = 0%nat.
Proof.
  unfold path_depth. induction a as [|b a IH]; intros H; cbn [filter]; [reflexivity|].
  destruct (Byte.eqb b slash) eqn:K.
  - apply byte_eqb_eq in K. exfalso. apply H. now left.
  - apply IH. intros X. apply H. now right.
Qed.
Lemma depth_raw_group g : noslash g -> path_depth (raw_group g) = 1%nat.
Proof.
  intros H. rewrite raw_group_inq. change (slash :: inq g) with ([slash] ++ inq g).
  rewrite depth_app, (depth_noslash (inq g)) by now apply noslash_inq. reflexivity.
Qed.
Lemma depth_raw_channel g c : noslash g -> noslash c -> path_depth (raw_channel g c) = 2%nat.
Proof. intros Hg Hc. unfold raw_channel. now rewrite depth_app, !depth_raw_group. Qed.

Lemma cp_try_from_cases s :
  (exists g c, noslash g /\ noslash c /\ s = raw_channel g c /\ cp_try_from s = Ok (path_channel g c))
  \/ (lone_quote s /\ cp_try_from s = Panic PSlice)
  \/ ((exists e, cp_try_from s = Err e) /\ ~ lone_quote s
      /\ forall g c, noslash g -> noslash c -> s <> raw_channel g c).
Proof.
  pose proof (parse_path_inv s) as H. unfold cp_try_from, pp_try_from.
  assert (NL : (exists x, parse_path s = Ok x) \/ (exists e, parse_path s = Err e) -> ~ lone_quote s).
  { intros X L. apply parse_path_lone in L. destruct X as [[x X]|[x X]]; congruence. }
  assert (NC : forall g c, noslash g -> noslash c -> s = raw_channel g c -> parse_path s = Ok (Some g, Some c)).
  { intros g c Hg Hc ->. now apply parse_path_channel. }
  destruct (parse_path s) as [[[g|] [c|]]|e|p|]; cbn [bind]; [| |contradiction| | | |contradiction].
  - destruct H as [Hg [Hc ->]]. left. exists g, c. repeat (split; [assumption||reflexivity|]).
    unfold cp_of_pp, is_channel. rewrite path_channel_raw, depth_raw_channel by now apply escape_noslash. reflexivity.
  - destruct H as [Hg ->]. right. right. split; [|split; [apply NL; eauto|]].
    + unfold cp_of_pp, is_channel. rewrite path_group_raw, depth_raw_group by now apply escape_noslash. cbn. eauto.
    + intros g' c' Hg' Hc' X. apply (NC g' c' Hg' Hc') in X. discriminate.
  - subst s. right. right. split; [cbn; eauto|]. split; [apply NL; eauto|]. intros g' c' _ _. discriminate.
  - right. right. split; [eauto|]. split; [apply NL; eauto|]. intros g' c' Hg' Hc' X. apply (NC g' c' Hg' Hc') in X. discriminate.
  - destruct H as [-> L]. right. left. auto.
Qed.

(** ** listings *)
Lemma path_group_name_cases s :
  (exists g, group_of s g /\ path_group_name s = Ok (Some g))
  \/ (lone_quote s /\ path_group_name s = Panic PSlice)
  \/ ((forall g, ~ group_of s g) /\ ~ lone_quote s /\ path_group_name s = Ok None).
Proof.
  pose proof (parse_path_inv s) as H. unfold path_group_name.
  assert (NL : (exists x, parse_path s = Ok x) \/ (exists e, parse_path s = Err e) -> ~ lone_quote s).
  { intros X L. apply parse_path_lone in L. destruct X as [[x X]|[x X]]; congruence. }
  assert (NG : forall g, group_of s g -> exists c, parse_path s = Ok (Some g, c)).
  { intros g [Hg [->|[c [Hc ->]]]]; [exists None; now apply parse_path_group|exists (Some c); now apply parse_path_channel]. }
  destruct (parse_path s) as [[[g|] [c|]]|e|p|]; [| |contradiction| | | |contradiction].
  - destruct H as [Hg [Hc ->]]. left. exists g. split; [split; [exact Hg|right; eauto]|reflexivity].
  - destruct H as [Hg ->]. left. exists g. split; [split; [exact Hg|now left]|reflexivity].
  - right. right. split; [|split; [apply NL; eauto|reflexivity]].
    intros g G. destruct (NG g G) as [c X]. discriminate.
  - right. right. split; [|split; [apply NL; eauto|reflexivity]].
    intros g G. destruct (NG g G) as [c X]. discriminate.
  - destruct H as [-> L]. right. left. auto.
Qed.

Lemma group_of_unique s g g' : group_of s g -> group_of s g' -> g = g'.
Proof.
  intros [Hg A] [Hg' A']. destruct A as [->|[c [Hc ->]]], A' as [A'|[c' [Hc' A']]].
  - now apply raw_group_eq.
  - now apply raw_group_channel_slash in A'.
  - symmetry in A'. now apply raw_group_channel_slash in A'.
  - now apply raw_channel_eq_slash in A'.
Qed.

Lemma collect_groups_ok ps : forall acc, sorted acc -> (forall p, In p ps -> ~ lone_quote p) ->
  exists l, collect_groups ps acc = Ok l /\ sorted l
    /\ forall g, In g l <-> In g acc \/ exists p, In p ps /\ group_of p g.
Proof.
  induction ps as [|p ps IH]; intros acc Hs Hn; cbn [collect_groups].
  - exists acc. split; [reflexivity|]. split; [exact Hs|]. intros g. split; [auto|]. intros [H|[p [[] _]]]. exact H.
  - assert (Hn' : forall q, In q ps -> ~ lone_quote q) by (intros q Hq; apply Hn; now right).
    destruct (path_group_name_cases p) as [[g [Gp X]]|[[L _]|[Np [_ X]]]]; [| exfalso; eapply Hn; [now left|exact L] |];
      rewrite X; cbn [bind].
    + destruct (IH (set_insert g acc)) as [l [E [Sl Hl]]]; [now apply set_insert_sorted|exact Hn'|].
      exists l. split; [exact E|]. split; [exact Sl|]. intros g'. rewrite Hl, set_insert_in. split.
      * intros [[->|H]|[q [Hq Gq]]]; [right; exists p; split; [now left|exact Gp]|auto|right; exists q; split; [now right|exact Gq]].
      * intros [H|[q [[<-|Hq] Gq]]]; [auto|left; left; now apply (group_of_unique p)|right; eauto].
    + destruct (IH acc Hs Hn') as [l [E [Sl Hl]]]. exists l. split; [exact E|]. split; [exact Sl|].
      intros g'. rewrite Hl. split.
      * intros [H|[q [Hq Gq]]]; [auto|right; exists q; split; [now right|exact Gq]].
      * intros [H|[q [[<-|Hq] Gq]]]; [auto|exfalso; eapply Np; eauto|right; eauto].
Qed.
Lemma collect_groups_lone ps : (exists p, In p ps /\ lone_quote p) -> forall acc, collect_groups ps acc = Panic PSlice.
Proof.
  induction ps as [|p ps IH]; intros [q [Hq L]] acc; [destruct Hq|]. cbn [collect_groups].
  destruct (path_group_name_cases p) as [[g [Gp X]]|[[_ X]|[_ [NL X]]]]; rewrite X; cbn [bind]; [|reflexivity|].
  - apply IH. destruct Hq as [<-|Hq]; [|eauto]. exfalso.
    apply parse_path_lone in L. unfold path_group_name in X. now rewrite L in X.
  - apply IH. destruct Hq as [<-|Hq]; [contradiction|eauto].
Qed.

Lemma filter_channels_ok ps : (forall p, In p ps -> ~ lone_quote p) ->
  exists l, filter_channels ps = Ok l
    /\ (forall x, In x l <-> exists g c, noslash g /\ noslash c /\ In (raw_channel g c) ps /\ x = path_channel g c)
    /\ ((forall g c, In (raw_channel g c) ps -> noquote g /\ noquote c) -> sorted ps -> sorted l /\ incl l ps).
Proof.
  induction ps as [|p ps IH]; intros Hn; cbn [filter_channels].
  - exists []. split; [reflexivity|]. split.
    + intros x. split; [intros []|]. intros [g [c [_ [_ [[] _]]]]].
    + intros _ _. split; [constructor|]. intros x [].
  - destruct IH as [l [E [Hl Hs]]]; [intros q Hq; apply Hn; now right|].
    destruct (cp_try_from_cases p) as [[g [c [Hg [Hc [-> X]]]]]|[[L _]|[[e X] [_ Np]]]];
      [|exfalso; eapply Hn; [now left|exact L]|]; rewrite X.
    + rewrite E. cbn [bind]. eexists. split; [reflexivity|]. split.
      * intros x. cbn [In]. rewrite Hl. split.
        -- intros [<-|[g' [c' [A [B [C D]]]]]]; [exists g, c; auto|exists g', c'; auto].
        -- intros [g' [c' [A [B [[C|C] D]]]]]; [left|right; eauto 6].
           apply raw_channel_eq_slash in C; auto. destruct C as [-> ->]. now symmetry.
      * intros Hq Sp. inversion Sp as [|a b S1 S2]; subst.
        destruct Hs as [Sl Il]; [intros g' c' Hin; apply Hq; now right|exact S1|].
        destruct (Hq g c (or_introl eq_refl)) as [Qg Qc].
        assert (Ep : path_channel g c = raw_channel g c) by now rewrite path_channel_raw, !escape_id.
        rewrite Ep. split.
        -- constructor; [exact Sl|]. rewrite Forall_forall in *. intros x Hx. apply S2. now apply Il.
        -- intros x [<-|Hx]; [now left|right; now apply Il].
    + exists l. split; [exact E|]. split.
      * intros x. rewrite Hl. split; intros [g [c [A [B [C D]]]]]; exists g, c; (split; [exact A|]); (split; [exact B|]); (split; [|exact D]).
        -- now right.
        -- destruct C as [->|C]; [exfalso; now apply (Np g c)|exact C].
      * intros Hq Sp. inversion Sp as [|a b S1 S2]; subst.
        destruct Hs as [Sl Il]; [intros g' c' Hin; apply Hq; now right|exact S1|].
        split; [exact Sl|]. intros x Hx. right. now apply Il.
Qed.
Lemma filter_channels_lone ps : (exists p, In p ps /\ lone_quote p) -> filter_channels ps = Panic PSlice.
Proof.
  induction ps as [|p ps IH]; intros [q [Hq L]]; [destruct Hq|]. cbn [filter_channels].
  destruct (cp_try_from_cases p) as [[g [c [Hg [Hc [Ep X]]]]]|[[_ X]|[[e X] [NL _]]]]; rewrite X; [| reflexivity |].
  - rewrite IH; [reflexivity|]. destruct Hq as [<-|Hq]; [|eauto]. exfalso. apply parse_path_lone in L.
    subst p. rewrite parse_path_channel in L by assumption. discriminate.
  - apply IH. destruct Hq as [<-|Hq]; [contradiction|eauto].
Qed.

(** A channel path under a group path. *)
Lemma prefix_channel g g' c' : noquote g -> noquote g' ->
  is_prefix (raw_group g) (raw_channel g' c') = true <-> g' = g.
Proof.
  intros Hg Hg'. rewrite is_prefix_app. split.
  - intros [r H]. injection H as H. rewrite <- !app_assoc in H. cbn [app] in H.
    apply app_sep in H; [|assumption|assumption]. now destruct H.
  - intros ->. now exists (raw_group c').
Qed.
Lemma canonical_not_lone s : canonical s -> ~ lone_quote s.
Proof.
  intros H L. apply parse_path_lone in L.
  destruct H as [->|[[g [Hg [_ ->]]]|[g [c [Hg [_ [Hc [_ ->]]]]]]]].
  - discriminate.
  - rewrite parse_path_group in L by assumption. discriminate.
  - rewrite parse_path_channel in L by assumption. discriminate.
Qed.
Lemma canonical_channel g c : canonical (raw_channel g c) -> noslash g -> noquote g /\ noquote c.
Proof.
  intros [H|[[g' [Hg' [_ H]]]|[g' [c' [Hg' [Qg' [Hc' [Qc' H]]]]]]]] Hg.
  - discriminate.
  - symmetry in H. now apply raw_group_channel_slash in H.
  - apply raw_channel_eq_slash in H; auto. now destruct H as [-> ->].
Qed.
