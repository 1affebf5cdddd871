(** * Facts about the sorted-list maps of Maps.v *)
From Verif Require Import Base Lib Maps.
From Coq Require Import Sorting.Sorted.

Definition str_lt (a b : str) : Prop := str_cmp a b = Lt.

Lemma str_lt_trans a b c : str_lt a b -> str_lt b c -> str_lt a c.
Proof. apply str_cmp_trans. Qed.

Lemma str_lt_irrefl a : ~ str_lt a a.
Proof. unfold str_lt. rewrite str_cmp_refl. discriminate. Qed.

Lemma str_cmp_gt a b : str_cmp a b = Gt <-> str_lt b a.
Proof. unfold str_lt. rewrite (str_cmp_antisym b a). destruct (str_cmp b a); split; intros; discriminate || reflexivity. Qed.

Lemma str_lt_neq a b : str_lt a b -> a <> b.
Proof. intros H ->. now apply str_lt_irrefl in H. Qed.

Definition sorted (l : list str) : Prop := StronglySorted str_lt l.

Lemma sorted_NoDup l : sorted l -> NoDup l.
Proof.
  induction 1 as [|a l H IH Hf]; constructor; auto.
  intros Hin. rewrite Forall_forall in Hf. apply Hf in Hin. now apply str_lt_irrefl in Hin.
Qed.

Section M.
Context {V : Type}.
Implicit Types m : smap V.

Lemma map_get_insert k k' v m :
  map_get k (map_insert k' v m) = if str_eqb k k' then Some v else map_get k m.
Proof.
  induction m as [|[k1 v1] r IH]; cbn [map_insert map_get].
  - reflexivity.
  - destruct (str_cmp k' k1) eqn:C; cbn [map_get].
    + apply str_cmp_eq in C. subst k1. destruct (str_eqb k k'); reflexivity.
    + destruct (str_eqb k k'); reflexivity.
    + rewrite IH. destruct (str_eqb k k1) eqn:K1; [|reflexivity].
      apply str_eqb_eq in K1. subst k1.
      destruct (str_eqb k k') eqn:K2; [|reflexivity].
      apply str_eqb_eq in K2. subst. now rewrite str_cmp_refl in C.
Qed.

Lemma map_get_alter k k' g m :
  map_get k (map_alter k' g m) = if str_eqb k k' then option_map g (map_get k m) else map_get k m.
Proof.
  induction m as [|[k1 v1] r IH]; cbn [map_alter map_get].
  - destruct (str_eqb k k'); reflexivity.
  - destruct (str_eqb k' k1) eqn:C; cbn [map_get].
    + apply str_eqb_eq in C. subst k1. destruct (str_eqb k k') eqn:K; [reflexivity|reflexivity].
    + rewrite IH. destruct (str_eqb k k1) eqn:K1; [|reflexivity].
      apply str_eqb_eq in K1. subst k1. rewrite str_eqb_sym in C. rewrite C. reflexivity.
Qed.

Lemma map_keys_alter k g m : map_keys (map_alter k g m) = map_keys m.
Proof.
  induction m as [|[k1 v1] r IH]; cbn [map_alter]; [reflexivity|].
  destruct (str_eqb k k1); [reflexivity|]. unfold map_keys in *. cbn [map fst]. now rewrite IH.
Qed.

Lemma map_get_In k v m : map_get k m = Some v -> In (k, v) m.
Proof.
  induction m as [|[k1 v1] r IH]; cbn [map_get]; [discriminate|].
  destruct (str_eqb k k1) eqn:K; intros H.
  - apply str_eqb_eq in K. left. congruence.
  - right. auto.
Qed.

Lemma map_get_key k m : In k (map_keys m) <-> map_get k m <> None.
Proof.
  induction m as [|[k1 v1] r IH]; cbn [map_get map_keys map fst In].
  - split; [contradiction|congruence].
  - destruct (str_eqb k k1) eqn:K.
    + apply str_eqb_eq in K. split; [discriminate|auto].
    + apply str_eqb_neq in K. rewrite <- IH. unfold map_keys. split; [intros [H|H]; [congruence|exact H]|auto].
Qed.

Lemma In_map_get k v m : sorted (map_keys m) -> In (k, v) m -> map_get k m = Some v.
Proof.
  intros Hs Hin. apply sorted_NoDup in Hs. unfold map_keys in Hs.
  induction m as [|[k1 v1] r IH]; cbn [map_get map fst In] in *; [contradiction|].
  inversion Hs; subst. destruct Hin as [H|H].
  - injection H; intros; subst. now rewrite str_eqb_refl.
  - destruct (str_eqb k k1) eqn:K; [|auto].
    apply str_eqb_eq in K. subst. exfalso. apply H1. apply in_map_iff. now exists (k1, v).
Qed.

Lemma map_insert_keys_in k v m x : In x (map_keys (map_insert k v m)) <-> x = k \/ In x (map_keys m).
Proof.
  rewrite !map_get_key, map_get_insert. destruct (str_eqb x k) eqn:K.
  - apply str_eqb_eq in K. split; [auto|discriminate].
  - apply str_eqb_neq in K. split; [auto|]. intros [H|H]; [contradiction|exact H].
Qed.

Lemma map_insert_sorted k v m : sorted (map_keys m) -> sorted (map_keys (map_insert k v m)).
Proof.
  unfold sorted, map_keys. induction m as [|[k1 v1] r IH]; cbn [map_insert map fst]; intros H.
  - repeat constructor.
  - inversion H; subst. destruct (str_cmp k k1) eqn:C; cbn [map fst].
    + apply str_cmp_eq in C. subst. constructor; auto.
    + constructor; [constructor; auto|]. constructor; [exact C|].
      eapply Forall_impl; [|exact H3]. intros a Ha. eapply str_lt_trans; [exact C|exact Ha].
    + apply str_cmp_gt in C. constructor; [auto|].
      rewrite Forall_forall in *. intros x Hx.
      pose proof (map_insert_keys_in k v r x) as K. unfold map_keys in K. apply K in Hx.
      destruct Hx as [->|Hx]; auto.
Qed.

End M.

Lemma set_insert_in k s x : In x (set_insert k s) <-> x = k \/ In x s.
Proof.
  induction s as [|a r IH]; cbn [set_insert In].
  - split; intros [H|H]; auto.
  - destruct (str_cmp k a) eqn:C; cbn [In].
    + apply str_cmp_eq in C. subst. split; [auto|]. intros [->|H]; auto.
    + split; [intros [H|H]; auto|]. intros [->|H]; auto.
    + rewrite IH. split; [intros [H|[H|H]]; auto|]. intros [H|[H|H]]; auto.
Qed.

Lemma set_insert_sorted k s : sorted s -> sorted (set_insert k s).
Proof.
  unfold sorted. induction s as [|a r IH]; cbn [set_insert]; intros H.
  - repeat constructor.
  - inversion H; subst. destruct (str_cmp k a) eqn:C.
    + exact H.
    + constructor; [exact H|]. constructor; [exact C|].
      eapply Forall_impl; [|exact H3]. intros x Hx. eapply str_lt_trans; eauto.
    + apply str_cmp_gt in C. constructor; [auto|]. rewrite Forall_forall in *.
      intros x Hx. apply set_insert_in in Hx. destruct Hx as [->|Hx]; auto.
Qed.

(** ** Prefix ranges *)
Lemma is_prefix_app p s : is_prefix p s = true <-> exists r, s = p ++ r.
Proof.
  revert s. induction p as [|x p IH]; intros s; cbn [is_prefix app].
  - split; [eauto|reflexivity].
  - destruct s as [|y s]; [split; [discriminate|intros [r Hr]; discriminate]|].
    rewrite andb_true_iff, byte_eqb_eq, IH. split.
    + intros [-> [r ->]]. now exists r.
    + intros [r Hr]. injection Hr as -> ->. split; eauto.
Qed.

(** Strings with prefix [p] come after [p] and before everything larger that
    lacks the prefix. *)
Lemma prefix_ge p s : is_prefix p s = true -> str_cmp p s <> Gt.
Proof.
  revert s. induction p as [|x p IH]; intros s H; cbn [is_prefix str_cmp] in *.
  - destruct s; discriminate.
  - destruct s as [|y s]; [discriminate|]. apply andb_true_iff in H. destruct H as [H1 H2].
    apply byte_eqb_eq in H1. subst. rewrite N.compare_refl. auto.
Qed.

Lemma prefix_interval p : forall a b, str_cmp p a <> Gt -> str_cmp a b <> Gt ->
  is_prefix p b = true -> is_prefix p a = true.
Proof.
  induction p as [|x p IH]; intros a b H1 H2 H3; [reflexivity|].
  destruct b as [|y b]; [discriminate|]. destruct a as [|z a]; [now cbn in H1|].
  cbn [is_prefix str_cmp] in *. apply andb_true_iff in H3. destruct H3 as [H3 H4].
  apply byte_eqb_eq in H3. subst y.
  destruct (N.compare_spec (Byte.to_N x) (Byte.to_N z)) as [E1|E1|E1]; [|exfalso|contradiction].
  - apply to_N_inj in E1. subst z. rewrite N.compare_refl in H2. rewrite byte_eqb_refl. cbn [andb]. eauto.
  - destruct (N.compare_spec (Byte.to_N z) (Byte.to_N x)) as [E2|E2|E2]; [lia|lia|contradiction].
Qed.

Lemma take_while_prefix p l : sorted l -> Forall (fun s => str_cmp p s <> Gt) l ->
  take_while (is_prefix p) l = filter (is_prefix p) l.
Proof.
  unfold sorted. induction l as [|a r IH]; intros Hs Hf; cbn [take_while filter]; [reflexivity|].
  inversion Hs; subst. inversion Hf; subst.
  destruct (is_prefix p a) eqn:K; [now rewrite IH|].
  symmetry.
  destruct (filter (is_prefix p) r) as [|b r'] eqn:F; [reflexivity|].
  assert (Hin : In b (filter (is_prefix p) r)) by (rewrite F; now left).
  apply filter_In in Hin. destruct Hin as [Hin Hp].
  rewrite Forall_forall in H2. specialize (H2 b Hin).
  rewrite (prefix_interval p a b) in K; [discriminate|auto| |exact Hp].
  unfold str_lt in H2. rewrite H2. discriminate.
Qed.

Lemma sorted_filter g l : sorted l -> sorted (filter g l).
Proof.
  unfold sorted. induction 1 as [|a r H IH Hf]; cbn [filter]; [constructor|].
  destruct (g a); [|exact IH]. constructor; [exact IH|].
  rewrite Forall_forall in *. intros x Hx. apply filter_In in Hx. now apply Hf.
Qed.

Lemma map_fst_filter {V} (g : str -> bool) (m : smap V) :
  map fst (filter (fun e => g (fst e)) m) = filter g (map fst m).
Proof.
  induction m as [|[k v] r IH]; cbn [filter map fst]; [reflexivity|].
  destruct (g k); cbn [map fst]; now rewrite IH.
Qed.

Lemma range_prefix {V} p (m : smap V) : sorted (map_keys m) ->
  take_while (is_prefix p) (map fst (map_range_from p m)) = filter (is_prefix p) (map_keys m).
Proof.
  intros Hs. unfold map_range_from.
  rewrite (map_fst_filter (fun k => match str_cmp p k with Gt => false | _ => true end)).
  fold (map_keys m). rewrite take_while_prefix.
  - induction (map_keys m) as [|a r IH]; cbn [filter]; [reflexivity|].
    inversion Hs; subst. destruct (str_cmp p a) eqn:C; cbn [filter]; rewrite IH by assumption;
      [reflexivity|reflexivity|].
    destruct (is_prefix p a) eqn:K; [|reflexivity].
    apply prefix_ge in K. contradiction.
  - now apply sorted_filter.
  - apply Forall_forall. intros x Hx. apply filter_In in Hx. destruct Hx as [_ Hx].
    destruct (str_cmp p x); discriminate.
Qed.
