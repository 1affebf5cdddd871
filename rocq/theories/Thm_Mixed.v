(** * Claim C105: reading several channels from blocks of any make-up *)
From Coq Require Import Strings.String Sorting.Sorted.
From Verif Require Import Base Lib DataTypes MetaData Maps DataBlock Index RawData ChannelReader TdmsFile
  SpecIndex SpecSession SpecRead SpecMulti SpecUneven SpecSeen SpecMixed Block_proofs Request_proofs Plan_proofs Read_proofs Session_proofs
  Uneven_proofs Seen_proofs Mixed_proofs Index_proofs Deliver_proofs Serve_proofs MixedServe_proofs InStep_proofs Thm_Index Vectors Thm_Read Thm_Multi
  Thm_Uneven Thm_Extent Thm_Seen.
Close Scope string_scope.

(** ** C105 The exact result of any multi-channel read *)
Theorem C105_exact : forall E H F t chans start outs,
  session E H F -> t <> SExt -> t <> SStr -> addressable E (tf_bytes F) ->
  Forall (mentioned (all_objs H)) chans -> Forall (mixed_stored E (tf_bytes F) t H) chans ->
  NoDup chans -> length outs = length chans ->
  read_channels_from E F t chans start outs
  = (map (tk_buf t) (mixed_served (tf_bytes F) t (blocks_after H)
       (map (fun po => mkTaker t (needed (locs_after H (fst po)) start) 0 (snd po)) (combine chans outs))), Ok tt).
Proof. intros E H F t chans start outs Se X1 X2 Ad. apply (read_mixed E H F t Se (conj X1 X2) Ad). Qed.

(** ** C105 Channels in the same blocks with as many samples stay in step *)
Lemma sorted_block ls l l' : ascending ls -> In l ls -> In l' ls -> l_block l = l_block l' -> l = l'.
Proof.
  unfold ascending. induction ls as [|x ls IH]; intros A Hl Hl' Eq; [contradiction|]. cbn [map] in A. inversion A as [|u v A' Fa]; subst.
  rewrite Forall_forall in Fa. destruct Hl as [<-|Hl], Hl' as [<-|Hl']; [reflexivity| | |now apply IH].
  - specialize (Fa _ (in_map l_block _ _ Hl')). lia.
  - specialize (Fa _ (in_map l_block _ _ Hl)). lia.
Qed.
Lemma combine_fst {A B} (a : list A) : forall (b : list B), length b = length a -> map fst (combine a b) = a.
Proof. induction a as [|x a IH]; intros [|y b] L; try discriminate; [reflexivity|]. cbn [combine map fst]. now rewrite IH by (cbn [length] in L; lia). Qed.
Lemma combine_snd_in {A B} (a : list A) (b : list B) x : In x (combine a b) -> In (snd x) b.
Proof. destruct x as [u v]. apply in_combine_r. Qed.

Theorem C105_together : forall E H F t chans start outs n,
  session E H F -> t <> SExt -> t <> SStr -> addressable E (tf_bytes F) ->
  Forall (mentioned (all_objs H)) chans -> Forall (mixed_stored E (tf_bytes F) t H) chans ->
  NoDup chans -> length outs = length chans -> aligned H chans ->
  (0 < n)%nat -> Forall (fun o => length o = n) outs ->
  read_channels_from E F t chans start outs
  = (map (fun po => overlay (snd po) (firstn n (together (tf_bytes F) t H chans (locs_after H (fst po)) start))) (combine chans outs), Ok tt).
Proof.
  intros E H F t chans start outs n Se X1 X2 Ad M St ND Lo Al Hn On.
  rewrite (C105_exact E H F) by assumption. f_equal.
  set (xs := combine chans outs). set (nd := fun po : str * list (carrier t) => needed (locs_after H (fst po)) start).
  set (samp := fun x : nat * nat * N => let '(j, i, s) := x in
     match nth_error (blocks_after H) j with
     | Some b => skipn (N.to_nat (passed_over b i s)) (samples_with (tf_bytes F) t b (widths_for t (numbers_in H chans j) (b_chans b)) i)
     | None => []
     end).
  assert (Ch : forall x, In x xs -> In (fst x) chans) by (intros [p o] Hx; cbn [fst]; eapply in_combine_l; exact Hx).
  assert (As : forall x, In x xs -> ascending (locs_after H (fst x))).
  { intros x Hx. rewrite Forall_forall in M. now apply (session_locs E H F), M, Ch. }
  assert (Hso : forall x, In x xs -> StronglySorted lt (map (fun y => fst (fst y)) (nd x))) by (intros x Hx; now apply needed_sorted, As).
  assert (Ex : forall x j c s, In x xs -> In (j, c, s) (nd x) -> exists l b m, In l (locs_after H (fst x)) /\ l_block l = j /\ l_chan l = c /\ s < l_n l
     /\ nth_error (blocks_after H) j = Some b /\ nth_error (b_chans b) c = Some m /\ l_n l = rm_n m * whole_chunks b /\ mixed_block E (tf_bytes F) t b).
  { intros x j c s Hx Hin. apply needed_in in Hin. destruct Hin as [l [Hl [Lb [Lc Lt]]]].
    rewrite Forall_forall in St. specialize (St _ (Ch x Hx)). unfold mixed_stored in St. rewrite Forall_forall in St.
    destruct (St l Hl ltac:(lia)) as [b [m [Hb [Hm [_ Bk]]]]].
    pose proof (locs_located H (fst x)) as Ll. rewrite Forall_forall in Ll. destruct (Ll l Hl) as [b' [m' [Hb' [Hm' Hc]]]].
    rewrite Hb in Hb'. injection Hb' as <-. rewrite Hm in Hm'. injection Hm' as <-.
    exists l, b, m. rewrite <- Lb, <- Lc. now repeat (split; [assumption || reflexivity|]). }
  unfold mixed_served.
  change (map (fun po => mkTaker t (needed (locs_after H (fst po)) start) 0 (snd po)) xs) with (map (fun x => mkTaker t (nd x) 0 (snd x)) xs).
  transitivity (map (tk_buf t) (fold_left (fun ks j => mixed_serve (tf_bytes F) t (blocks_after H) j ks) (seq 0 (length (blocks_after H)))
     (map (tk t _ nd snd samp 0) xs))).
  { reflexivity. }
  rewrite (steps_served (tf_bytes F) t (blocks_after H) _ xs nd snd n samp); [reflexivity|exact Hso| | | |reflexivity|exact Hn|].
  - intros x [[j c] s] Hx Hin. cbn [fst]. destruct (Ex x j c s Hx Hin) as [_ [b [_ [_ [_ [_ [_ [Hb _]]]]]]]]. apply nth_error_Some. congruence.
  - intros x Hx. rewrite Forall_forall in On. apply On. eapply combine_snd_in; exact Hx.
  - intros j. destruct xs as [|x0 xs0] eqn:Exs; [left; intros x []|]. rewrite <- Exs in *.
    assert (H0 : In x0 xs) by (rewrite Exs; now left).
    assert (Fs : forall x, In x xs -> option_map (fun y => (fst (fst y), snd y)) (find (fun y => Nat.eqb (fst (fst y)) j) (nd x))
       = option_map (fun y => (fst (fst y), snd y)) (find (fun y => Nat.eqb (fst (fst y)) j) (nd x0))).
    { intros x Hx. apply find_same. unfold nd. apply needed_same. apply Al; now apply Ch. }
    destruct (find (fun y => Nat.eqb (fst (fst y)) j) (nd x0)) as [[[j0 c0] s]|] eqn:F0.
    2:{ left. intros x Hx. specialize (Fs x Hx). destruct (find _ (nd x)); [discriminate|reflexivity]. }
    right. cbn [option_map fst snd] in Fs.
    assert (j0 = j) by (apply find_some in F0; destruct F0 as [_ Q]; cbn [fst] in Q; now apply Nat.eqb_eq in Q). subst j0.
    set (cf := fun x => match find (fun y => Nat.eqb (fst (fst y)) j) (nd x) with Some y => snd (fst y) | None => 0%nat end).
    assert (Fd : forall x, In x xs -> find (fun y => Nat.eqb (fst (fst y)) j) (nd x) = Some (j, cf x, s)).
    { intros x Hx. specialize (Fs x Hx). unfold cf. destruct (find _ (nd x)) as [[[j1 c1] s1]|]; [|discriminate].
      cbn [option_map fst snd] in *. now injection Fs as -> ->. }
    assert (Ey : forall x, In x xs -> exists l b m, In l (locs_after H (fst x)) /\ l_block l = j /\ l_chan l = cf x /\ s < l_n l
     /\ nth_error (blocks_after H) j = Some b /\ nth_error (b_chans b) (cf x) = Some m /\ l_n l = rm_n m * whole_chunks b /\ mixed_block E (tf_bytes F) t b).
    { intros x Hx. apply Ex; [exact Hx|]. eapply proj1, find_some, Fd, Hx. }
    destruct (Ey x0 H0) as [l0 [b [m0 [Hl0 [Lb0 [Lc0 [Lt0 [Hb [Hm0 [Ln0 Bk]]]]]]]]]].
    exists s, b, (rm_n m0), (numbers_in H chans j), cf. split; [exact Hb|]. split; [|split; [|split]].
    + intros x Hx. split; [now apply Fd|]. split.
      * unfold samp, part. now rewrite Hb.
      * destruct (Ey x Hx) as [l [b' [m [Hl [Lb [Lc [Lt [Hb' [Hm [Ln _]]]]]]]]]]. rewrite Hb in Hb'. injection Hb' as <-.
        exists m. split; [exact Hm|].
        assert (Sh : In (l_block l, l_n l) (shape (locs_after H (fst x0)))).
        { rewrite <- (Al (fst x) (fst x0) (Ch x Hx) (Ch x0 H0)). unfold shape. apply in_map_iff. now exists l. }
        unfold shape in Sh. apply in_map_iff in Sh. destruct Sh as [l1 [Q1 Hl1]]. injection Q1 as Qb Qn.
        assert (l1 = l0) by (apply (sorted_block _ _ _ (As x0 H0) Hl1 Hl0); congruence). subst l1.
        rewrite Ln, Ln0 in Qn. assert (whole_chunks b <> 0) by (intros Z; rewrite Ln, Z, N.mul_0_r in Lt; lia).
        symmetry. now apply N.mul_cancel_r in Qn.
    + assert (NDx : NoDup (map fst xs)) by (unfold xs; rewrite combine_fst by exact Lo; exact ND).
      destruct (C14_incremental E H F Se) as [_ [_ [_ [_ [Gp _]]]]]. pose proof (C18_sessions E H F (session_any _ _ _ Se)) as Va.
      rewrite Forall_forall in M.
      assert (Inj : forall x y, In x xs -> In y xs -> cf x = cf y -> fst x = fst y).
      { intros x y Hx Hy Q. destruct (list_eq_dec Byte.byte_eq_dec (fst x) (fst y)) as [|Np]; [assumption|]. exfalso.
        destruct (Ey x Hx) as [l [_ [_ [Hl [Lb [Lc _]]]]]]. destruct (Ey y Hy) as [l' [_ [_ [Hl' [Lb' [Lc' _]]]]]].
        destruct (Va _ _ (Gp _ (M _ (Ch x Hx)))) as [_ [_ Di]].
        apply (Di _ _ l l' (not_eq_sym Np) (Gp _ (M _ (Ch y Hy))) Hl Hl'); congruence. }
      clear -NDx Inj. induction xs as [|x l IH]; [constructor|]. cbn [map] in *. inversion NDx as [|u v Ni NDx']; subst. constructor.
      * intros K. apply in_map_iff in K. destruct K as [y [Q Hy]]. apply Ni. rewrite (Inj x y); [now apply in_map|now left|now right|congruence].
      * apply IH; [exact NDx'|]. intros a c Ha Hc. apply Inj; now right.
    + intros i. rewrite in_map_iff. unfold numbers_in. rewrite in_flat_map. split.
      * intros [x [<- Hx]]. exists (fst x). split; [now apply Ch|]. destruct (Ey x Hx) as [l [_ [_ [Hl [Lb [Lc _]]]]]].
        apply in_flat_map. exists l. split; [exact Hl|]. rewrite Lb, Nat.eqb_refl. now left.
      * intros [p [Hp K]]. apply in_flat_map in K. destruct K as [l [Hl K]]. destruct (Nat.eqb (l_block l) j) eqn:Q; [|contradiction].
        apply Nat.eqb_eq in Q. destruct K as [<-|[]].
        assert (Px : exists x, In x xs /\ fst x = p).
        { assert (Hp' : In p (map fst xs)) by (unfold xs; rewrite combine_fst by exact Lo; exact Hp). apply in_map_iff in Hp'. destruct Hp' as [x [Q1 Q2]]. eauto. }
        destruct Px as [x [Hx <-]]. exists x. split; [|exact Hx].
        destruct (Ey x Hx) as [l' [_ [_ [Hl' [Lb' [Lc' _]]]]]]. assert (l = l') by (apply (sorted_block _ _ _ (As x Hx) Hl Hl'); congruence). congruence.
    + intros Ly. destruct Bk as [_ [_ Bk]]. rewrite Ly in Bk. now destruct Bk.
  - intros x Hx. assert (Z : forall l : list (nat * nat * N), filter (fun y => Nat.ltb (fst (fst y)) 0) l = []) by (induction l; [reflexivity|exact IHl]).
    now rewrite Z.
Qed.

(** ** C105 Other values than timestamps: as each channel read alone *)
Lemma widths_for_nth t cs ms i m : nth_error ms i = Some m ->
  nth_error (widths_for t cs ms) i = Some (rm_n m, if existsb (Nat.eqb i) cs then own_width t else reckoned (rm_type m)).
Proof.
  intros Hm. unfold widths_for. rewrite nth_error_map.
  assert (Hi : (i < length ms)%nat) by (apply nth_error_Some; congruence).
  rewrite (combine_nth (seq 0 (length ms)) ms i i m); [reflexivity| |exact Hm].
  rewrite nth_error_nth' with (d := 0%nat) by (now rewrite seq_length). now rewrite seq_nth by exact Hi.
Qed.
Lemma widths_for_length t cs ms : length (widths_for t cs ms) = length ms.
Proof. unfold widths_for. rewrite map_length, combine_length, seq_length. lia. Qed.
Lemma widths_for_is t cs ms (w : rawmeta -> N * N) :
  (forall i m, nth_error ms i = Some m -> w m = (rm_n m, if existsb (Nat.eqb i) cs then own_width t else reckoned (rm_type m))) ->
  widths_for t cs ms = map w ms.
Proof.
  intros Hw. apply nth_ext_error. intros i. rewrite nth_error_map. destruct (nth_error ms i) as [m|] eqn:Hm; cbn [option_map].
  - rewrite (widths_for_nth t cs ms i m Hm). now rewrite (Hw i m Hm).
  - apply nth_error_None in Hm. apply nth_error_None. now rewrite widths_for_length.
Qed.
Lemma seen_plain t i ms m : t <> SExt -> t <> SStr -> t <> STime -> nth_error ms i = Some m -> In (rm_type m) (stored_as t) ->
  seen_widths t i ms = map plain ms.
Proof.
  intros X1 X2 X3 Hm Ht. unfold seen_widths. rewrite Hm, firstn_map, skipn_map. rewrite (split_at _ _ _ Hm) at 3. rewrite !map_app. cbn [map].
  assert (W : own_width t = reckoned (rm_type m)).
  { destruct t; try congruence; cbn [stored_as In] in Ht; repeat (destruct Ht as [<-|Ht]; [reflexivity|]); contradiction. }
  rewrite W. reflexivity.
Qed.
(** The numbers of the channels read are numbers of their elements. *)
Lemma numbers_typed E f t H chans j i b m : Forall (mixed_stored E f t H) chans ->
  nth_error (blocks_after H) j = Some b -> nth_error (b_chans b) i = Some m -> 0 < rm_n m * whole_chunks b ->
  In i (numbers_in H chans j) -> In (rm_type m) (stored_as t).
Proof.
  intros St Hb Hm Hn K. unfold numbers_in in K. apply in_flat_map in K. destruct K as [p [Hp K]]. apply in_flat_map in K.
  destruct K as [l [Hl K]]. destruct (Nat.eqb (l_block l) j) eqn:Q; [|contradiction]. apply Nat.eqb_eq in Q. destruct K as [<-|[]].
  rewrite Forall_forall in St. specialize (St p Hp). unfold mixed_stored in St. rewrite Forall_forall in St.
  pose proof (locs_located H p) as Ll. rewrite Forall_forall in Ll. destruct (Ll l Hl) as [b' [m' [Hb' [Hm' Ln]]]].
  rewrite Q, Hb in Hb'. injection Hb' as <-. rewrite Hm in Hm'. injection Hm' as <-.
  destruct (St l Hl ltac:(lia)) as [b' [m' [Hb' [Hm' [Ht _]]]]].
  rewrite Q, Hb in Hb'. injection Hb' as <-. rewrite Hm in Hm'. now injection Hm' as <-.
Qed.
Lemma in_number H chans p l : In p chans -> In l (locs_after H p) -> In (l_chan l) (numbers_in H chans (l_block l)).
Proof.
  intros Hp Hl. unfold numbers_in. apply in_flat_map. exists p. split; [exact Hp|]. apply in_flat_map. exists l. split; [exact Hl|].
  rewrite Nat.eqb_refl. now left.
Qed.
Lemma needed_ext (V : Type) ls : forall s (g h : nat * nat * N -> list V),
  (forall l k, In l ls -> 0 < l_n l -> g (l_block l, l_chan l, k) = h (l_block l, l_chan l, k)) ->
  concat (map g (needed ls s)) = concat (map h (needed ls s)).
Proof.
  intros s g h Q. f_equal. apply map_ext_in. intros [[j c] k] Hin. apply needed_in in Hin. destruct Hin as [l [Hl [<- [<- Lt]]]].
  apply Q; [exact Hl|lia].
Qed.
(** Number of values of all types: not zero in the blocks with samples. *)
Definition all_valued (H : list segment) (chans : list str) : Prop :=
  Forall (fun p => Forall (fun l => 0 < l_n l -> forall b i m, nth_error (blocks_after H) (l_block l) = Some b ->
     nth_error (b_chans b) i = Some m -> In i (numbers_in H chans (l_block l)) -> 0 < rm_n m) (locs_after H p)) chans.
Lemma aligned_valued E H F chans : session E H F -> Forall (mentioned (all_objs H)) chans -> aligned H chans -> all_valued H chans.
Proof.
  intros Se M Al. apply Forall_forall. intros p Hp. apply Forall_forall. intros l Hl Ln b i m Hb Hm K.
  unfold numbers_in in K. apply in_flat_map in K. destruct K as [q [Hq K]]. apply in_flat_map in K.
  destruct K as [l' [Hl' K]]. destruct (Nat.eqb (l_block l') (l_block l)) eqn:Q; [|contradiction]. apply Nat.eqb_eq in Q. destruct K as [<-|[]].
  rewrite Forall_forall in M. destruct (session_locs E H F q Se (M q Hq)) as [_ As].
  assert (Sh : In (l_block l, l_n l) (shape (locs_after H q))).
  { rewrite <- (Al p q Hp Hq). unfold shape. apply in_map_iff. now exists l. }
  unfold shape in Sh. apply in_map_iff in Sh. destruct Sh as [l1 [Q1 Hl1]]. injection Q1 as Qb Qn.
  assert (l1 = l') by (apply (sorted_block _ _ _ As Hl1 Hl'); congruence). subst l1.
  pose proof (locs_located H q) as Ll. rewrite Forall_forall in Ll. destruct (Ll l' Hl') as [b' [m' [Hb' [Hm' Hc]]]].
  rewrite Q, Hb in Hb'. injection Hb' as <-. rewrite Hm in Hm'. injection Hm' as <-.
  destruct (rm_n m); [|lia]. rewrite N.mul_0_l in Hc. lia.
Qed.

Theorem C105_as_alone : forall E H F t chans start outs n,
  session E H F -> t <> SExt -> t <> SStr -> t <> STime -> addressable E (tf_bytes F) ->
  Forall (mentioned (all_objs H)) chans -> Forall (mixed_stored E (tf_bytes F) t H) chans -> Forall (seen_stored E (tf_bytes F) t H) chans ->
  NoDup chans -> length outs = length chans -> aligned H chans ->
  (0 < n)%nat -> Forall (fun o => length o = n) outs ->
  read_channels_from E F t chans start outs
  = (map (fun po => fst (read_channel_from E F t (fst po) start (snd po))) (combine chans outs), Ok tt).
Proof.
  intros E H F t chans start outs n Se X1 X2 X3 Ad M St Ss ND Lo Al Hn On.
  rewrite (C105_together E H F t chans start outs n) by assumption. f_equal. apply map_ext_in. intros [p o] Hin. cbn [fst snd].
  pose proof (in_combine_l _ _ _ _ Hin) as Hp. pose proof (in_combine_r _ _ _ _ Hin) as Ho.
  pose proof (aligned_valued E H F chans Se M Al) as Av. unfold all_valued in Av.
  pose proof St as St0. rewrite Forall_forall in M, Ss, On, St0, Av. specialize (On o Ho).
  rewrite (C98_window E H F t p start o); auto.
  2:{ intros ->. cbn [length] in On. lia. }
  cbn [fst]. rewrite On. do 2 f_equal. unfold together, seen. apply needed_ext. intros l k Hl Ln.
  destruct (nth_error (blocks_after H) (l_block l)) as [b|] eqn:Hb; [|reflexivity]. f_equal. f_equal.
  specialize (St0 p Hp). unfold mixed_stored in St0. rewrite Forall_forall in St0. destruct (St0 l Hl Ln) as [b' [m [Hb' [Hm [Ht _]]]]].
  rewrite Hb in Hb'. injection Hb' as <-. rewrite (seen_plain t _ _ m X1 X2 X3 Hm Ht).
  pose proof (locs_located H p) as Ll. rewrite Forall_forall in Ll. destruct (Ll l Hl) as [b' [m' [Hb' [Hm' Hc]]]].
  rewrite Hb in Hb'. injection Hb' as <-.
  apply widths_for_is. intros i m1 Hm1. unfold plain. f_equal. destruct (existsb (Nat.eqb i) _) eqn:K; [|reflexivity].
  apply existsb_in in K.
  assert (Ht1 : In (rm_type m1) (stored_as t)).
  { apply (numbers_typed E (tf_bytes F) t H chans (l_block l) i b m1 St Hb Hm1); [|exact K].
    assert (0 < rm_n m1).
    { specialize (Av p Hp). rewrite Forall_forall in Av. exact (Av l Hl Ln b i m1 Hb Hm1 K). }
    destruct (whole_chunks b); [rewrite N.mul_0_r in Hc; lia|]. lia. }
  clear -X1 X2 X3 Ht1. destruct t; try congruence; cbn [stored_as In] in Ht1; repeat (destruct Ht1 as [<-|Ht1]; [reflexivity|]); contradiction.
Qed.

(** ** C105 All the timestamp channels of the blocks read at once: the values stored *)
Theorem C105_all_times : forall E H F t chans outs n,
  session E H F -> t <> SExt -> t <> SStr -> addressable E (tf_bytes F) ->
  Forall (mentioned (all_objs H)) chans -> Forall (mixed_stored E (tf_bytes F) t H) chans ->
  NoDup chans -> length outs = length chans -> aligned H chans ->
  (0 < n)%nat -> Forall (fun o => length o = n) outs ->
  (** no timestamps beside the channels read *)
  (forall p l b i m, In p chans -> In l (locs_after H p) -> 0 < l_n l -> nth_error (blocks_after H) (l_block l) = Some b ->
     nth_error (b_chans b) i = Some m -> rm_type m = Timestamp -> In i (numbers_in H chans (l_block l))) ->
  read_channels E F t chans outs
  = (map (fun po => overlay (snd po) (firstn n (stored_values (tf_bytes F) t (blocks_after H) (locs_after H (fst po))))) (combine chans outs), Ok tt).
Proof.
  intros E H F t chans outs n Se X1 X2 Ad M St ND Lo Al Hn On Hts. unfold read_channels.
  rewrite (C105_together E H F t chans 0 outs n) by assumption. f_equal. apply map_ext_in. intros [p o] Hin. cbn [fst snd].
  pose proof (in_combine_l _ _ _ _ Hin) as Hp. do 2 f_equal.
  pose proof (aligned_valued E H F chans Se M Al) as Av. unfold all_valued in Av. rewrite Forall_forall in Av. specialize (Av p Hp). rewrite Forall_forall in Av.
  transitivity (concat (map (fun x : nat * nat * N => let '(j, i, s) := x in match nth_error (blocks_after H) j with
     | Some b => samples_with (tf_bytes F) t b (real_widths (b_chans b)) i | None => [] end) (needed (locs_after H p) 0))).
  - unfold together.
    assert (Z : forall x, In x (needed (locs_after H p) 0) -> snd x = 0).
    { generalize (locs_after H p). clear. induction l as [|l ls IH]; intros x Hx; cbn [needed] in Hx; [contradiction|].
      destruct (l_n l <=? 0) eqn:Q; [replace (0 - l_n l) with 0 in Hx by lia; now apply IH|].
      destruct Hx as [<-|Hx]; [reflexivity|now apply IH]. }
    f_equal. apply map_ext_in. intros [[j c] k] Hx. pose proof (Z _ Hx) as Zk. cbn [snd] in Zk. subst k.
    apply needed_in in Hx. destruct Hx as [l [Hl [<- [<- Ln]]]].
    destruct (nth_error (blocks_after H) (l_block l)) as [b|] eqn:Hb; [|reflexivity].
    rewrite passed_over_0. change (N.to_nat 0) with 0%nat. cbn [skipn]. f_equal.
    pose proof (locs_located H p) as Ll. rewrite Forall_forall in Ll. destruct (Ll l Hl) as [b' [m' [Hb' [Hm' Hc]]]].
    rewrite Hb in Hb'. injection Hb' as <-.
    unfold real_widths. apply (widths_for_is t _ _ (fun m => (rm_n m, real_width (rm_type m)))). intros i m1 Hm1. f_equal.
    destruct (existsb (Nat.eqb i) _) eqn:K.
    + apply existsb_in in K. symmetry. apply own_real; [assumption|assumption|].
      apply (numbers_typed E (tf_bytes F) t H chans (l_block l) i b m1 St Hb Hm1); [|exact K].
      pose proof (Av l Hl Ln b i m1 Hb Hm1 K). destruct (whole_chunks b); [rewrite N.mul_0_r in Hc; lia|]. lia.
    + destruct (real_reckoned (rm_type m1)) as [[D _]|[_ D]]; [|exact D]. exfalso.
      pose proof (Hts p l b i m1 Hp Hl Ln Hb Hm1 D) as K'. apply existsb_in in K'. congruence.
  - unfold stored_values. generalize (locs_after H p). clear. induction l as [|l ls IH]; [reflexivity|]. cbn [needed map concat].
    destruct (l_n l <=? 0) eqn:Q.
    + replace (0 <? l_n l) with false by lia. replace (0 - l_n l) with 0 by lia. exact IH.
    + replace (0 <? l_n l) with true by lia. cbn [map concat]. now rewrite IH.
Qed.

(** ** Cases *)
Definition mixed_check (E : env) (len : N) (t : sty) (b : dblock) : bool :=
  (b_start b + b_len b <=? len)
  && forallb (fun m => 0 <? reckoned (rm_type m)) (b_chans b)
  && match b_layout b with
     | Interleaved => (in_row (widest t (b_chans b)) <? 2 ^ 63)
         && forallb (fun m => b_start b + rm_n m * whole_chunks b * in_row (widest t (b_chans b)) <=? N.min (2 ^ 63 - 1) (seek_max E)) (b_chans b)
     | Contigious => (in_chunk (widest t (b_chans b)) <? 2 ^ 63) && (0 <? per_chunk b)
     end.
Lemma mixed_check_ok E f t b : mixed_check E (lenN f) t b = true -> mixed_block E f t b.
Proof.
  unfold mixed_check, mixed_block. rewrite !andb_true_iff. intros [[H1 H2] H3]. split; [now apply N.leb_le|]. split.
  { apply Forall_forall. intros m Hm. rewrite forallb_forall in H2. now apply N.ltb_lt, H2. }
  destruct (b_layout b); rewrite andb_true_iff in H3; destruct H3 as [H3 H4].
  - split; [now apply N.ltb_lt|]. apply Forall_forall. intros m Hm. rewrite forallb_forall in H4. now apply N.leb_le, H4.
  - split; now apply N.ltb_lt.
Qed.
Definition mixed_loc (E : env) (F : tfile) (t : sty) (l : loc) : bool :=
  match nth_error (ix_blocks (tf_ix F)) (l_block l) with
  | Some b => match nth_error (b_chans b) (l_chan l) with
              | Some m => existsb (dtype_eqb (rm_type m)) (stored_as t) && mixed_check E (lenN (tf_bytes F)) t b
              | None => false end
  | None => false
  end.
Lemma session_mixed E H F t p ls : session E H F -> get_positions (tf_ix F) p = Some ls -> forallb (mixed_loc E F t) ls = true ->
  mentioned (all_objs H) p /\ locs_after H p = ls /\ mixed_stored E (tf_bytes F) t H p.
Proof.
  intros Se G C. pose proof (positions_mentioned _ _ _ _ _ Se G) as M.
  destruct (C14_incremental E H F Se) as [_ [_ [_ [Hb [Gp _]]]]]. rewrite (Gp p M) in G. injection G as <-.
  split; [exact M|]. split; [reflexivity|]. unfold mixed_stored. apply Forall_forall. intros l Hl _.
  rewrite forallb_forall in C. specialize (C l Hl). unfold mixed_loc in C. rewrite Hb in C.
  destruct (nth_error (blocks_after H) (l_block l)) as [b|]; [|discriminate].
  destruct (nth_error (b_chans b) (l_chan l)) as [m|] eqn:Hm; [|discriminate].
  apply andb_true_iff in C. destruct C as [Tt W]. exists b, m. split; [reflexivity|]. split; [exact Hm|].
  split; [|now apply mixed_check_ok].
  apply existsb_exists in Tt. destruct Tt as [d [Hd Eq]]. replace (rm_type m) with d; [exact Hd|].
  destruct d, (rm_type m); reflexivity || discriminate.
Qed.

(** A channel [x] with one value beside [a] and [b] with two; then two channels
    interleaved with an incomplete last chunk. *)
Definition mixed_file : list byte :=
  fst (write_segment LittleE (mkToc false false false false false true)
         (Some [mkObj (ch "g" "x") [] (RIRaw (mkRaw I32 1 None)); mkObj (ch "g" "a") [] (RIRaw (mkRaw I32 2 None));
                mkObj (ch "g" "b") [] (RIRaw (mkRaw I32 2 None))])
         (Some (slice_block LittleE SI32 [900; 1; 2; 101; 102; 901; 3; 4; 103; 104]%Z)))
  ++ seg_i32 LittleE true [ch "g" "a"; ch "g" "b"] 2 [5; 105; 6; 106; 7; 107]%Z.
Definition mixed_F : tfile := open_bytes dbg mixed_file.
Lemma aligned_two H p q : shape (locs_after H p) = shape (locs_after H q) -> aligned H [p; q].
Proof. intros Q a b [<-|[<-|[]]] [<-|[<-|[]]]; congruence. Qed.
Lemma two_distinct (p q : str) : p <> q -> NoDup [p; q].
Proof. intros N1. constructor; [intros [K|[]]; congruence|]. constructor; [intros []|constructor]. Qed.

Example C105_case :
  let chans := [ch "g" "b"; ch "g" "a"] in
  let outs := [[0; 0; 0; 0; 0]; [0; 0; 0; 0; 0]]%Z in
  (exists H, session dbg H mixed_F /\ addressable dbg (tf_bytes mixed_F)
    /\ Forall (mentioned (all_objs H)) chans /\ Forall (mixed_stored dbg (tf_bytes mixed_F) SI32 H) chans
    /\ NoDup chans /\ aligned H chans
    /\ together (tf_bytes mixed_F) SI32 H chans (locs_after H (ch "g" "b")) 0 = [101; 102; 103; 104; 105; 106; 107]%Z
    /\ together (tf_bytes mixed_F) SI32 H chans (locs_after H (ch "g" "a")) 1 = [3; 4; 5; 6; 7]%Z)
  /\ read_channels_from dbg mixed_F SI32 chans 0 outs = ([[101; 102; 103; 104; 105]; [1; 2; 3; 4; 5]]%Z, Ok tt)
  /\ read_channels_from dbg mixed_F SI32 chans 1 outs = ([[103; 104; 105; 106; 107]; [3; 4; 5; 6; 7]]%Z, Ok tt).
Proof.
  cbv zeta. split; [|split; vm_compute; reflexivity].
  assert (O : tdms_new dbg mixed_file = Ok mixed_F) by (vm_compute; reflexivity).
  destruct (C14_open_is_session _ _ _ O) as [H [_ [Se _]]]. exists H. split; [exact Se|].
  destruct (C14_incremental _ _ _ Se) as [_ [_ [_ [Hb _]]]].
  destruct (session_mixed dbg H mixed_F SI32 (ch "g" "a") [mkLoc 0 1 4; mkLoc 1 0 2] Se) as [Ma [La Sa]]; [vm_compute; reflexivity|vm_compute; reflexivity|].
  destruct (session_mixed dbg H mixed_F SI32 (ch "g" "b") [mkLoc 0 2 4; mkLoc 1 1 2] Se) as [Mb [Lb Sb]]; [vm_compute; reflexivity|vm_compute; reflexivity|].
  split; [vm_compute; repeat split; discriminate|].
  split; [repeat constructor; assumption|]. split; [repeat constructor; assumption|].
  split; [apply two_distinct; vm_compute; discriminate|].
  split; [apply aligned_two; rewrite La, Lb; reflexivity|].
  unfold together. unfold numbers_in. cbn [flat_map]. rewrite La, Lb, <- Hb. split; vm_compute; reflexivity.
Qed.

(** Without equal numbers of values the counts of the last channel move all
    the others on: reading [y] beside [x] leaves the buffer of [x] with a gap. *)
Theorem C105_uneven_refuted : exists H F chans outs,
  session dbg H F /\ addressable dbg (tf_bytes F)
  /\ Forall (mentioned (all_objs H)) chans /\ Forall (mixed_stored dbg (tf_bytes F) SI32 H) chans /\ NoDup chans
  /\ Forall (fun o => length o = 8%nat) outs
  /\ read_channels dbg F SI32 chans outs = ([[100; 101; 0; 0; 0; 0; 102; 103]; [1; 2; 3; 4; 5; 6; 7; 8]]%Z, Ok tt)
  /\ map (fun po => fst (read_channel dbg F SI32 (fst po) (snd po))) (combine chans outs)
     = [[100; 101; 102; 103; 104; 105; 106; 107]; [1; 2; 3; 4; 5; 6; 7; 8]]%Z.
Proof.
  assert (O : tdms_new dbg uneven2_file = Ok uneven2_F) by (vm_compute; reflexivity).
  destruct (C14_open_is_session _ _ _ O) as [H [_ [Se _]]].
  exists H, uneven2_F, [ch "g" "x"; ch "g" "y"], [repeat 0%Z 8; repeat 0%Z 8]. split; [exact Se|].
  destruct (session_mixed dbg H uneven2_F SI32 (ch "g" "x") [mkLoc 0 0 2; mkLoc 1 0 6] Se) as [Ma [La Sa]]; [vm_compute; reflexivity|vm_compute; reflexivity|].
  destruct (session_mixed dbg H uneven2_F SI32 (ch "g" "y") [mkLoc 0 1 6; mkLoc 1 1 4] Se) as [Mb [Lb Sb]]; [vm_compute; reflexivity|vm_compute; reflexivity|].
  split; [vm_compute; repeat split; discriminate|].
  split; [repeat constructor; assumption|]. split; [repeat constructor; assumption|].
  split; [apply two_distinct; vm_compute; discriminate|].
  split; [repeat constructor|]. split; vm_compute; reflexivity.
Qed.

(** Two channels of timestamps: read together they give the values stored, the
    second one read alone gives others. *)
Definition two_times_file : list byte :=
  tf_bytes (fst (write_channels dbg STime empty_file [ch "g" "a"; ch "g" "b"] [1; 2; 3; 11; 12; 13] Contigious)).
Definition two_times_F : tfile := open_bytes dbg two_times_file.
Theorem C105_times_alone_refuted : exists H F chans outs,
  session dbg H F /\ addressable dbg (tf_bytes F)
  /\ Forall (mentioned (all_objs H)) chans /\ Forall (mixed_stored dbg (tf_bytes F) STime H) chans
  /\ NoDup chans /\ aligned H chans /\ Forall (fun o => length o = 3%nat) outs
  /\ (forall p l b i m, In p chans -> In l (locs_after H p) -> 0 < l_n l -> nth_error (blocks_after H) (l_block l) = Some b ->
     nth_error (b_chans b) i = Some m -> rm_type m = Timestamp -> In i (numbers_in H chans (l_block l)))
  /\ map (fun p => stored_values (tf_bytes F) STime (blocks_after H) (locs_after H p)) chans = [[1; 2; 3]; [11; 12; 13]]
  /\ read_channels dbg F STime chans outs = ([[1; 2; 3]; [11; 12; 13]], Ok tt)
  /\ map (fun po => fst (read_channel dbg F STime (fst po) (snd po))) (combine chans outs) <> [[1; 2; 3]; [11; 12; 13]].
Proof.
  assert (O : tdms_new dbg two_times_file = Ok two_times_F) by (vm_compute; reflexivity).
  destruct (C14_open_is_session _ _ _ O) as [H [_ [Se _]]].
  exists H, two_times_F, [ch "g" "a"; ch "g" "b"], [[0; 0; 0]; [0; 0; 0]]. split; [exact Se|].
  destruct (C14_incremental _ _ _ Se) as [_ [_ [_ [Hb _]]]].
  destruct (session_mixed dbg H two_times_F STime (ch "g" "a") [mkLoc 0 0 6] Se) as [Ma [La Sa]]; [vm_compute; reflexivity|vm_compute; reflexivity|].
  destruct (session_mixed dbg H two_times_F STime (ch "g" "b") [mkLoc 0 1 6] Se) as [Mb [Lb Sb]]; [vm_compute; reflexivity|vm_compute; reflexivity|].
  split; [vm_compute; repeat split; discriminate|].
  split; [repeat constructor; assumption|]. split; [repeat constructor; assumption|].
  split; [apply two_distinct; vm_compute; discriminate|].
  split; [apply aligned_two; rewrite La, Lb; reflexivity|]. split; [repeat constructor|].
  split.
  { assert (Eb : ix_blocks (tf_ix two_times_F) = [mkBlock 104 96 Contigious [mkRaw Timestamp 3 None; mkRaw Timestamp 3 None] LittleE])
      by (vm_compute; reflexivity).
    rewrite <- Hb, Eb. intros p l b i m Hp Hl _ Hlb Hi _. unfold numbers_in. cbn [flat_map]. rewrite La, Lb.
    assert (l_block l = 0%nat) as B0 by (destruct Hp as [<-|[<-|[]]]; rewrite ?La, ?Lb in Hl; destruct Hl as [<-|[]]; reflexivity).
    rewrite B0 in *. cbn [nth_error] in Hlb. injection Hlb as <-. cbn [b_chans] in Hi. cbn.
    destruct i as [|[|i]]; [now left|now right; left|]. destruct i; discriminate. }
  split; [cbn [map]; rewrite La, Lb, <- Hb; vm_compute; reflexivity|].
  split; [vm_compute; reflexivity|]. vm_compute. discriminate.
Qed.

(** The exact description evaluated where the channels are not in step. *)
Example C105_exact_case :
  map (tk_buf SI32) (mixed_served (tf_bytes uneven2_F) SI32 (ix_blocks (tf_ix uneven2_F))
    [mkTaker SI32 [(0%nat, 0%nat, 0); (1%nat, 0%nat, 0)] 0 (repeat 0%Z 8); mkTaker SI32 [(0%nat, 1%nat, 0); (1%nat, 1%nat, 0)] 0 (repeat 0%Z 8)])
  = [[100; 101; 0; 0; 0; 0; 102; 103]; [1; 2; 3; 4; 5; 6; 7; 8]]%Z.
Proof. vm_compute. reflexivity. Qed.
(** The channels of [C105_case] can be read alone as well. *)
Example C105_as_alone_case : forall H, session dbg H mixed_F ->
  Forall (seen_stored dbg (tf_bytes mixed_F) SI32 H) [ch "g" "b"; ch "g" "a"].
Proof.
  intros H Se. destruct (C14_incremental _ _ _ Se) as [_ [_ [_ [Hb _]]]].
  destruct (session_mixed dbg H mixed_F SI32 (ch "g" "a") [mkLoc 0 1 4; mkLoc 1 0 2] Se) as [Ma [La Sa]]; [vm_compute; reflexivity|vm_compute; reflexivity|].
  destruct (session_mixed dbg H mixed_F SI32 (ch "g" "b") [mkLoc 0 2 4; mkLoc 1 1 2] Se) as [Mb [Lb Sb]]; [vm_compute; reflexivity|vm_compute; reflexivity|].
  assert (Eb : exists b0 b1 x0 a0 a1 c0 c1, blocks_after H = [b0; b1] /\ b_chans b0 = [x0; a0; c0] /\ b_chans b1 = [a1; c1]
     /\ seen_check dbg (lenN (tf_bytes mixed_F)) SI32 b0 1 a0 = true /\ seen_check dbg (lenN (tf_bytes mixed_F)) SI32 b0 2 c0 = true
     /\ seen_check dbg (lenN (tf_bytes mixed_F)) SI32 b1 0 a1 = true /\ seen_check dbg (lenN (tf_bytes mixed_F)) SI32 b1 1 c1 = true).
  { rewrite <- Hb.
    exists (mkBlock 140 40 Contigious [mkRaw I32 1 None; mkRaw I32 2 None; mkRaw I32 2 None] LittleE),
      (mkBlock 284 24 Interleaved [mkRaw I32 2 None; mkRaw I32 2 None] LittleE),
      (mkRaw I32 1 None), (mkRaw I32 2 None), (mkRaw I32 2 None), (mkRaw I32 2 None), (mkRaw I32 2 None). vm_compute. repeat split; reflexivity. }
  destruct Eb as [b0 [b1 [x0 [a0 [a1 [c0 [c1 [Eb [E0 [E1 [K1 [K2 [K3 K4]]]]]]]]]]]]].
  unfold seen_stored. constructor; [|constructor; [|constructor]]; rewrite ?La, ?Lb, Eb; constructor; [|constructor; [|constructor]| |constructor; [|constructor]];
    intros _; eexists; eexists; (split; [reflexivity|]); apply seen_check_ok; cbn [l_chan];
    first [rewrite E0; reflexivity|rewrite E1; reflexivity|eassumption|idtac]; eassumption.
Qed.

Print Assumptions C105_exact.
Print Assumptions C105_together.
Print Assumptions C105_as_alone.
Print Assumptions C105_all_times.
Print Assumptions C105_uneven_refuted.
Print Assumptions C105_times_alone_refuted.
