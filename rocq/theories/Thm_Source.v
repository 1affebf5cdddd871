(** * C96 Which samples a read of several channels delivers *)
From Coq Require Import Strings.String Sorting.Sorted Permutation.
From Verif Require Import Base Lib DataTypes MetaData Maps DataBlock Index RawData ChannelReader TdmsFile
  SpecIndex SpecSession SpecRead SpecMulti SpecSource Block_proofs Request_proofs Plan_proofs Read_proofs Session_proofs
  Serve_proofs Deliver_proofs Source_proofs Told_proofs Thm_Index Thm_Read Thm_Reopen Thm_Multi Thm_MultiExact Vectors.
Close Scope string_scope.

(** The samples that get into the buffers, and the places they get to, depend only
    on where the channels have data and on the lengths of the buffers. *)
Theorem C96_sources : forall E H F t chans start outs,
  session E H F -> fixed t -> addressable E (tf_bytes F) ->
  Forall (mentioned (all_objs H)) chans -> Forall (stored (tf_bytes F) t H) chans ->
  NoDup chans -> length outs = length chans ->
  exists outs', read_channels_from E F t chans start outs = (outs', Ok tt)
    /\ length outs' = length chans
    /\ length (sources H chans start (map (@length (carrier t)) outs)) = length chans
    /\ forall i p src o o', nth_error chans i = Some p -> nth_error outs i = Some o ->
         nth_error (sources H chans start (map (@length (carrier t)) outs)) i = Some src -> nth_error outs' i = Some o' ->
         filled_by src o (samples_after (tf_bytes F) t H p) o'.
Proof.
  intros E H F t chans start outs Se Fx Ad M St ND Lo. eexists. split; [eapply C65_exact; eassumption|].
  assert (G : Forall (good_chan (tf_bytes F) t H) chans).
  { apply Forall_forall. intros p Hp. rewrite Forall_forall in M, St. split; [now apply St|]. eapply session_locs; eauto. }
  destruct (served_sources (tf_bytes F) t H chans start outs Lo G) as [L1 [L2 Fi]].
  split; [rewrite map_length; exact L2|]. split; [exact L1|].
  intros i p src o o' Hp Ho Hs Ho'. rewrite nth_error_map in Ho'. unfold before_read in Ho'.
  destruct (nth_error (served _ _ _ _) i) as [k|] eqn:Q; [|discriminate]. injection Ho' as <-. now apply (Fi i p src o k).
Qed.

Lemma stored_len f g t H p : length f = length g -> stored f t H p -> stored g t H p.
Proof.
  intros L. unfold stored. apply Forall_impl. intros l [b [m [Hb [Hw X]]]]. exists b, m. split; [exact Hb|]. split; [|exact X].
  destruct Hw as [n [c Hw]]. exists n, c. unfold lenN in *. now rewrite <- L.
Qed.
Lemma in_order_filled {V} (o xs : list V) start :
  filled_by (in_order (lenN xs) start (length o)) o xs (overlay o (firstn (length o) (skipn (N.to_nat start) xs))).
Proof.
  unfold overlay, in_order, filled_by. rewrite map_length, seq_length.
  set (vs := firstn (length o) (skipn (N.to_nat start) xs)).
  assert (Lv : length vs = Nat.min (length o) (length xs - N.to_nat start)) by (unfold vs; now rewrite firstn_length, skipn_length).
  split; [reflexivity|]. split; [rewrite app_length, skipn_length; lia|].
  intros a s Ha. rewrite nth_error_map in Ha. destruct (nth_error (seq 0 (length o)) a) as [k|] eqn:Q; [|discriminate].
  pose proof (nth_some_lt _ _ _ Q) as La. rewrite seq_length in La.
  rewrite (nth_error_nth' _ 0%nat) in Q by (rewrite seq_length; lia). rewrite seq_nth in Q by lia. injection Q as <-.
  cbn [option_map Nat.add] in Ha. injection Ha as <-. unfold lenN. destruct (start + N.of_nat a <? N.of_nat (length xs)) eqn:T.
  - rewrite nth_error_app1 by lia. unfold vs. rewrite nth_firstn_lt by lia. rewrite skipn_at. f_equal. lia.
  - rewrite nth_error_app2 by lia. rewrite skipn_at. f_equal. lia.
Qed.

Section Agree.
Context (E : env) (H : list segment) (F : tfile) (t : sty).
Context (Se : session E H F) (Fx : fixed t) (Ad : addressable E (tf_bytes F)).
Local Notation V := (carrier t).
Local Notation lens := (map (@length V)).

Let with_bytes (f : list byte) : tfile := mkTF (tf_ix F) f.
Let Sl (f : list byte) p : lenN (samples_after f t H p) = length_after H p.
Proof. rewrite samples_count. unfold length_after. apply (locs_sum p H []). Qed.

(** The theorem above for the same file with other bytes. *)
Lemma with_other_bytes chans start f outs : length f = length (tf_bytes F) ->
  Forall (mentioned (all_objs H)) chans -> Forall (stored (tf_bytes F) t H) chans ->
  NoDup chans -> length outs = length chans ->
  exists outs', read_channels_from E (with_bytes f) t chans start outs = (outs', Ok tt)
    /\ length outs' = length chans
    /\ length (sources H chans start (lens outs)) = length chans
    /\ forall i p src o o', nth_error chans i = Some p -> nth_error outs i = Some o ->
         nth_error (sources H chans start (lens outs)) i = Some src -> nth_error outs' i = Some o' ->
         filled_by src o (samples_after f t H p) o'.
Proof.
  intros Lf M St ND Lo. apply (C96_sources E H (with_bytes f) t chans start outs); auto.
  - now apply ss_bytes.
  - unfold addressable, lenN in *. cbn [with_bytes tf_bytes]. now rewrite Lf.
  - eapply Forall_impl; [|exact St]. intros p. apply stored_len. now symmetry.
Qed.
Lemma singly_filled chans start f outs : length f = length (tf_bytes F) ->
  Forall (mentioned (all_objs H)) chans -> Forall (stored (tf_bytes F) t H) chans -> length outs = length chans ->
  length (singly E (with_bytes f) t chans start outs) = length chans
  /\ forall i p o o', nth_error chans i = Some p -> nth_error outs i = Some o ->
     nth_error (singly E (with_bytes f) t chans start outs) i = Some o' ->
     filled_by (in_order (length_after H p) start (length o)) o (samples_after f t H p) o'.
Proof.
  intros Lf M St Lo. split; [unfold singly; rewrite map_length, combine_length; lia|].
  intros i p o o' Hp Ho Hs. unfold singly in Hs. rewrite nth_error_map, (combine_nth _ _ _ _ _ Hp Ho) in Hs. cbn [option_map fst snd] in Hs.
  rewrite (C28_window E H (with_bytes f) t p start o) in Hs.
  - cbn [fst with_bytes tf_bytes] in Hs. injection Hs as <-. rewrite <- (Sl f p). apply in_order_filled.
  - now apply ss_bytes.
  - exact Fx.
  - unfold addressable, lenN in *. cbn [with_bytes tf_bytes]. now rewrite Lf.
  - rewrite Forall_forall in M. apply M. eapply nth_error_In; eauto.
  - rewrite Forall_forall in St. cbn [with_bytes tf_bytes]. eapply stored_len; [symmetry; exact Lf|]. apply St. eapply nth_error_In; eauto.
Qed.

Lemma in_order_within total start n : within total (in_order total start n).
Proof.
  intros i Hi. unfold in_order in Hi. apply in_map_iff in Hi. destruct Hi as [a [Ha _]]. cbv zeta in Ha.
  destruct (start + N.of_nat a <? total) eqn:Q; [|discriminate]. injection Ha as <-. lia.
Qed.
Lemma filled_within src (o o' : list V) f p : filled_by src o (samples_after f t H p) o' -> within (length_after H p) src.
Proof.
  intros [_ [L X]] i Hi. apply In_nth_error in Hi. destruct Hi as [a Ha]. specialize (X a _ Ha). cbn in X.
  pose proof (nth_some_lt _ _ _ Ha) as La. destruct (nth_error (samples_after f t H p) (N.to_nat i)) as [v|] eqn:Q.
  - apply nth_some_lt in Q. pose proof (Sl f p) as S1. unfold lenN in S1. lia.
  - apply nth_error_None in X. lia.
Qed.

(** Buffers for all channels, of which that for [p] is [o]. *)
Definition buffers (d : V) (p : str) (o : list V) (chans : list str) (ns : list nat) : list (list V) :=
  map (fun qn => if str_eqb (fst qn) p then o else repeat d (snd qn)) (combine chans ns).
Lemma buffers_length d p o chans ns : length ns = length chans ->
  (forall i, nth_error chans i = Some p -> nth_error ns i = Some (length o)) -> lens (buffers d p o chans ns) = ns.
Proof.
  intros L Hp. unfold buffers. rewrite map_map. revert ns L Hp. induction chans as [|q chans IH]; intros [|n ns] L Hp; try discriminate; [reflexivity|].
  cbn [combine map fst snd]. f_equal.
  - destruct (str_eqb q p) eqn:Q; [|apply repeat_length]. apply str_eqb_eq in Q. subst q. specialize (Hp 0%nat eq_refl). injection Hp. auto.
  - apply IH; [cbn [length] in L; lia|]. intros i Hi. exact (Hp (S i) Hi).
Qed.
Lemma buffers_nth d p o chans ns i n : nth_error chans i = Some p -> nth_error ns i = Some n -> nth_error (buffers d p o chans ns) i = Some o.
Proof.
  intros Hp Hn. unfold buffers. rewrite nth_error_map, (combine_nth _ _ _ _ _ Hp Hn). cbn [option_map fst snd]. now rewrite (proj2 (str_eqb_eq p p) eq_refl).
Qed.
Lemma some_value : exists d : V, True.
Proof.
  destruct Fx as [F1 [F2 F3]]. unfold V. destruct t; try congruence; cbn [carrier];
  lazymatch goal with |- exists _ : ?T, _ => lazymatch T with bool => exists true | Z => exists 0%Z | N => exists 0 | _ => exists (0, 0) end end; exact Logic.I.
Qed.
Lemma nodup_nth {A} (l : list A) i j x : NoDup l -> nth_error l i = Some x -> nth_error l j = Some x -> i = j.
Proof.
  intros Nd Hi Hj. apply (proj1 (NoDup_nth_error l) Nd); [eapply nth_some_lt; eauto|congruence].
Qed.

Section Request.
Context (chans : list str) (start : N) (ns : list nat).
Context (M : Forall (mentioned (all_objs H)) chans) (St : Forall (stored (tf_bytes F) t H) chans).
Context (ND : NoDup chans) (Ln : length ns = length chans).

Lemma one_filled p i o f : length f = length (tf_bytes F) -> nth_error chans i = Some p -> nth_error ns i = Some (length o) ->
  exists d outs r src o', outs = buffers d p o chans ns /\ lens outs = ns
    /\ read_channels_from E (with_bytes f) t chans start outs = (r, Ok tt)
    /\ nth_error (sources H chans start ns) i = Some src /\ nth_error r i = Some o'
    /\ filled_by src o (samples_after f t H p) o' /\ length src = length o.
Proof.
  intros Lf Hp Hn. destruct some_value as [d _].
  assert (Lb : lens (buffers d p o chans ns) = ns).
  { apply buffers_length; [exact Ln|]. intros j Hj. now rewrite (nodup_nth chans j i p ND Hj Hp). }
  assert (Lo : length (buffers d p o chans ns) = length chans) by (rewrite <- (map_length (@length V)), Lb; exact Ln).
  destruct (with_other_bytes chans start f _ Lf M St ND Lo) as [r [R [Lr [Lsrc Fi]]]]. rewrite Lb in *.
  pose proof (nth_some_lt _ _ _ Hp) as Li.
  destruct (nth_error (sources H chans start ns) i) as [src|] eqn:Qs; [|apply nth_error_None in Qs; lia].
  destruct (nth_error r i) as [o'|] eqn:Qr; [|apply nth_error_None in Qr; lia].
  assert (X : filled_by src o (samples_after f t H p) o') by (eapply Fi; eauto; eapply buffers_nth; eauto).
  exists d, (buffers d p o chans ns), r, src, o'. destruct X as [X1 X2]. repeat split; auto; apply X2.
Qed.
Lemma source_within p i src n : nth_error chans i = Some p -> nth_error ns i = Some n ->
  nth_error (sources H chans start ns) i = Some src -> within (length_after H p) src /\ length src = n.
Proof.
  intros Hp Hn Hs. destruct some_value as [d _].
  destruct (one_filled p i (repeat d n) (tf_bytes F) eq_refl Hp ltac:(now rewrite repeat_length)) as [d' [outs [r [src' [o' [_ [_ [_ [Q [_ [X Lx]]]]]]]]]]].
  rewrite Hs in Q. injection Q as <-. split; [eapply filled_within; eauto|]. now rewrite Lx, repeat_length.
Qed.
Lemma sources_length : length (sources H chans start ns) = length chans.
Proof.
  destruct some_value as [d _].
  set (outs := map (fun n => repeat d n) ns).
  assert (Lb : lens outs = ns).
  { unfold outs. rewrite map_map. rewrite <- (map_id ns) at 2. apply map_ext. intros n. apply repeat_length. }
  destruct (with_other_bytes chans start (tf_bytes F) outs eq_refl M St ND) as [r [_ [_ [L _]]]].
  { unfold outs. rewrite map_length. exact Ln. }
  now rewrite Lb in L.
Qed.
End Request.

Lemma right_exactly chans start ns :
  Forall (mentioned (all_objs H)) chans -> Forall (stored (tf_bytes F) t H) chans -> NoDup chans -> length ns = length chans ->
  (forall f outs, length f = length (tf_bytes F) -> lens outs = ns ->
     read_channels_from E (with_bytes f) t chans start outs = (singly E (with_bytes f) t chans start outs, Ok tt))
  <-> sources H chans start ns = map (fun pn => in_order (length_after H (fst pn)) start (snd pn)) (combine chans ns).
Proof.
  intros M St ND Ln. split.
  - intros A. apply nth_ext_error. intros i. rewrite nth_error_map.
    pose proof (sources_length chans start ns M St ND Ln) as Lsrc.
    destruct (nth_error chans i) as [p|] eqn:Hp.
    2:{ apply nth_error_None in Hp. rewrite (proj2 (nth_error_None _ _)) by lia.
        rewrite (proj2 (nth_error_None (combine chans ns) i)) by (rewrite combine_length; lia). reflexivity. }
    pose proof (nth_some_lt _ _ _ Hp) as Li.
    destruct (nth_error ns i) as [n|] eqn:Hn; [|apply nth_error_None in Hn; lia].
    destruct (nth_error (sources H chans start ns) i) as [src|] eqn:Hs; [|apply nth_error_None in Hs; lia].
    rewrite (combine_nth _ _ _ _ _ Hp Hn). cbn [option_map fst snd]. f_equal.
    destruct (source_within chans start ns M St ND Ln p i src n Hp Hn Hs) as [Wi Lsn].
    assert (Dec : {src = in_order (length_after H p) start n} + {src <> in_order (length_after H p) start n}).
    { repeat decide equality. }
    destruct Dec as [Eq|Ne]; [exact Eq|exfalso].
    assert (Lio : length (in_order (length_after H p) start n) = n) by (unfold in_order; now rewrite map_length, seq_length).
    destruct (sources_told E H F t p src (in_order (length_after H p) start n) Se Fx) as [f [o [Lf [Lo X]]]]; auto.
    { rewrite Forall_forall in M. apply M. eapply nth_error_In; eauto. }
    { rewrite Forall_forall in St. apply St. eapply nth_error_In; eauto. }
    { congruence. }
    { apply in_order_within. }
    destruct (one_filled chans start ns M St ND Ln p i o f Lf Hp ltac:(congruence)) as [d [outs [r [src' [o' [Eo [Lb [R [Q [Ro [Fi _]]]]]]]]]]].
    rewrite Hs in Q. injection Q as <-. specialize (A f outs Lf Lb). rewrite R in A. injection A as A.
    assert (Lo' : length outs = length chans) by (rewrite <- (map_length (@length V)), Lb; exact Ln).
    destruct (singly_filled chans start f outs Lf M St Lo') as [_ Sf].
    assert (Fo : nth_error outs i = Some o) by (rewrite Eo; eapply buffers_nth; eauto).
    rewrite <- A in Sf. specialize (Sf i p o o' Hp Fo Ro). replace (length o) with n in Sf by congruence.
    exact (X o' o' Fi Sf eq_refl).
  - intros Eq f outs Lf Lb. assert (Lo : length outs = length chans) by (rewrite <- (map_length (@length V)), Lb; exact Ln).
    destruct (with_other_bytes chans start f outs Lf M St ND Lo) as [r [R [Lr [Lsrc Fi]]]].
    destruct (singly_filled chans start f outs Lf M St Lo) as [Ls Sf].
    rewrite R. f_equal. apply nth_ext_error. intros i. destruct (nth_error chans i) as [p|] eqn:Hp.
    2:{ apply nth_error_None in Hp. rewrite (proj2 (nth_error_None r i)), (proj2 (nth_error_None (singly _ _ _ _ _ _) i)) by lia. reflexivity. }
    pose proof (nth_some_lt _ _ _ Hp) as Li.
    destruct (nth_error outs i) as [o|] eqn:Ho; [|apply nth_error_None in Ho; lia].
    destruct (nth_error r i) as [o1|] eqn:H1; [|apply nth_error_None in H1; lia].
    destruct (nth_error (singly E (with_bytes f) t chans start outs) i) as [o2|] eqn:H2; [|apply nth_error_None in H2; lia].
    f_equal. eapply filled_det; [|eapply Sf; eauto]. eapply Fi; eauto. rewrite Lb, Eq, nth_error_map.
    assert (Hn : nth_error ns i = Some (length o)) by (rewrite <- Lb, nth_error_map, Ho; reflexivity).
    now rewrite (combine_nth _ _ _ _ _ Hp Hn).
Qed.

(** Lists of pairs with the same keys, once each. *)
Lemma combine_in {A B} (l : list A) (m : list B) x y : In (x, y) (combine l m) -> exists i, nth_error l i = Some x /\ nth_error m i = Some y.
Proof.
  revert m. induction l as [|a l IH]; intros [|b m]; cbn [combine]; try contradiction. intros [X|X].
  - injection X as -> ->. exists 0%nat. auto.
  - destruct (IH m X) as [i Hi]. exists (S i). exact Hi.
Qed.
Lemma combine_perm {A B} (l l' : list A) (m m' : list B) : length m = length l -> length m' = length l' -> NoDup l -> Permutation l l' ->
  (forall i j x, nth_error l i = Some x -> nth_error l' j = Some x -> nth_error m i = nth_error m' j) ->
  Permutation (combine l m) (combine l' m').
Proof.
  intros L L' Nd P X. assert (Nd' : NoDup l') by (eapply Permutation_NoDup; eauto).
  assert (Nc : forall (a : list A) (b : list B), NoDup a -> NoDup (combine a b)).
  { clear. induction a as [|x a IH]; intros [|y b] Nd; cbn [combine]; try constructor; inversion Nd; subst; auto.
    intros Hin. apply in_combine_l in Hin. contradiction. }
  apply NoDup_Permutation; auto. intros [x y]. split; intros Hin.
  - apply combine_in in Hin. destruct Hin as [i [Hx Hy]]. assert (Hl : In x l') by (eapply Permutation_in; [exact P|eapply nth_error_In; eauto]).
    apply In_nth_error in Hl. destruct Hl as [j Hj]. rewrite (X i j x Hx Hj) in Hy. eapply nth_error_In. eapply combine_nth; eauto.
  - apply combine_in in Hin. destruct Hin as [j [Hx Hy]]. assert (Hl : In x l) by (eapply Permutation_in; [apply Permutation_sym; exact P|eapply nth_error_In; eauto]).
    apply In_nth_error in Hl. destruct Hl as [i Hi]. rewrite <- (X i j x Hi Hx) in Hy. eapply nth_error_In. eapply combine_nth; eauto.
Qed.
Lemma perm_combine {A B} (l l' : list A) (m m' : list B) : length m = length l -> length m' = length l' -> NoDup l ->
  Permutation (combine l m) (combine l' m') ->
  Permutation l l' /\ forall i j x, nth_error l i = Some x -> nth_error l' j = Some x -> nth_error m i = nth_error m' j.
Proof.
  intros L L' Nd P.
  assert (Fc : forall (a : list A) (b : list B), length b = length a -> map fst (combine a b) = a).
  { clear. induction a as [|x a IH]; intros [|y b] Le; try discriminate; [reflexivity|]. cbn [combine map fst]. rewrite IH; [reflexivity|]. cbn [length] in Le. lia. }
  assert (Pl : Permutation l l') by (rewrite <- (Fc l m L), <- (Fc l' m' L'); now apply Permutation_map).
  split; [exact Pl|]. assert (Nd' : NoDup l') by (eapply Permutation_NoDup; eauto).
  intros i j x Hi Hj. pose proof (nth_some_lt _ _ _ Hi) as Li. destruct (nth_error m i) as [y|] eqn:Hy; [|apply nth_error_None in Hy; lia].
  assert (Hin : In (x, y) (combine l' m')).
  { eapply Permutation_in; [exact P|]. eapply nth_error_In. eapply combine_nth; eauto. }
  apply combine_in in Hin. destruct Hin as [j' [Hj' Hy']]. now rewrite (nodup_nth l' j j' x Nd' Hj Hj').
Qed.

Lemma order_exactly chans chans' start ns ns' :
  Forall (mentioned (all_objs H)) chans -> Forall (stored (tf_bytes F) t H) chans -> NoDup chans ->
  length ns = length chans -> length ns' = length chans' -> Permutation (combine chans ns) (combine chans' ns') ->
  (forall f outs outs', length f = length (tf_bytes F) -> lens outs = ns -> lens outs' = ns' ->
     Permutation (combine chans outs) (combine chans' outs') ->
     exists r r', read_channels_from E (with_bytes f) t chans start outs = (r, Ok tt)
       /\ read_channels_from E (with_bytes f) t chans' start outs' = (r', Ok tt)
       /\ length r = length chans /\ length r' = length chans' /\ Permutation (combine chans r) (combine chans' r'))
  <-> Permutation (combine chans (sources H chans start ns)) (combine chans' (sources H chans' start ns')).
Proof.
  intros M St ND Ln Ln' Pn. destruct (perm_combine _ _ _ _ Ln Ln' ND Pn) as [Pc Xn].
  assert (M' : Forall (mentioned (all_objs H)) chans') by (eapply Permutation_Forall; eauto).
  assert (St' : Forall (stored (tf_bytes F) t H) chans') by (eapply Permutation_Forall; eauto).
  assert (ND' : NoDup chans') by (eapply Permutation_NoDup; eauto).
  pose proof (sources_length chans start ns M St ND Ln) as Ls. pose proof (sources_length chans' start ns' M' St' ND' Ln') as Ls'.
  split.
  - intros A. apply combine_perm; auto. intros i j p Hi Hj. specialize (Xn i j p Hi Hj).
    pose proof (nth_some_lt _ _ _ Hi) as Li. pose proof (nth_some_lt _ _ _ Hj) as Lj.
    destruct (nth_error ns i) as [n|] eqn:Hn; [|apply nth_error_None in Hn; lia]. symmetry in Xn.
    destruct (nth_error (sources H chans start ns) i) as [src|] eqn:Hs; [|apply nth_error_None in Hs; lia].
    destruct (nth_error (sources H chans' start ns') j) as [src'|] eqn:Hs'; [|apply nth_error_None in Hs'; lia]. f_equal.
    destruct (source_within chans start ns M St ND Ln p i src n Hi Hn Hs) as [Wi Lsn].
    destruct (source_within chans' start ns' M' St' ND' Ln' p j src' n Hj Xn Hs') as [Wi' Lsn'].
    assert (Dec : {src = src'} + {src <> src'}) by (repeat decide equality). destruct Dec as [Eq|Ne]; [exact Eq|exfalso].
    destruct (sources_told E H F t p src src' Se Fx) as [f [o [Lf [Lo X]]]]; auto.
    { rewrite Forall_forall in M. apply M. eapply nth_error_In; eauto. }
    { rewrite Forall_forall in St. apply St. eapply nth_error_In; eauto. }
    { congruence. }
    destruct some_value as [d _].
    set (outs := buffers d p o chans ns). set (outs' := buffers d p o chans' ns').
    assert (Lb : lens outs = ns).
    { apply buffers_length; [exact Ln|]. intros k Hk. rewrite (nodup_nth chans k i p ND Hk Hi). congruence. }
    assert (Lb' : lens outs' = ns').
    { apply buffers_length; [exact Ln'|]. intros k Hk. rewrite (nodup_nth chans' k j p ND' Hk Hj). congruence. }
    assert (Lo1 : length outs = length chans) by (rewrite <- (map_length (@length V)), Lb; exact Ln).
    assert (Lo2 : length outs' = length chans') by (rewrite <- (map_length (@length V)), Lb'; exact Ln').
    destruct (A f outs outs' Lf Lb Lb') as [r [r' [R [R' [Lr [Lr' Pr]]]]]].
    { assert (Cb : forall cs ms, length ms = length cs -> combine cs (buffers d p o cs ms)
        = map (fun qn => (fst qn, if str_eqb (fst qn) p then o else repeat d (snd qn))) (combine cs ms)).
      { clear. unfold buffers. induction cs as [|c cs IH]; intros [|m ms] L; try discriminate; [reflexivity|].
        cbn [combine map fst snd]. rewrite IH; [reflexivity|]. cbn [length] in L. lia. }
      unfold outs, outs'. rewrite (Cb chans ns Ln), (Cb chans' ns' Ln'). now apply Permutation_map. }
    destruct (perm_combine _ _ _ _ Lr Lr' ND Pr) as [_ Xr]. specialize (Xr i j p Hi Hj).
    destruct (with_other_bytes chans start f outs Lf M St ND Lo1) as [r1 [R1 [_ [_ Fi]]]]. rewrite R in R1. injection R1 as <-.
    destruct (with_other_bytes chans' start f outs' Lf M' St' ND' Lo2) as [r1 [R1 [_ [_ Fi']]]]. rewrite R' in R1. injection R1 as <-.
    destruct (nth_error r i) as [o1|] eqn:H1; [|apply nth_error_None in H1; lia].
    destruct (nth_error r' j) as [o2|] eqn:H2; [|apply nth_error_None in H2; lia]. injection Xr as <-.
    rewrite Lb in Fi. rewrite Lb' in Fi'.
    refine (X o1 o1 _ _ eq_refl).
    + eapply Fi; eauto. eapply buffers_nth; eauto.
    + eapply Fi'; eauto. eapply buffers_nth; eauto.
  - intros Ps f outs outs' Lf Lb Lb' Po.
    assert (Lo1 : length outs = length chans) by (rewrite <- (map_length (@length V)), Lb; exact Ln).
    assert (Lo2 : length outs' = length chans') by (rewrite <- (map_length (@length V)), Lb'; exact Ln').
    destruct (with_other_bytes chans start f outs Lf M St ND Lo1) as [r [R [Lr [_ Fi]]]].
    destruct (with_other_bytes chans' start f outs' Lf M' St' ND' Lo2) as [r' [R' [Lr' [_ Fi']]]].
    rewrite Lb in Fi. rewrite Lb' in Fi'. exists r, r'. repeat (split; [assumption|]).
    destruct (perm_combine _ _ _ _ Ls Ls' ND Ps) as [_ Xs]. destruct (perm_combine _ _ _ _ Lo1 Lo2 ND Po) as [_ Xo].
    apply combine_perm; auto. intros i j p Hi Hj. specialize (Xs i j p Hi Hj). specialize (Xo i j p Hi Hj).
    pose proof (nth_some_lt _ _ _ Hi) as Li. pose proof (nth_some_lt _ _ _ Hj) as Lj.
    destruct (nth_error outs i) as [o|] eqn:Ho; [|apply nth_error_None in Ho; lia].
    destruct (nth_error (sources H chans start ns) i) as [src|] eqn:Hs; [|apply nth_error_None in Hs; lia].
    destruct (nth_error r i) as [o1|] eqn:H1; [|apply nth_error_None in H1; lia].
    destruct (nth_error r' j) as [o2|] eqn:H2; [|apply nth_error_None in H2; lia]. f_equal.
    eapply filled_det; [eapply Fi; eauto|eapply Fi'; eauto].
Qed.
End Agree.

(** A read of several channels gives what reads of each would give, whatever the
    values, exactly if the samples it takes are [start] and the following ones of
    each channel (C30). *)
Theorem C96_right : forall E H F t chans start ns,
  session E H F -> fixed t -> addressable E (tf_bytes F) ->
  Forall (mentioned (all_objs H)) chans -> Forall (stored (tf_bytes F) t H) chans -> NoDup chans -> length ns = length chans ->
  (forall f outs, length f = length (tf_bytes F) -> map (@length (carrier t)) outs = ns ->
     let F' := mkTF (tf_ix F) f in
     read_channels_from E F' t chans start outs = (singly E F' t chans start outs, Ok tt))
  <-> sources H chans start ns = map (fun pn => in_order (length_after H (fst pn)) start (snd pn)) (combine chans ns).
Proof. intros E H F t chans start ns Se Fx Ad M St ND Ln. now apply right_exactly. Qed.

(** Two orders of the same request give every channel the same, whatever the
    values, exactly if they take the same samples (C66). *)
Theorem C96_order : forall E H F t chans chans' start ns ns',
  session E H F -> fixed t -> addressable E (tf_bytes F) ->
  Forall (mentioned (all_objs H)) chans -> Forall (stored (tf_bytes F) t H) chans -> NoDup chans ->
  length ns = length chans -> length ns' = length chans' -> Permutation (combine chans ns) (combine chans' ns') ->
  (forall f outs outs', length f = length (tf_bytes F) ->
     map (@length (carrier t)) outs = ns -> map (@length (carrier t)) outs' = ns' ->
     Permutation (combine chans outs) (combine chans' outs') ->
     let F' := mkTF (tf_ix F) f in
     exists r r', read_channels_from E F' t chans start outs = (r, Ok tt)
       /\ read_channels_from E F' t chans' start outs' = (r', Ok tt)
       /\ length r = length chans /\ length r' = length chans' /\ Permutation (combine chans r) (combine chans' r'))
  <-> Permutation (combine chans (sources H chans start ns)) (combine chans' (sources H chans' start ns')).
Proof. intros E H F t chans chans' start ns ns' Se Fx Ad M St ND Ln Ln' P. now apply order_exactly. Qed.

(** In the file of C65, from sample 2 on: a gets its samples 3, 4 and 5 and keeps
    one place, b gets 1 to 4 (C30 asks for 2 to 5 for both), and with the channels
    listed the other way round it is different again.  From the start, all is in
    order. *)
Example C96_case :
  let a := ch "g" "a" in let b := ch "g" "b" in
  exists H, session dbg H offset_F /\ addressable dbg (tf_bytes offset_F)
     /\ Forall (mentioned (all_objs H)) [a; b] /\ Forall (stored (tf_bytes offset_F) SI32 H) [a; b] /\ NoDup [a; b]
     /\ length_after H a = 7 /\ length_after H b = 6
     /\ sources H [a; b] 2 [4; 4]%nat = [[Some 3; None; Some 4; Some 5]; [Some 1; Some 2; Some 3; Some 4]]
     /\ sources H [b; a] 2 [4; 4]%nat = [[Some 2; None; Some 3; Some 4]; [Some 2; Some 3; Some 4; Some 5]]
     /\ sources H [a; b] 0 [4; 2]%nat = map (fun pn => in_order (length_after H (fst pn)) 0 (snd pn)) (combine [a; b] [4; 2]%nat)
     /\ Permutation (combine [a; b] (sources H [a; b] 0 [4; 2]%nat)) (combine [b; a] (sources H [b; a] 0 [2; 4]%nat)).
Proof.
  cbv zeta.
  assert (O : tdms_new dbg (offset_file true) = Ok offset_F) by (vm_compute; reflexivity).
  destruct (C14_open_is_session _ _ _ O) as [H [_ [Se _]]]. exists H. split; [exact Se|].
  split; [split; vm_compute; congruence|].
  assert (Ga : get_positions (tf_ix offset_F) (ch "g" "a") = Some [mkLoc 0 0 1; mkLoc 1 1 3; mkLoc 2 1 3]) by (vm_compute; reflexivity).
  assert (Gb : get_positions (tf_ix offset_F) (ch "g" "b") = Some [mkLoc 1 0 3; mkLoc 2 0 3]) by (vm_compute; reflexivity).
  destruct (session_stored dbg _ _ H SI32 _ _ O Se Ga) as [Ma Sa]; [vm_compute; reflexivity|].
  destruct (session_stored dbg _ _ H SI32 _ _ O Se Gb) as [Mb Sb]; [vm_compute; reflexivity|].
  pose proof (session_locs_is _ _ _ _ _ _ O Se Ma Ga) as La.
  pose proof (session_locs_is _ _ _ _ _ _ O Se Mb Gb) as Lb.
  destruct (C14_incremental _ _ _ Se) as [_ [_ [_ [Hb _]]]].
  assert (Ta : length_after H (ch "g" "a") = 7).
  { unfold length_after. rewrite <- (locs_sum (ch "g" "a") H []). fold (locs_after H (ch "g" "a")). rewrite La. reflexivity. }
  assert (Tb : length_after H (ch "g" "b") = 6).
  { unfold length_after. rewrite <- (locs_sum (ch "g" "b") H []). fold (locs_after H (ch "g" "b")). rewrite Lb. reflexivity. }
  split; [repeat constructor; assumption|]. split; [repeat constructor; assumption|]. split.
  { repeat constructor; cbn [In]; intuition discriminate. }
  split; [exact Ta|]. split; [exact Tb|]. cbn [combine map fst snd]. rewrite Ta, Tb.
  assert (S0 : sources H [ch "g" "a"; ch "g" "b"] 0 [4; 2]%nat = [in_order 7 0 4; in_order 6 0 2]).
  { unfold sources. cbn [combine map fst snd]. rewrite La, Lb, <- Hb. vm_compute. reflexivity. }
  assert (S1 : sources H [ch "g" "b"; ch "g" "a"] 0 [2; 4]%nat = [in_order 6 0 2; in_order 7 0 4]).
  { unfold sources. cbn [combine map fst snd]. rewrite La, Lb, <- Hb. vm_compute. reflexivity. }
  split; [|split; [|split]].
  - unfold sources. cbn [combine map fst snd]. rewrite La, Lb, <- Hb. vm_compute. reflexivity.
  - unfold sources. cbn [combine map fst snd]. rewrite La, Lb, <- Hb. vm_compute. reflexivity.
  - exact S0.
  - rewrite S0, S1. cbn [combine]. apply perm_swap.
Qed.

Print Assumptions C96_sources.
Print Assumptions C96_right.
Print Assumptions C96_order.
Print Assumptions C96_case.
