(** * C110 Reads of any channels, some more than once, from blocks of any make-up *)
From Coq Require Import Strings.String Sorting.Sorted.
From Verif Require Import Base Lib DataTypes MetaData Maps DataBlock Index RawData ChannelReader TdmsFile
  SpecIndex SpecSession SpecRead SpecMulti SpecUneven SpecSeen SpecMixed SpecRepeat SpecDealt Read_proofs Session_proofs
  Serve_proofs Repeat_proofs Again_proofs Last_proofs Mixed_proofs Dealt_proofs DealtLast_proofs InStep_proofs Thm_Index Thm_Read Thm_Uneven
  Thm_Mixed Thm_Repeat Vectors.
Close Scope string_scope.

(** ** C110 The exact result of any read *)
Theorem C110_exact : forall E H F t chans start outs,
  session E H F -> t <> SExt -> t <> SStr -> addressable E (tf_bytes F) ->
  Forall (mentioned (all_objs H)) chans -> Forall (mixed_stored E (tf_bytes F) t H) chans -> length outs = length chans ->
  read_channels_from E F t chans start outs
  = (map (tk_buf t) (dealt_served (tf_bytes F) t (blocks_after H)
       (map (fun po => mkTaker t (needed (locs_after H (fst po)) start) 0 (snd po)) (combine chans outs))), Ok tt).
Proof. intros E H F t chans start outs Se X1 X2 Ad. apply (read_dealt E H F t Se (conj X1 X2) Ad). Qed.

(** A buffer gets nothing if its channel is asked for again later, with a buffer
    at least as long. *)
Theorem C110_shadowed : forall E H F t chans start outs,
  session E H F -> t <> SExt -> t <> SStr -> addressable E (tf_bytes F) ->
  Forall (mentioned (all_objs H)) chans -> Forall (mixed_stored E (tf_bytes F) t H) chans -> length outs = length chans ->
  later_no_shorter chans outs ->
  exists outs', read_channels_from E F t chans start outs = (outs', Ok tt) /\ length outs' = length chans
    /\ forall i i' p, (i < i')%nat -> nth_error chans i = Some p -> nth_error chans i' = Some p ->
       nth_error outs' i = nth_error outs i.
Proof.
  intros E H F t chans start outs Se X1 X2 Ad M St Lo La.
  eexists. split; [eapply C110_exact; eassumption|].
  change (map (fun po => mkTaker t (needed (locs_after H (fst po)) start) 0 (snd po)) (combine chans outs)) with (Thm_MultiExact.before_read H t chans start outs).
  rewrite <- named_snd. unfold dealt_served. rewrite <- deal_blocks_snd.
  set (L := named H t chans start outs). set (js := seq 0 (length (blocks_after H))).
  destruct (deals_levels (tf_bytes F) t (blocks_after H) js L (named_levels H t chans start outs Lo La)) as [_ U].
  pose proof (named_fst H t chans start outs Lo) as Nf. fold L in Nf.
  set (L' := fold_left _ js L) in *. clearbody L'. pose proof (untouched_fst t _ _ U) as Uf. rewrite Nf in Uf.
  split; [now rewrite map_map, map_length, <- (map_length fst), Uf|]. intros i i' p Hi Pi Pi'.
  assert (Bo : map (fun x => tk_buf t (snd x)) L = outs).
  { unfold L, named. rewrite map_map. cbn [snd tk_buf]. now apply combine_snd. }
  rewrite map_map, <- Bo. rewrite <- Nf in Pi, Pi'. clear -U Hi Pi Pi'. clearbody L.
  revert L' i i' Hi Pi Pi' U. induction L as [|[q k] r IH]; intros [|[q' k'] r'] i i' Hi Pi Pi' U; cbn [untouched] in U; try contradiction; [reflexivity|].
  destruct U as [-> [Ub U]]. destruct i as [|i], i' as [|i']; try lia.
  - cbn [map fst nth_error snd] in *. injection Pi as ->. f_equal. apply Ub. now apply nth_error_In in Pi'.
  - cbn [map fst nth_error snd] in *. apply (IH r' i i'); [lia|assumption..].
Qed.

(** If moreover all channels enter the blocks alike, the last request for each
    channel is answered as if it were the only one. *)
Theorem C110_last : forall E H F t chans start outs,
  session E H F -> t <> SExt -> t <> SStr -> addressable E (tf_bytes F) ->
  Forall (mentioned (all_objs H)) chans -> Forall (mixed_stored E (tf_bytes F) t H) chans -> length outs = length chans ->
  later_no_shorter chans outs -> entered_alike H chans start ->
  let once := last_only (combine chans outs) in
  NoDup (map fst once)
  /\ exists outs' outs1,
       read_channels_from E F t chans start outs = (outs', Ok tt)
    /\ read_channels_from E F t (map fst once) start (map snd once) = (outs1, Ok tt)
    /\ length outs' = length chans
    /\ last_only (combine chans outs') = combine (map fst once) outs1.
Proof.
  intros E H F t chans start outs Se X1 X2 Ad M St Lo La En once. split; [apply last_nodup|].
  assert (Sub : forall p, In p (map fst once) -> In p chans).
  { intros p Hp. unfold once in Hp. rewrite last_fst_in, Thm_Repeat.combine_fst in Hp by exact Lo. exact Hp. }
  assert (Lo1 : length (map snd once) = length (map fst once)) by now rewrite !map_length.
  pose proof (named_placed E H F t chans start outs Se M Lo En) as Pl.
  eexists. eexists. split; [eapply C110_exact; eassumption|]. split.
  { apply (C110_exact E H F t); try assumption.
    - apply Forall_forall. intros p Hp. exact (proj1 (Forall_forall _ _) M p (Sub p Hp)).
    - apply Forall_forall. intros p Hp. exact (proj1 (Forall_forall _ _) St p (Sub p Hp)). }
  change (map (fun po => mkTaker t (needed (locs_after H (fst po)) start) 0 (snd po)) (combine chans outs)) with (Thm_MultiExact.before_read H t chans start outs).
  change (map (fun po => mkTaker t (needed (locs_after H (fst po)) start) 0 (snd po)) (combine (map fst once) (map snd once)))
    with (Thm_MultiExact.before_read H t (map fst once) start (map snd once)).
  rewrite <- !named_snd. unfold dealt_served. rewrite <- !deal_blocks_snd.
  set (js := seq 0 (length (blocks_after H))).
  assert (On : named H t (map fst once) start (map snd once) = last_only (named H t chans start outs)).
  { unfold named. rewrite combine_back. unfold once. symmetry. apply (last_map (fun po => (fst po, mkTaker t (needed (locs_after H (fst po)) start) 0 (snd po)))). reflexivity. }
  rewrite On. rewrite <- deal_blocks_last.
  - pose proof (deal_blocks_fst (tf_bytes F) t (blocks_after H) js (named H t chans start outs)) as Sf. rewrite (named_fst H t chans start outs Lo) in Sf.
    assert (Sl : map fst (last_only (fold_left (fun L j => deal_block (tf_bytes F) t (blocks_after H) j L) js (named H t chans start outs))) = map fst once).
    { rewrite deal_blocks_last.
      - rewrite deal_blocks_fst, <- On. now apply named_fst.
      - now apply named_levels.
      - exact Pl. }
    set (L' := fold_left _ js (named H t chans start outs)) in *. clearbody L'.
    split; [now rewrite !map_length, <- (map_length fst), Sf|].
    rewrite <- Sf at 1. rewrite <- Sl, !map_map. clear.
    transitivity (last_only (map (fun x => (fst x, tk_buf t (snd x))) L')).
    + f_equal. induction L' as [|[p k] r IH]; [reflexivity|]. cbn [map combine fst snd]. now rewrite IH.
    + rewrite last_map by reflexivity. induction (last_only L') as [|[p k] r IH]; [reflexivity|]. cbn [map combine fst snd]. now rewrite IH.
  - now apply named_levels.
  - exact Pl.
Qed.

(** ** C110 Channels in the same blocks with as many samples each *)
Lemma aligned_alike E H F chans start : session E H F -> Forall (mentioned (all_objs H)) chans -> aligned H chans -> entered_alike H chans start.
Proof.
  intros Se M Al p p' j c s c' s' Hp Hp' A B. rewrite Forall_forall in M.
  destruct (needed_shape _ _ _ _ _ _ (Al p p' Hp Hp') A) as [c2 A'].
  destruct (session_locs E H F p' Se (M p' Hp')) as [_ As].
  pose proof (needed_sorted _ As start) as So.
  assert (U : forall l : list (nat * nat * N), StronglySorted lt (map (fun x : nat * nat * N => fst (fst x)) l) -> In (j, c2, s) l -> In (j, c', s') l -> s = s').
  { clear. induction l as [|[[j0 c0] s0] l IH]; intros So A B; [contradiction|]. cbn [map fst] in So. inversion So as [|? ? So' Fa]; subst.
    rewrite Forall_forall in Fa. destruct A as [A|A], B as [B|B].
    - congruence.
    - specialize (Fa _ (in_map (fun x : nat * nat * N => fst (fst x)) _ _ B)). cbn [fst] in Fa. injection A as -> _ _. lia.
    - specialize (Fa _ (in_map (fun x : nat * nat * N => fst (fst x)) _ _ A)). cbn [fst] in Fa. injection B as -> _ _. lia.
    - now apply IH. }
  now apply (U _ So).
Qed.
(** The buffers after a read: where a channel is asked for again later, the buffer
    stays as it was; the last one gets [vs] of the channel. *)
Fixpoint last_answered {V} (vs : str -> list V) (chans : list str) (outs : list (list V)) : list (list V) :=
  match chans, outs with
  | p :: ps, o :: os => (if existsb (str_eqb p) ps then o else overlay o (vs p)) :: last_answered vs ps os
  | _, _ => []
  end.
Lemma together_alike f t H cs cs' ls s : (forall p, In p cs <-> In p cs') -> together f t H cs ls s = together f t H cs' ls s.
Proof.
  intros Q. unfold together. f_equal. apply map_ext. intros [[j i] k]. destruct (nth_error (blocks_after H) j) as [b|]; [|reflexivity].
  rewrite (widths_alike t (numbers_in H cs j) (numbers_in H cs' j)); [reflexivity|].
  intros x. unfold numbers_in. rewrite !in_flat_map. split; intros [p [Hp K]]; exists p; (split; [now apply Q|exact K]).
Qed.
Lemma last_answered_is {V} (vs : str -> list V) chans : forall outs outs', length outs = length chans -> length outs' = length chans ->
  (forall i i' p, (i < i')%nat -> nth_error chans i = Some p -> nth_error chans i' = Some p -> nth_error outs' i = nth_error outs i) ->
  last_only (combine chans outs') = map (fun po => (fst po, overlay (snd po) (vs (fst po)))) (last_only (combine chans outs)) ->
  outs' = last_answered vs chans outs.
Proof.
  induction chans as [|p ps IH]; intros [|o os] [|o' os'] L L' U Q; try discriminate; [reflexivity|].
  injection L as L. injection L' as L'. cbn [combine last_only last_answered] in *.
  rewrite !Thm_Repeat.combine_fst in Q by assumption. assert (U' : forall i i' q, (i < i')%nat -> nth_error ps i = Some q -> nth_error ps i' = Some q -> nth_error os' i = nth_error os i).
  { intros i i' q Hi. exact (U (S i) (S i') q ltac:(lia)). }
  destruct (existsb (str_eqb p) ps) eqn:K.
  - f_equal; [|now apply IH]. apply Last_proofs.existsb_in in K. apply In_nth_error in K. destruct K as [i K].
    specialize (U 0%nat (S i) p ltac:(lia) eq_refl K). cbn [nth_error] in U. now apply some_eq in U.
  - cbn [map fst snd] in Q. injection Q as Q1 Q2. f_equal; [exact Q1|now apply IH].
Qed.
Theorem C110_in_step : forall E H F t chans start outs n,
  session E H F -> t <> SExt -> t <> SStr -> addressable E (tf_bytes F) ->
  Forall (mentioned (all_objs H)) chans -> Forall (mixed_stored E (tf_bytes F) t H) chans -> length outs = length chans ->
  aligned H chans -> (0 < n)%nat -> Forall (fun o => length o = n) outs ->
  read_channels_from E F t chans start outs
  = (last_answered (fun p => firstn n (together (tf_bytes F) t H chans (locs_after H p) start)) chans outs, Ok tt).
Proof.
  intros E H F t chans start outs n Se X1 X2 Ad M St Lo Al Hn On.
  assert (La : later_no_shorter chans outs).
  { intros i i' p o o' _ _ _ Ho Ho'. rewrite Forall_forall in On. rewrite (On o), (On o') by (eapply nth_error_In; eassumption). apply le_n. }
  destruct (C110_last E H F t chans start outs Se X1 X2 Ad M St Lo La (aligned_alike E H F chans start Se M Al)) as [ND [o1 [o2 [A [B [L1 C]]]]]].
  destruct (C110_shadowed E H F t chans start outs Se X1 X2 Ad M St Lo La) as [o1' [A' [_ U]]]. rewrite A in A'. injection A' as <-.
  rewrite A. f_equal. set (once := last_only (combine chans outs)) in *.
  assert (Sub : forall p, In p (map fst once) <-> In p chans).
  { intros p. unfold once. now rewrite last_fst_in, Thm_Repeat.combine_fst by exact Lo. }
  apply last_answered_is; [exact Lo|exact L1|exact U|]. rewrite C. fold once.
  assert (B2 : read_channels_from E F t (map fst once) start (map snd once)
    = (map (fun po => overlay (snd po) (firstn n (together (tf_bytes F) t H (map fst once) (locs_after H (fst po)) start))) (combine (map fst once) (map snd once)), Ok tt)).
  { apply (C105_together E H F t _ start _ n); try assumption.
    - apply Forall_forall. intros p Hp. exact (proj1 (Forall_forall _ _) M p (proj1 (Sub p) Hp)).
    - apply Forall_forall. intros p Hp. exact (proj1 (Forall_forall _ _) St p (proj1 (Sub p) Hp)).
    - now rewrite !map_length.
    - intros p q Hp Hq. apply Al; now apply Sub.
    - apply Forall_forall. intros o Ho. apply in_map_iff in Ho. destruct Ho as [[p o'] [Q Hin]]. cbn [snd] in Q. subst o'.
      unfold once in Hin. apply last_in_l in Hin. apply in_combine_r in Hin. exact (proj1 (Forall_forall _ _) On o Hin). }
  rewrite B in B2. injection B2 as ->. rewrite combine_back. clearbody once. clear - Sub.
  assert (T : forall p, together (tf_bytes F) t H (map fst once) (locs_after H p) start = together (tf_bytes F) t H chans (locs_after H p) start)
    by (intros p; apply together_alike; exact Sub).
  rewrite (map_ext _ _ (fun po => f_equal (fun x => overlay (snd po) (firstn n x)) (T (fst po)))). clear.
  induction once as [|[p o] r IH]; [reflexivity|]. cbn [map combine fst snd]. now rewrite IH.
Qed.

(** For different channels this is what C105 says of the block. *)
Theorem C110_distinct : forall f t b reqs q, NoDup (map rq_chan reqs) ->
  dealt_got f t b reqs q = mixed_got f t b reqs q /\ dealt_count t b reqs = mixed_count t b reqs.
Proof.
  intros f t b reqs q ND. unfold dealt_got, dealt_count, mixed_got, mixed_count, dealt_first, mixed_first, rows_passed, rows_read, wanted_by_final,
    wanted, least_dealt, skip_dealt, skip_given. rewrite (final_all reqs ND), firstn_all. split; reflexivity.
Qed.

(** ** Concrete cases *)
Lemma no_shorter {A} (chans : list str) (outs : list (list A)) n : Forall (fun o => length o = n) outs -> later_no_shorter chans outs.
Proof.
  intros On i i' p o o' _ _ _ Ho Ho'. rewrite Forall_forall in On. rewrite (On o), (On o') by (eapply nth_error_In; eassumption). apply le_n.
Qed.
Example C110_case :
  let chans := [ch "g" "a"; ch "g" "b"; ch "g" "a"] in
  let outs := [[0; 0; 0; 0; 0]; [0; 0; 0; 0; 0]; [0; 0; 0; 0; 0]]%Z in
  (exists H, session dbg H mixed_F /\ addressable dbg (tf_bytes mixed_F)
    /\ Forall (mentioned (all_objs H)) chans /\ Forall (mixed_stored dbg (tf_bytes mixed_F) SI32 H) chans
    /\ aligned H chans /\ Forall (fun o => length o = 5%nat) outs /\ later_no_shorter chans outs /\ entered_alike H chans 1
    /\ together (tf_bytes mixed_F) SI32 H chans (locs_after H (ch "g" "a")) 1 = [3; 4; 5; 6; 7]%Z)
  /\ read_channels_from dbg mixed_F SI32 chans 0 outs = ([[0; 0; 0; 0; 0]; [101; 102; 103; 104; 105]; [1; 2; 3; 4; 5]]%Z, Ok tt)
  /\ read_channels_from dbg mixed_F SI32 chans 1 outs = ([[0; 0; 0; 0; 0]; [103; 104; 105; 106; 107]; [3; 4; 5; 6; 7]]%Z, Ok tt).
Proof.
  cbv zeta. split; [|split; vm_compute; reflexivity].
  assert (O : tdms_new dbg mixed_file = Ok mixed_F) by (vm_compute; reflexivity).
  destruct (C14_open_is_session _ _ _ O) as [H [_ [Se _]]]. exists H. split; [exact Se|].
  destruct (C14_incremental _ _ _ Se) as [_ [_ [_ [Hb _]]]].
  destruct (session_mixed dbg H mixed_F SI32 (ch "g" "a") [mkLoc 0 1 4; mkLoc 1 0 2] Se) as [Ma [La Sa]]; [vm_compute; reflexivity|vm_compute; reflexivity|].
  destruct (session_mixed dbg H mixed_F SI32 (ch "g" "b") [mkLoc 0 2 4; mkLoc 1 1 2] Se) as [Mb [Lb Sb]]; [vm_compute; reflexivity|vm_compute; reflexivity|].
  split; [vm_compute; repeat split; discriminate|].
  assert (M : Forall (mentioned (all_objs H)) [ch "g" "a"; ch "g" "b"; ch "g" "a"]) by (repeat constructor; assumption).
  split; [exact M|]. split; [repeat constructor; assumption|].
  assert (Al : aligned H [ch "g" "a"; ch "g" "b"; ch "g" "a"]).
  { pose proof (aligned_two H (ch "g" "a") (ch "g" "b") ltac:(rewrite La, Lb; reflexivity)) as A2.
    intros p q [<-|[<-|[<-|[]]]] [<-|[<-|[<-|[]]]]; apply A2; cbn [List.In]; tauto. }
  split; [exact Al|]. split; [repeat constructor|]. split; [apply (no_shorter _ _ 5); repeat constructor|].
  split; [exact (aligned_alike dbg H mixed_F _ 1 Se M Al)|].
  unfold together. unfold numbers_in. cbn [flat_map]. rewrite La, Lb, <- Hb. vm_compute. reflexivity.
Qed.
(** Different numbers of values per channel and a repetition: the samples dealt
    out by [C110_exact], with a skip that another request asked for. *)
Example C110_exact_case :
  (exists H, session dbg H uneven2_F /\ addressable dbg (tf_bytes uneven2_F)
    /\ Forall (mentioned (all_objs H)) [ch "g" "y"; ch "g" "x"; ch "g" "y"]
    /\ Forall (mixed_stored dbg (tf_bytes uneven2_F) SI32 H) [ch "g" "y"; ch "g" "x"; ch "g" "y"]
    /\ map (tk_buf SI32) (dealt_served (tf_bytes uneven2_F) SI32 (blocks_after H)
         (map (fun po => mkTaker SI32 (needed (locs_after H (fst po)) 1) 0 (snd po))
            (combine [ch "g" "y"; ch "g" "x"; ch "g" "y"] [repeat 0%Z 8; repeat 0%Z 8; repeat 0%Z 8])))
       = [[0; 0; 0; 0; 0; 0; 0; 0]; [101; 0; 0; 102; 103; 104; 105; 106]; [4; 5; 6; 7; 8; 9; 10; 0]]%Z)
  /\ read_channels_from dbg uneven2_F SI32 [ch "g" "y"; ch "g" "x"; ch "g" "y"] 1 [repeat 0%Z 8; repeat 0%Z 8; repeat 0%Z 8]
     = ([[0; 0; 0; 0; 0; 0; 0; 0]; [101; 0; 0; 102; 103; 104; 105; 106]; [4; 5; 6; 7; 8; 9; 10; 0]]%Z, Ok tt).
Proof.
  split; [|vm_compute; reflexivity].
  assert (O : tdms_new dbg uneven2_file = Ok uneven2_F) by (vm_compute; reflexivity).
  destruct (C14_open_is_session _ _ _ O) as [H [_ [Se _]]]. exists H. split; [exact Se|].
  destruct (C14_incremental _ _ _ Se) as [_ [_ [_ [Hb _]]]].
  destruct (session_mixed dbg H uneven2_F SI32 (ch "g" "x") [mkLoc 0 0 2; mkLoc 1 0 6] Se) as [Ma [La Sa]]; [vm_compute; reflexivity|vm_compute; reflexivity|].
  destruct (session_mixed dbg H uneven2_F SI32 (ch "g" "y") [mkLoc 0 1 6; mkLoc 1 1 4] Se) as [Mb [Lb Sb]]; [vm_compute; reflexivity|vm_compute; reflexivity|].
  split; [vm_compute; repeat split; discriminate|].
  split; [repeat constructor; assumption|]. split; [repeat constructor; assumption|].
  cbn [combine map fst snd]. rewrite La, Lb, <- Hb. vm_compute. reflexivity.
Qed.

Print Assumptions C110_exact.
Print Assumptions C110_shadowed.
Print Assumptions C110_last.
Print Assumptions C110_in_step.
Print Assumptions C110_distinct.
