(** * Claim C88: exactly which channels can make a read panic *)
From Coq Require Import Strings.String Sorting.Sorted.
From Verif Require Import Base Lib DataTypes MetaData Maps DataBlock Index RawData ChannelReader TdmsFile
  SpecIndex SpecSession SpecRead SpecPanic History_proofs Plan_proofs Read_proofs Session_proofs Safe_proofs MultiCut_proofs
  Thm_Index Thm_Read Thm_Safe Vectors.
Close Scope string_scope.

(** The sizes of the block stay within those of the machine, its start can be
    sought, and its channels have type [t]. *)
Definition moderate (E : env) (t : sty) (b : dblock) : Prop :=
  (t = STime -> chunk_bytes (b_chans b) < 2 ^ 63)
  /\ lenN (b_chans b) < 2 ^ 59
  /\ (overflow_checks E = true -> b_len b * (slack t * (16 * lenN (b_chans b))) < 2 ^ 63)
  /\ b_start b <= seek_max E.

Lemma needed_at ls' l : forall ls s, s < l_n l ->
  needed (ls ++ l :: ls') (samples_of ls + s) = (l_block l, l_chan l, s) :: needed ls' 0.
Proof.
  induction ls as [|l0 ls IH]; intros s Hs; unfold samples_of in *; cbn [app fold_right needed].
  - rewrite N.add_0_l. now replace (l_n l <=? s) with false by lia.
  - replace (l_n l0 <=? l_n l0 + fold_right (fun l a => l_n l + a) 0 ls + s) with true by lia.
    replace (l_n l0 + fold_right (fun l a => l_n l + a) 0 ls + s - l_n l0)
      with (fold_right (fun l a => l_n l + a) 0 ls + s) by lia. now apply IH.
Qed.

(** A block whose first channel is empty: both ways of reading it. *)
Lemma empty_first_panics E f t b reqs : t <> SStr ->
  starts_empty b -> moderate E t b -> 0 < chunk_bytes (b_chans b) -> chunk_bytes (b_chans b) < 2 ^ 64 ->
  validate t reqs (b_chans b) = Ok tt ->
  block_read E f t b reqs = (map (fun _ => []) reqs, Panic PDivZero)
  /\ (reqs <> [] -> block_read_skips E f t b reqs = (map (fun _ => []) reqs, Panic PDivZero)).
Proof.
  intros Nt [Lc [m0 [ms [Hc Hz]]]] [M0 [M1 [_ Ms]]] Pos Lt Ve.
  assert (Sz : slack t * chunk_bytes (b_chans b) < 2 ^ 64) by (destruct t; cbn [slack]; try specialize (M0 eq_refl); lia).
  unfold block_read, block_read_skips, build_record_plan. rewrite Ve. cbn [bind].
  assert (K1 : 1 <= slack t) by (destruct t; cbn; lia).
  pose proof (made_readable t (b_chans b) reqs 0 _ Ve (made_base t (slack t) K1 (b_chans b))) as Md.
  assert (Em : Forall empty_got (set_readable (V := carrier t) 0 reqs (base_record (b_chans b)))).
  { apply fresh_plan. unfold base_record. apply Forall_map, Forall_forall. intros m _. exact Logic.I. }
  set (es := set_readable 0 reqs (base_record (b_chans b))) in *. rewrite Lc.
  assert (O : outputs reqs es = map (fun _ => []) reqs).
  { unfold outputs. clearbody es. clear -Em. generalize 0%nat. induction reqs as [|q reqs IH]; intros n; [reflexivity|].
    cbn [length seq map]. f_equal; [now apply empty_harvest|apply IH]. }
  pose proof (entries_bounds t (slack t) (slack_sizes t Nt) K1 _ es Md) as B.
  unfold contig_read_from, contig_read_skips, seek_to. replace (b_start b <=? seek_max E) with true by lia. cbn [bind].
  unfold block_size. rewrite (block_size_exact E t (slack t) K1) by lia. cbn [bind].
  assert (U : udiv (b_len b) (0 + entries_size t es) = Ok (b_len b / (0 + entries_size t es))).
  { unfold udiv. now replace (0 + entries_size t es =? 0) with false by lia. }
  rewrite U. cbn [bind].
  rewrite Hc in Md. clearbody es.
  inversion Md as [|mm x mss es' Mdx Mds Q1 Q2]; subst. destruct Mdx as [Ln Pl].
  unfold udiv. replace (en_len x =? 0) with true by lia. cbn [bind recast]. rewrite O. split; [reflexivity|].
  intros Ne. destruct reqs as [|q reqs]; [contradiction|]. cbn [map div_skips]. unfold udiv.
  replace (en_len x =? 0) with true by lia. cbn [bind recast]. now rewrite O.
Qed.

Section Panic.
Context (E : env) (H : list segment) (F : tfile) (t : sty) (Se : session E H F) (Nt : t <> SStr).

(** The plan of a read that starts in the location [l]. *)
Lemma first_read p l1 l l2 s : mentioned (all_objs H) p -> locs_after H p = l1 ++ l :: l2 -> s < l_n l ->
  exists plan, read_plan [locs_after H p] [samples_of l1 + s] = Ok (mkBR (l_block l) [Some (l_chan l, s)] :: plan).
Proof.
  intros M Hl Hs. destruct (plan_ok E H F Se [p] (samples_of l1 + s) (Forall_cons _ M (Forall_nil _))) as [plan [Hp [_ [Sh Hn]]]].
  cbn [map length repeat] in Hp. rewrite Hp. specialize (Hn 0%nat p eq_refl). rewrite Hl, (needed_at l2 l l1 s Hs) in Hn.
  destruct plan as [|br plan]; [discriminate|]. exists plan. f_equal. f_equal.
  inversion Sh as [|x y [Ln [c0 [s0 Hin]]] Sh']; subst x y. destruct br as [j cs]. cbn [br_chans br_block] in *.
  destruct cs as [|x [|y cs]]; try discriminate. destruct Hin as [->|[]].
  unfold planned in Hn. cbn [flat_map br_chans br_block nth_error app] in Hn. congruence.
Qed.
Lemma holder p l b : In l (locs_after H p) -> 0 < l_n l -> nth_error (blocks_after H) (l_block l) = Some b ->
  exists m, nth_error (b_chans b) (l_chan l) = Some m /\ 0 < chunk_bytes (b_chans b) /\ chunk_bytes (b_chans b) < 2 ^ 64.
Proof.
  intros Hl Hn Hb. pose proof (locs_located H p) as Lc. rewrite Forall_forall in Lc. destruct (Lc l Hl) as [b' [m [B1 [B2 B3]]]].
  rewrite Hb in B1. injection B1 as <-. exists m. split; [exact B2|].
  destruct (C14_incremental E H F Se) as [_ [_ [_ [Hbs _]]]].
  assert (Hin : In b (ix_blocks (tf_ix F))) by (rewrite Hbs; eapply nth_error_In; eauto).
  destruct (C20_true_addresses E H F Se) as [_ [_ C20]]. destruct (C20 b Hin) as [_ [_ [_ [_ [_ [_ [_ [Hlen [_ [_ Hc64]]]]]]]]]].
  unfold whole_chunks in B3. destruct (chunk_bytes (b_chans b) =? 0) eqn:Q; [lia|]. split; [lia|exact Hc64].
Qed.

(** A read that starts on a sample held by a block whose first channel is empty
    panics and stores nothing, whatever the size of the buffer. *)
Theorem C88_panics : forall p l1 l l2 s b m out, mentioned (all_objs H) p ->
  locs_after H p = l1 ++ l :: l2 -> s < l_n l -> nth_error (blocks_after H) (l_block l) = Some b ->
  starts_empty b -> moderate E t b ->
  nth_error (b_chans b) (l_chan l) = Some m -> supports t (rm_type m) = true -> out <> [] ->
  read_channel_from E F t p (samples_of l1 + s) out = (out, Panic PDivZero).
Proof.
  intros p l1 l l2 s b m out M Hl Hs Hb Z Md Hm Su Ne. unfold read_channel_from.
  destruct (C14_incremental E H F Se) as [_ [_ [_ [Hbs [Gp _]]]]]. rewrite (Gp p M).
  destruct (first_read p l1 l l2 s M Hl Hs) as [plan ->]. unfold execute_read_plan. cbn [map execute br_block br_chans].
  unfold get_data_block. rewrite Hbs, Hb.
  assert (K : complete (mkPr 0 (lenN out)) = false).
  { unfold complete. cbn [pr_target pr_read]. apply N.leb_gt. destruct out; [contradiction|]. unfold lenN. cbn [length]. lia. }
  cbn [block_requests]. rewrite K. set (q := mkReq (l_chan l) _ s).
  assert (Hin : In l (locs_after H p)) by (rewrite Hl; apply in_elt).
  destruct (holder p l b Hin ltac:(lia) Hb) as [m' [_ [Pos Lt]]].
  destruct (empty_first_panics E (tf_bytes F) t b [q] Nt Z Md Pos Lt) as [X1 X2].
  { cbn [validate rq_chan q]. now rewrite Hm, Su. }
  specialize (X2 ltac:(discriminate)). rewrite X1, X2.
  destruct (any_skip _); cbn [map store recast hd]; rewrite K; unfold splice; cbn [pr_read N.to_nat firstn app length Nat.add skipn]; reflexivity.
Qed.

(** Exactly which channels every read of which returns: those no samples of
    which are held by such a block. *)
Theorem C88_exactly : forall p, mentioned (all_objs H) p -> (forall b, holds H p b -> moderate E t b) ->
  ((forall start out, calm (snd (read_channel_from E F t p start out)))
   <-> forall b, holds H p b -> ~ starts_empty b).
Proof.
  intros p M Mo. split.
  - intros C b Hh Z. pose proof (Mo b Hh) as Md. destruct Hh as [l [Hl [Hn Hb]]].
    destruct (in_split _ _ Hl) as [l1 [l2 Sp]]. destruct (holder p l b Hl Hn Hb) as [m [_ [Pos Lt]]].
    specialize (C (samples_of l1 + 0) []). unfold read_channel_from in C.
    destruct (C14_incremental E H F Se) as [_ [_ [_ [Hbs [Gp _]]]]]. rewrite (Gp p M) in C.
    destruct (first_read p l1 l l2 0 M Sp Hn) as [plan Hp]. rewrite Hp in C. unfold execute_read_plan in C.
    cbn [map execute br_block br_chans] in C. unfold get_data_block in C. rewrite Hbs, Hb in C.
    destruct (empty_first_panics E (tf_bytes F) t b [] Nt Z Md Pos Lt eq_refl) as [X1 _].
    change (any_skip [Some (l_chan l, 0)]) with false in C. cbn [block_requests] in C.
    change (complete (mkPr 0 (lenN []))) with true in C. cbv iota in C. rewrite X1 in C. exact C.
  - intros Nz start out. apply (C34_no_panic_single_partial E H F t p start out Se Nt). intros _ l b Hl Hn Hb.
    assert (Hh : holds H p b) by (exists l; auto). destruct (Mo b Hh) as [M0 [M1 [M2 M3]]].
    split; [exact M0|]. split; [exact M1|]. split; [exact M2|]. intros Lc.
    destruct (holder p l b Hl Hn Hb) as [m [Hm _]]. destruct (b_chans b) as [|m0 ms] eqn:Eb; [destruct (l_chan l); discriminate|].
    exists m0, ms. split; [reflexivity|]. intros Q. apply (Nz b Hh). split; [exact Lc|]. exists m0, ms. auto.
Qed.
End Panic.

(** A file of two channels, the first without values: reading the second panics
    at each of its samples; reading the first does not. *)
Example C88_case :
  let F := open_bytes dbg zero_first in
  exists H b, session dbg H F /\ mentioned (all_objs H) (ch "g" "y") /\ mentioned (all_objs H) (ch "g" "x")
    /\ holds H (ch "g" "y") b /\ starts_empty b /\ (forall b, holds H (ch "g" "y") b -> moderate dbg SI32 b)
    /\ ~ (forall start out, calm (snd (read_channel_from dbg F SI32 (ch "g" "y") start out)))
    /\ (forall start out, calm (snd (read_channel_from dbg F SI32 (ch "g" "x") start out)))
    /\ read_channel_from dbg F SI32 (ch "g" "y") 2 [0; 0]%Z = ([0; 0]%Z, Panic PDivZero).
Proof.
  cbn zeta.
  assert (O : tdms_new dbg zero_first = Ok (open_bytes dbg zero_first)) by (vm_compute; reflexivity).
  destruct (C14_open_is_session _ _ _ O) as [H [_ [Se _]]]. exists H.
  destruct (C14_incremental _ _ _ Se) as [_ [_ [_ [Hb [Gp Gn]]]]].
  set (b := mkBlock 104 12 Contigious [mkRaw I32 0 None; mkRaw I32 3 None] LittleE).
  assert (Bs : blocks_after H = [b]) by (rewrite <- Hb; vm_compute; reflexivity).
  assert (Mt : forall q, get_positions (tf_ix (open_bytes dbg zero_first)) q <> None -> mentioned (all_objs H) q).
  { intros q Hq. destruct (in_dec (list_eq_dec Byte.byte_eq_dec) q (map om_path (all_objs H))) as [M|M]; [exact M|].
    rewrite (Gn q M) in Hq. contradiction. }
  assert (My : mentioned (all_objs H) (ch "g" "y")) by (apply Mt; vm_compute; discriminate).
  assert (Mx : mentioned (all_objs H) (ch "g" "x")) by (apply Mt; vm_compute; discriminate).
  assert (Ly : locs_after H (ch "g" "y") = [mkLoc 0 1 3]).
  { pose proof (Gp _ My) as X. assert (Y : get_positions (tf_ix (open_bytes dbg zero_first)) (ch "g" "y") = Some [mkLoc 0 1 3]) by (vm_compute; reflexivity).
    congruence. }
  assert (Lx : locs_after H (ch "g" "x") = [mkLoc 0 0 0]).
  { pose proof (Gp _ Mx) as X. assert (Y : get_positions (tf_ix (open_bytes dbg zero_first)) (ch "g" "x") = Some [mkLoc 0 0 0]) by (vm_compute; reflexivity).
    congruence. }
  assert (Mo : moderate dbg SI32 b).
  { unfold moderate. split; [discriminate|]. split; [reflexivity|]. split; [reflexivity|]. vm_compute. discriminate. }
  assert (Hy : holds H (ch "g" "y") b).
  { exists (mkLoc 0 1 3). rewrite Ly, Bs. split; [left; reflexivity|]. split; [reflexivity|reflexivity]. }
  assert (Z : starts_empty b) by (split; [reflexivity|]; do 2 eexists; split; reflexivity).
  assert (Ay : forall b', holds H (ch "g" "y") b' -> moderate dbg SI32 b').
  { intros b' [l [Hl [_ Hn]]]. rewrite Ly in Hl. destruct Hl as [<-|[]]. rewrite Bs in Hn. injection Hn as <-. exact Mo. }
  assert (Ax : forall b', ~ holds H (ch "g" "x") b').
  { intros b' [l [Hl [Hp _]]]. rewrite Lx in Hl. destruct Hl as [<-|[]]. cbn [l_n] in Hp. lia. }
  exists b. repeat (split; [assumption|]). split; [|split].
  - intros C. apply (proj1 (C88_exactly dbg H _ SI32 Se ltac:(discriminate) (ch "g" "y") My Ay) C b Hy Z).
  - apply (C88_exactly dbg H _ SI32 Se ltac:(discriminate) (ch "g" "x") Mx); intros b' Hh; destruct (Ax b' Hh).
  - apply (C88_panics dbg H _ SI32 Se ltac:(discriminate) (ch "g" "y") [] (mkLoc 0 1 3) [] 2 b (mkRaw I32 3 None) [0; 0]%Z);
      auto; try reflexivity; [now rewrite Bs|discriminate].
Qed.

Print Assumptions C88_panics.
Print Assumptions C88_exactly.
Print Assumptions C88_case.
