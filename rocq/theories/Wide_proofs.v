(** * Reads of any element type on blocks whose sizes fit (claim C109) *)
From Verif Require Import Base Lib DataTypes MetaData Maps DataBlock Index RawData ChannelReader TdmsFile
  SpecIndex SpecSession SpecRead SpecPanic SpecStrings Session_proofs Block_proofs Plan_proofs Read_proofs Safe_proofs.

Section Wide.
Context (E : env) (f : list byte) (t : sty).
Local Notation V := (carrier t).

Lemma supported_size d : supports t d = true -> dtype_size d <= size_bytes t.
Proof. intros Hd. destruct t, d; cbn in Hd; try discriminate; cbn; lia. Qed.
Lemma wide_least d : dtype_size d <= wide t d.
Proof. unfold wide. destruct (supports t d) eqn:Q; [now apply supported_size|lia]. Qed.
Lemma made_wide m x : made t m x -> dtype_size (rm_type m) <= entry_size t (en_plan x) <= wide t (rm_type m).
Proof.
  intros [_ H]. unfold entry_size. destruct (en_plan x).
  - subst. rewrite as_u64_small by (pose proof (size_16 1 (N.le_refl 1) (rm_type m)); lia). pose proof (wide_least (rm_type m)). lia.
  - unfold wide. rewrite H. split; [now apply supported_size|lia].
Qed.

Definition fits_wide (m : rawmeta) : Prop := overflow_checks E = true -> rm_n m * wide t (rm_type m) < 2 ^ 63.

Lemma entry_wide e m x pos : made t m x -> fits_wide m ->
  made t m (fst (read_entry E f t e x pos)) /\ calm (snd (read_entry E f t e x pos)).
Proof.
  intros Md Ft. pose proof Md as [Ln Pl]. unfold read_entry. destruct (en_plan x) as [b|oid got room skip] eqn:P.
  - cbn [fst snd]. split; [exact Md|]. apply calm_bind.
    + subst b. rewrite <- (as_i64_small (dtype_size (rm_type m))) by (pose proof (size_16 1 (N.le_refl 1) (rm_type m)); lia).
      apply (imul_calm_N E 1 (N.le_refl 1)). intros O. specialize (Ft O). rewrite Ln. pose proof (wide_least (rm_type m)). nia.
    + intros off _. apply calm_bind; [apply calm_seek_rel|]. intros p _. exact I.
  - assert (Sz : overflow_checks E = true -> en_len x * size_bytes t < 2 ^ 63).
    { intros O. specialize (Ft O). unfold wide in Ft. rewrite Pl in Ft. now rewrite Ln. }
    set (sk := N.min skip (en_len x)).
    assert (C1 : calm (if 0 <? sk then off <- imul E (as_i64 sk) (as_i64 (size_bytes t));; seek_rel E pos off else Ok pos)).
    { destruct (0 <? sk); [|exact I]. apply calm_bind; [|intros; apply calm_seek_rel].
      apply (imul_calm_N E 1 (N.le_refl 1)). intros O. specialize (Sz O). nia. }
    destruct (if 0 <? sk then _ else _) as [pos1| | |] in C1 |- *; cbn in C1; try contradiction.
    + pose proof (read_seq_calm E f t e 1 (N.le_refl 1) room (en_len x - sk) pos1 ltac:(intros O; specialize (Sz O); nia)) as C.
      destruct (read_seq E f t e room (en_len x - sk) pos1) as [vs r]. cbn [fst snd] in *. split.
      * split; [exact Ln|]. cbn [en_plan]. exact Pl.
      * apply calm_bind; [exact C|]. intros [l p] _. exact I.
    + cbn [fst snd recast]. split; [exact Md|exact I].
Qed.

Lemma sub_block_wide e : forall ms es, Forall2 (made t) ms es -> Forall fits_wide ms -> forall len pos,
  Forall2 (made t) ms (fst (read_sub_block E f t e es len pos)) /\ calm (snd (read_sub_block E f t e es len pos)).
Proof.
  induction 1 as [|m x ms es Md Mds IH]; intros Ft len pos; cbn [read_sub_block]; [split; [constructor|exact I]|].
  inversion Ft as [|m' ms' F1 F2]; subst m' ms'.
  destruct (entry_wide e m x pos Md F1) as [Md' C]. destruct (read_entry E f t e x pos) as [x' r].
  cbn [fst snd] in Md', C. destruct r as [[l pos']| | |]; cbn in C; try contradiction.
  - specialize (IH F2 (match l with Some l => l | None => len end) pos').
    destruct (read_sub_block E f t e es _ pos') as [r' q]. cbn [fst snd] in *. split; [now constructor|apply IH].
  - cbn [fst snd recast]. split; [now constructor|exact I].
Qed.

Lemma entries_wide : forall ms es, Forall2 (made t) ms es -> chunk_bytes ms <= entries_size t es <= wide_chunk t ms.
Proof.
  induction 1 as [|m x ms es Md Mds IH]; cbn [entries_size chunk_bytes wide_chunk fold_right]; [lia|].
  fold (chunk_bytes ms). fold (entries_size t es). fold (wide_chunk t ms). pose proof (made_wide m x Md) as Sz. destruct Md as [-> _]. nia.
Qed.

Lemma contig_loop_wide e step ms : Forall fits_wide ms -> wide_chunk t ms < 2 ^ 64 ->
  (forall idx es es', step idx es = Some es' -> Forall2 (made t) ms es -> Forall2 (made t) ms es') ->
  forall n idx es len pos, Forall2 (made t) ms es -> calm (snd (contig_loop E f t e step n idx es len pos)).
Proof.
  intros Ft Sz Hs. induction n as [|n IH]; intros idx es len pos Md; cbn [contig_loop]; [exact I|].
  destruct (step idx es) as [es1|] eqn:Q.
  - pose proof (Hs _ _ _ Q Md) as Md1. destruct (sub_block_wide e ms es1 Md1 Ft 0 pos) as [Md2 C].
    destruct (read_sub_block E f t e es1 0 pos) as [es2 r]. cbn [fst snd] in *.
    destruct r as [[l pos']| | |]; cbn in C; try contradiction; [auto|exact I].
  - pose proof (entries_wide ms es Md) as B. unfold block_size. rewrite (block_size_exact E t 1 (N.le_refl 1)) by lia. cbn [bind].
    pose proof (calm_seek_rel E pos (as_i64 (0 + entries_size t es))) as C.
    destruct (seek_rel E pos (as_i64 (0 + entries_size t es))); cbn in C; try contradiction; [auto|exact I].
Qed.

Lemma contig_from_wide e ms es start blen s :
  Forall2 (made t) ms es -> Forall fits_wide ms -> wide_chunk t ms < 2 ^ 64 -> 0 < chunk_bytes ms ->
  (exists m ms', ms = m :: ms' /\ rm_n m <> 0) ->
  calm (snd (contig_read_from E f t e start blen es s)).
Proof.
  intros Md Ft Sz Pos [m [ms' [-> Hm]]]. unfold contig_read_from.
  pose proof (entries_wide _ es Md) as B. unfold block_size. rewrite (block_size_exact E t 1 (N.le_refl 1)) by lia.
  pose proof (calm_seek_to E start) as C. destruct (seek_to E start) as [pos| | |]; cbn in C; try contradiction; [|exact I].
  cbn [bind]. unfold udiv at 1. replace (0 + entries_size t es =? 0) with false by lia. cbn [bind].
  inversion Md as [|m0 x ms0 es' Mdx Mds]; subst. destruct Mdx as [Ln Pl].
  unfold udiv. replace (en_len x =? 0) with false by lia. cbn [bind].
  apply (contig_loop_wide e _ (m :: ms')); auto.
  - intros idx es1 es2 Q M1. destruct (idx <? _); [discriminate|].
    destruct (idx =? _); injection Q as <-; now apply made_skips.
Qed.
Lemma contig_skips_wide e ms es start blen skips :
  Forall2 (made t) ms es -> Forall fits_wide ms -> wide_chunk t ms < 2 ^ 64 -> 0 < chunk_bytes ms ->
  (exists m ms', ms = m :: ms' /\ rm_n m <> 0) ->
  calm (snd (contig_read_skips E f t e start blen es skips)).
Proof.
  intros Md Ft Sz Pos [m [ms' [-> Hm]]]. unfold contig_read_skips.
  pose proof (entries_wide _ es Md) as B. unfold block_size. rewrite (block_size_exact E t 1 (N.le_refl 1)) by lia.
  pose proof (calm_seek_to E start) as C. destruct (seek_to E start) as [pos| | |]; cbn in C; try contradiction; [|exact I].
  cbn [bind]. unfold udiv at 1. replace (0 + entries_size t es =? 0) with false by lia. cbn [bind].
  inversion Md as [|m0 x ms0 es' Mdx Mds]; subst. pose proof Mdx as [Ln Pl].
  pose proof (div_skips_calm 1 (N.le_refl 1) (en_len x) skips ltac:(lia)) as D.
  destruct (div_skips (en_len x) skips) as [l| | |]; cbn in D; try contradiction; [|exact I]. cbn [bind].
  apply (contig_loop_wide e _ (m :: ms')); auto.
  intros idx es1 es2 Q M1. destruct (forallb _ l); [|discriminate]. injection Q as <-. now apply made_zip.
Qed.

Lemma rows_wide : forall ms es, Forall2 (made t) ms es ->
  fold_right N.add 0 (map (fun x => entry_size t (en_plan x)) es) <= wide_row t ms
  /\ (0 < chunk_bytes ms -> 0 < fold_right N.add 0 (map (fun x => entry_size t (en_plan x)) es)).
Proof.
  induction 1 as [|m x ms es Md Mds IH]; cbn [map fold_right chunk_bytes wide_row]; [lia|].
  fold (chunk_bytes ms). fold (wide_row t ms). pose proof (made_wide m x Md) as Sz. split; [lia|]. intros P.
  destruct (N.eq_dec (dtype_size (rm_type m)) 0) as [Z|NZ]; [|lia]. rewrite Z in P. destruct IH as [_ IH].
  assert (0 < chunk_bytes ms) by lia. specialize (IH H). lia.
Qed.

Lemma inter_wide e ms es start blen :
  Forall2 (made t) ms es -> wide_row t ms < 2 ^ 64 -> 0 < chunk_bytes ms ->
  (overflow_checks E = true -> min_or_0 (block_skips es) * wide_row t ms < 2 ^ 63) ->
  calm (snd (inter_read E f t e start blen es)).
Proof.
  intros Md Sz Pos Sk. unfold inter_read. pose proof (rows_wide ms es Md) as [B1 B2]. specialize (B2 Pos).
  set (mn := min_or_0 (block_skips es)) in *.
  unfold row_size, usum. rewrite usum_from_ok by lia.
  set (rs := fold_right N.add 0 (map (fun x => entry_size t (en_plan x)) es)) in *.
  pose proof (calm_seek_to E start) as C. destruct (seek_to E start) as [pos| | |]; cbn in C; try contradiction; [|exact I].
  cbn [bind]. unfold udiv. replace (0 + rs =? 0) with false by lia. cbn [bind].
  destruct (0 <? mn).
  - assert (C1 : calm (imul E (as_i64 mn) (as_i64 (0 + rs)))).
    { apply (imul_calm_N E 1 (N.le_refl 1)). intros O. specialize (Sk O). nia. }
    destruct (imul E (as_i64 mn) (as_i64 (0 + rs))) as [off| | |]; cbn in C1; try contradiction; [|exact I]. cbn [bind].
    pose proof (calm_seek_rel E pos off) as C2. destruct (seek_rel E pos off); cbn in C2; try contradiction; [|exact I].
    cbn [bind]. apply inter_rows_calm.
  - apply inter_rows_calm.
Qed.

Lemma reads_wide b reqs : 0 < chunk_bytes (b_chans b) -> reckonable E t b -> ~ starts_empty b ->
  Forall (fun q => exists m, nth_error (b_chans b) (rq_chan q) = Some m /\ rq_skip q <= rm_n m * whole_chunks b) reqs ->
  calm (snd (block_read E f t b reqs)) /\ calm (snd (block_read_skips E f t b reqs)).
Proof.
  intros P Rc Nz Rq. rewrite Forall_forall in Rq.
  assert (Cv : calm (validate t reqs (b_chans b))).
  { apply validate_calm. apply Forall_forall. intros q Hq. destruct (Rq q Hq) as [m [Hm _]]. congruence. }
  unfold block_read, block_read_skips, build_record_plan.
  destruct (validate t reqs (b_chans b)) as [[]| | |] eqn:Ve; cbn in Cv; try contradiction; cbn [bind]; [|split; exact I].
  pose proof (made_readable t (b_chans b) reqs 0 _ Ve (made_base t 1 (N.le_refl 1) (b_chans b))) as Md.
  set (es := set_readable 0 reqs (base_record (b_chans b))) in *.
  assert (Z : forall s, In s (block_skips es) -> s = 0).
  { intros s. apply (skips_fresh t (b_chans b)); [apply skips_base|exact Ve]. }
  unfold reckonable in Rc. destruct (b_layout b) eqn:L.
  - destruct Rc as [R1 R2].
    assert (Zi : forall q, In q reqs -> overflow_checks E = true -> rq_skip q * wide_row t (b_chans b) < 2 ^ 63).
    { intros q Hq O. specialize (R2 O). rewrite Forall_forall in R2. destruct (Rq q Hq) as [m [Hm Le]].
      specialize (R2 m (nth_error_In _ _ Hm)). eapply N.le_lt_trans; [|exact R2]. now apply N.mul_le_mono_r. }
    split.
    + pose proof (inter_wide (b_order b) (b_chans b) es (b_start b) (b_len b) Md R1 P) as C.
      destruct (inter_read E f t (b_order b) (b_start b) (b_len b) es) as [es' r]. cbn [snd] in *. apply C.
      intros _. destruct (min_or_0_in (block_skips es)) as [Q0|X]; [rewrite Q0; lia|]. apply Z in X. rewrite X. lia.
    + pose proof (inter_wide (b_order b) (b_chans b) (zip_skips (map rq_skip reqs) es) (b_start b) (b_len b)
        (made_zip t (b_chans b) es Md _) R1 P) as C.
      destruct (inter_read E f t (b_order b) (b_start b) (b_len b) (zip_skips (map rq_skip reqs) es)) as [es' r].
      cbn [snd] in *. apply C. intros O.
      destruct (min_or_0_in (block_skips (zip_skips (map rq_skip reqs) es))) as [Q0|X]; [rewrite Q0; lia|].
      apply (skips_zip t) in X; [|exact Z]. destruct X as [Q0|X]; [rewrite Q0; lia|]. apply in_map_iff in X.
      destruct X as [q [<- Hq]]. auto.
  - destruct Rc as [R1 R2].
    assert (R3 : exists m ms, b_chans b = m :: ms /\ rm_n m <> 0).
    { destruct (b_chans b) as [|m ms] eqn:Q; [cbn in P; lia|]. exists m, ms. split; [reflexivity|]. intros Z0. apply Nz.
      split; [exact L|]. exists m, ms. auto. }
    assert (Ft : Forall fits_wide (b_chans b)).
    { apply Forall_forall. intros m Hm O. specialize (R2 O). rewrite Forall_forall in R2. auto. }
    split.
    + pose proof (contig_from_wide (b_order b) (b_chans b) es (b_start b) (b_len b) 0 Md Ft R1 P R3) as C.
      destruct (contig_read_from E f t (b_order b) (b_start b) (b_len b) es 0) as [es' r]. exact C.
    + pose proof (contig_skips_wide (b_order b) (b_chans b) es (b_start b) (b_len b) (map rq_skip reqs) Md Ft R1 P R3) as C.
      destruct (contig_read_skips E f t (b_order b) (b_start b) (b_len b) es (map rq_skip reqs)) as [es' r]. exact C.
Qed.

Lemma execute_wide ix : forall plan prs outs,
  Forall (fun br => exists b, nth_error (ix_blocks ix) (br_block br) = Some b /\ 0 < chunk_bytes (b_chans b) /\ reckonable E t b /\ ~ starts_empty b
    /\ forall i c s, nth_error (br_chans br) i = Some (Some (c, s)) ->
         exists m, nth_error (b_chans b) c = Some m /\ s <= rm_n m * whole_chunks b) plan ->
  calm (snd (execute E f t ix plan prs outs)).
Proof.
  induction plan as [|br plan IH]; intros prs outs Sf; cbn [execute]; [exact I|].
  inversion Sf as [|x l [b [Hb [Ps [Rc [Nz Hc]]]]] Sf']; subst x l. unfold get_data_block. rewrite Hb.
  set (reqs := block_requests (br_chans br) prs).
  assert (R : calm (snd (block_read E f t b reqs)) /\ calm (snd (block_read_skips E f t b reqs))).
  { apply reads_wide; [exact Ps|exact Rc|exact Nz|]. apply Forall_forall. intros q Hq. apply in_requests in Hq.
    destruct Hq as [i [c [s [pr [Hi [_ [_ ->]]]]]]]. cbn [rq_chan rq_skip]. eauto. }
  assert (C : calm (snd (if any_skip (br_chans br) then block_read_skips E f t b reqs else block_read E f t b reqs)))
    by (destruct (any_skip _); apply R).
  destruct (if any_skip (br_chans br) then _ else _) as [got r]. cbn [snd] in C.
  destruct r as [n| | |]; cbn in C; try contradiction; [|exact I].
  destruct (forallb complete _); [exact I|]. now apply IH.
Qed.

(** Reading nothing from a block that starts with an empty channel. *)
Lemma nothing_from_empty b : starts_empty b -> b_start b <= seek_max E -> 0 < chunk_bytes (b_chans b) -> chunk_bytes (b_chans b) < 2 ^ 64 ->
  snd (block_read E f t b []) = Panic PDivZero.
Proof.
  intros [L [m [ms [Hc Z]]]] S P Lt.
  assert (Q : forall ms, entries_size t (base_record ms) = chunk_bytes ms).
  { clear. unfold entries_size, chunk_bytes. induction ms as [|m ms IH]; [reflexivity|].
    cbn [base_record map fold_right en_plan en_len entry_size]. unfold base_record in IH. rewrite IH. f_equal. pose proof (size_16 1 (N.le_refl 1) (rm_type m)).
    rewrite as_i64_small, as_u64_small by lia. lia. }
  unfold block_read, build_record_plan. cbn [validate bind set_readable]. rewrite L.
  unfold contig_read_from, seek_to. replace (b_start b <=? seek_max E) with true by lia. cbn [bind].
  unfold block_size. rewrite (block_size_exact E t 1 (N.le_refl 1)) by (rewrite Q; lia). cbn [bind]. rewrite Q.
  unfold udiv at 1. replace (0 + chunk_bytes (b_chans b) =? 0) with false by lia. cbn [bind].
  rewrite Hc. cbn [base_record map en_len]. rewrite Z. reflexivity.
Qed.
End Wide.
