(** * Reading blocks without panics *)
From Verif Require Import Base Lib Utf8 DataTypes MetaData DataBlock Index RawData ChannelReader
  SpecIndex SpecRead History_proofs Block_proofs.

(** The outcome is a value or an error: no panic, no endless loop. *)
Definition calm {A} (r : res A) : Prop :=
  match r with Ok _ | Err _ => True | Panic _ | Diverge => False end.

Lemma calm_bind {A B} (m : res A) (k : A -> res B) :
  calm m -> (forall a, m = Ok a -> calm (k a)) -> calm (bind m k).
Proof. destruct m; cbn [bind calm]; auto. Qed.
Lemma calm_recast {A B} (m : res A) : calm m -> (forall a, m <> Ok a) -> calm (recast (B := B) m).
Proof. destruct m; cbn [recast calm]; auto. intros _ X. now destruct (X a). Qed.

Lemma calm_read_exact n bs : calm (read_exact n bs).
Proof. unfold read_exact. destruct (_ <=? _); exact I. Qed.
Lemma calm_dec E e t bs : calm (dec E e t bs).
Proof.
  assert (U : forall w bs, calm (dec_uint e w bs)).
  { intros w l. unfold dec_uint. apply calm_bind; [apply calm_read_exact|]. intros [b r] _. exact I. }
  destruct t; cbn [dec]; try apply U;
    try (unfold dec_sint; apply calm_bind; [apply U|]; intros [b r] _; exact I).
  - unfold dec_ext. apply calm_bind; [apply calm_read_exact|]. intros [b r] _. exact I.
  - unfold dec_bool. apply calm_bind; [apply calm_read_exact|]. intros [b r] _. exact I.
  - unfold dec_str. apply calm_bind; [apply U|]. intros [b r] _. destruct (alloc_ok E AString b); [|exact I].
    apply calm_bind; [apply calm_read_exact|]. intros [b' r'] _. destruct (utf8_valid b'); exact I.
  - unfold dec_complex. apply calm_bind; [apply U|]. intros [b r] _. apply calm_bind; [apply U|]. intros [b' r'] _. exact I.
  - unfold dec_complex. apply calm_bind; [apply U|]. intros [b r] _. apply calm_bind; [apply U|]. intros [b' r'] _. exact I.
Qed.
Lemma calm_read_at E f t e pos : calm (read_at E f t e pos).
Proof. unfold read_at. apply calm_bind; [apply calm_dec|]. intros [v r] _. exact I. Qed.
Lemma calm_seek_rel E pos off : calm (seek_rel E pos off).
Proof. unfold seek_rel. destruct (_ <? 0)%Z; [exact I|]. destruct (_ <=? _); exact I. Qed.
Lemma calm_seek_to E pos : calm (seek_to E pos).
Proof. unfold seek_to. destruct (_ <=? _); exact I. Qed.

Section Safe.
Context (E : env) (f : list byte) (t : sty) (e : endian) (k : N).
Local Notation V := (carrier t).
(** In-memory sizes are at most [k] times the sizes the index uses. *)
Hypothesis (Hk : forall d, supports t d = true -> 0 < dtype_size d /\ dtype_size d <= size_bytes t <= k * dtype_size d).
Hypothesis (Hk1 : 1 <= k).

Lemma imul_calm a b : (overflow_checks E = true -> (- 2 ^ 63 <= a * b < 2 ^ 63)%Z) -> calm (imul E a b).
Proof.
  intros H. unfold imul. destruct (_ && _)%bool eqn:Q; [exact I|]. destruct (overflow_checks E); [|exact I].
  specialize (H eq_refl). exfalso. apply andb_false_iff in Q. destruct Q as [Q|Q]; lia.
Qed.
Lemma imul_calm_N a b : (overflow_checks E = true -> a * b < 2 ^ 63) -> calm (imul E (as_i64 a) (as_i64 b)).
Proof.
  intros H. apply imul_calm. intros O. specialize (H O).
  destruct (N.eq_dec a 0) as [->|Na]; [change (as_i64 0) with 0%Z; lia|].
  destruct (N.eq_dec b 0) as [->|Nb]; [change (as_i64 0) with 0%Z; lia|].
  rewrite !as_i64_small by nia. nia.
Qed.

(** An entry made from channel [m] of the block. *)
Definition made (m : rawmeta) (x : entry V) : Prop :=
  en_len x = rm_n m
  /\ match en_plan x with
     | PSkip b => b = Z.of_N (dtype_size (rm_type m))
     | PRead _ _ _ _ => supports t (rm_type m) = true
     end.

Lemma size_16 d : dtype_size d <= 16.
Proof. destruct d; cbn; lia. Qed.
Lemma made_size m x : made m x -> dtype_size (rm_type m) <= entry_size t (en_plan x) <= k * dtype_size (rm_type m).
Proof.
  intros [_ H]. unfold entry_size. destruct (en_plan x).
  - subst. rewrite as_u64_small by (pose proof (size_16 (rm_type m)); lia). nia.
  - now apply Hk.
Qed.

(** The products of one entry fit. *)
Definition fits (m : rawmeta) : Prop :=
  overflow_checks E = true -> k * (rm_n m * dtype_size (rm_type m)) < 2 ^ 63.

Lemma read_vals_calm n : forall pos, calm (snd (read_vals E f t e n pos))
  /\ (length (fst (read_vals E f t e n pos)) <= n)%nat.
Proof.
  induction n as [|n IH]; intros pos; cbn [read_vals]; [cbn; auto|].
  pose proof (calm_read_at E f t e pos) as C. destruct (read_at E f t e pos) as [[v pos']| | |]; cbn in C; try contradiction.
  - specialize (IH pos'). destruct (read_vals E f t e n pos') as [vs r]. cbn [fst snd length] in *. split; [apply IH|lia].
  - cbn. split; [exact I|lia].
Qed.

Lemma read_seq_calm room samples pos : (overflow_checks E = true -> samples * size_bytes t < 2 ^ 63) ->
  calm (snd (read_seq E f t e room samples pos)).
Proof.
  intros H. unfold read_seq. set (n := N.min (N.of_nat room) samples).
  pose proof (read_vals_calm (N.to_nat n) pos) as [C _]. destruct (read_vals E f t e (N.to_nat n) pos) as [vs r].
  cbn [snd] in *. apply calm_bind; [exact C|]. intros pos1 _. destruct (0 <? samples - n); [|exact I].
  apply calm_bind.
  - apply imul_calm_N. intros O. specialize (H O). nia.
  - intros off _. apply calm_bind; [apply calm_seek_rel|]. intros p _. exact I.
Qed.

Lemma read_entry_calm m x pos : made m x -> fits m ->
  made m (fst (read_entry E f t e x pos)) /\ calm (snd (read_entry E f t e x pos)).
Proof.
  intros Md Ft. pose proof Md as [Ln Pl]. unfold read_entry. destruct (en_plan x) as [b|oid got room skip] eqn:P.
  - cbn [fst snd]. split; [exact Md|]. apply calm_bind.
    + subst b. rewrite <- (as_i64_small (dtype_size (rm_type m))) by (pose proof (size_16 (rm_type m)); lia).
      apply imul_calm_N. intros O. specialize (Ft O). rewrite Ln. nia.
    + intros off _. apply calm_bind; [apply calm_seek_rel|]. intros p _. exact I.
  - destruct (Hk _ Pl) as [K0 [K1 K2]].
    assert (Sz : overflow_checks E = true -> en_len x * size_bytes t < 2 ^ 63).
    { intros O. specialize (Ft O). rewrite Ln. nia. }
    set (sk := N.min skip (en_len x)).
    assert (C1 : calm (if 0 <? sk then off <- imul E (as_i64 sk) (as_i64 (size_bytes t));; seek_rel E pos off else Ok pos)).
    { destruct (0 <? sk); [|exact I]. apply calm_bind; [|intros; apply calm_seek_rel].
      apply imul_calm_N. intros O. specialize (Sz O). nia. }
    destruct (if 0 <? sk then _ else _) as [pos1| | |] in C1 |- *; cbn in C1; try contradiction.
    + pose proof (read_seq_calm room (en_len x - sk) pos1 ltac:(intros O; specialize (Sz O); nia)) as C.
      destruct (read_seq E f t e room (en_len x - sk) pos1) as [vs r]. cbn [fst snd] in *. split.
      * split; [exact Ln|]. cbn [en_plan]. exact Pl.
      * apply calm_bind; [exact C|]. intros [l p] _. exact I.
    + cbn [fst snd recast]. split; [exact Md|exact I].
Qed.

Lemma read_sub_block_calm : forall ms es, Forall2 made ms es -> Forall fits ms -> forall len pos,
  Forall2 made ms (fst (read_sub_block E f t e es len pos)) /\ calm (snd (read_sub_block E f t e es len pos)).
Proof.
  induction 1 as [|m x ms es Md Mds IH]; intros Ft len pos; cbn [read_sub_block]; [split; [constructor|exact I]|].
  inversion Ft as [|m' ms' F1 F2]; subst m' ms'.
  destruct (read_entry_calm m x pos Md F1) as [Md' C]. destruct (read_entry E f t e x pos) as [x' r].
  cbn [fst snd] in Md', C. destruct r as [[l pos']| | |]; cbn in C; try contradiction.
  - specialize (IH F2 (match l with Some l => l | None => len end) pos').
    destruct (read_sub_block E f t e es _ pos') as [r' q]. cbn [fst snd] in *. split; [now constructor|apply IH].
  - cbn [fst snd recast]. split; [now constructor|exact I].
Qed.

(** The size of a sub-block as computed from the entries. *)
Definition entries_size (es : list (entry V)) : N :=
  fold_right (fun x a => entry_size t (en_plan x) * en_len x + a) 0 es.
Lemma entries_bounds : forall ms es, Forall2 made ms es ->
  chunk_bytes ms <= entries_size es <= k * chunk_bytes ms.
Proof.
  induction 1 as [|m x ms es Md Mds IH]; cbn [entries_size chunk_bytes fold_right]; [lia|].
  fold (chunk_bytes ms). fold (entries_size es). pose proof (made_size m x Md) as Sz. destruct Md as [-> _]. nia.
Qed.
Lemma block_size_exact : forall es acc, acc + entries_size es < 2 ^ 64 ->
  block_size_from E t acc es = Ok (acc + entries_size es).
Proof.
  induction es as [|x es IH]; intros acc H; cbn [block_size_from entries_size fold_right] in *; [f_equal; lia|].
  fold (entries_size es) in *. unfold umul, uadd, two64.
  replace (entry_size t (en_plan x) * en_len x <? 2 ^ 64) with true by lia. cbn [bind].
  replace (acc + entry_size t (en_plan x) * en_len x <? 2 ^ 64) with true by lia. cbn [bind].
  rewrite IH by lia. f_equal. lia.
Qed.

Lemma contig_loop_calm step ms : Forall fits ms -> k * chunk_bytes ms < 2 ^ 64 ->
  (forall idx es es', step idx es = Some es' -> Forall2 made ms es -> Forall2 made ms es') ->
  forall n idx es len pos, Forall2 made ms es -> calm (snd (contig_loop E f t e step n idx es len pos)).
Proof.
  intros Ft Sz Hs. induction n as [|n IH]; intros idx es len pos Md; cbn [contig_loop]; [exact I|].
  destruct (step idx es) as [es1|] eqn:Q.
  - pose proof (Hs _ _ _ Q Md) as Md1. destruct (read_sub_block_calm ms es1 Md1 Ft 0 pos) as [Md2 C].
    destruct (read_sub_block E f t e es1 0 pos) as [es2 r]. cbn [fst snd] in *.
    destruct r as [[l pos']| | |]; cbn in C; try contradiction; [auto|exact I].
  - pose proof (entries_bounds ms es Md) as B. unfold block_size. rewrite block_size_exact by lia. cbn [bind].
    pose proof (calm_seek_rel E pos (as_i64 (0 + entries_size es))) as C.
    destruct (seek_rel E pos (as_i64 (0 + entries_size es))); cbn in C; try contradiction; [auto|exact I].
Qed.

Lemma made_skips s ms es : Forall2 made ms es -> Forall2 made ms (set_all_skips s es).
Proof.
  induction 1 as [|m x ms es [Ln Pl] Mds IH]; cbn [set_all_skips map]; constructor; [|exact IH].
  unfold set_skip, made. destruct (en_plan x) eqn:P; cbn [en_len en_plan]; rewrite ?P; auto.
Qed.
Lemma made_zip ms es : Forall2 made ms es -> forall skips, Forall2 made ms (zip_skips skips es).
Proof.
  induction 1 as [|m x ms es Md Mds IH]; intros skips; cbn [zip_skips]; [constructor|].
  destruct (en_plan x) eqn:P; [constructor; auto|]. destruct skips as [|s ss]; [constructor; assumption|].
  constructor; [|apply IH]. destruct Md as [Ln Pl]. unfold set_skip, made. rewrite P in *. cbn [en_len en_plan]. auto.
Qed.

Lemma contig_read_from_calm ms es start blen s :
  Forall2 made ms es -> Forall fits ms -> k * chunk_bytes ms < 2 ^ 64 -> 0 < chunk_bytes ms ->
  (exists m ms', ms = m :: ms' /\ rm_n m <> 0) ->
  calm (snd (contig_read_from E f t e start blen es s)).
Proof.
  intros Md Ft Sz Pos [m [ms' [-> Hm]]]. unfold contig_read_from.
  pose proof (entries_bounds _ es Md) as B. unfold block_size. rewrite block_size_exact by lia.
  pose proof (calm_seek_to E start) as C. destruct (seek_to E start) as [pos| | |]; cbn in C; try contradiction; [|exact I].
  cbn [bind]. unfold udiv at 1. replace (0 + entries_size es =? 0) with false by lia. cbn [bind].
  inversion Md as [|m0 x ms0 es' Mdx Mds]; subst. destruct Mdx as [Ln Pl].
  unfold udiv. replace (en_len x =? 0) with false by lia. cbn [bind].
  apply (contig_loop_calm _ (m :: ms')); auto.
  - intros idx es1 es2 Q M1. destruct (idx <? _); [discriminate|].
    destruct (idx =? _); injection Q as <-; now apply made_skips.
Qed.
Lemma div_skips_calm n skips : n <> 0 -> calm (div_skips n skips).
Proof.
  intros Hn. induction skips as [|s r IH]; cbn [div_skips]; [exact I|].
  unfold udiv. replace (n =? 0) with false by lia. cbn [bind]. apply calm_bind; [exact IH|]. intros; exact I.
Qed.
Lemma contig_read_skips_calm ms es start blen skips :
  Forall2 made ms es -> Forall fits ms -> k * chunk_bytes ms < 2 ^ 64 -> 0 < chunk_bytes ms ->
  (exists m ms', ms = m :: ms' /\ rm_n m <> 0) ->
  calm (snd (contig_read_skips E f t e start blen es skips)).
Proof.
  intros Md Ft Sz Pos [m [ms' [-> Hm]]]. unfold contig_read_skips.
  pose proof (entries_bounds _ es Md) as B. unfold block_size. rewrite block_size_exact by lia.
  pose proof (calm_seek_to E start) as C. destruct (seek_to E start) as [pos| | |]; cbn in C; try contradiction; [|exact I].
  cbn [bind]. unfold udiv at 1. replace (0 + entries_size es =? 0) with false by lia. cbn [bind].
  inversion Md as [|m0 x ms0 es' Mdx Mds]; subst. pose proof Mdx as [Ln Pl].
  pose proof (div_skips_calm (en_len x) skips ltac:(lia)) as D.
  destruct (div_skips (en_len x) skips) as [l| | |]; cbn in D; try contradiction; [|exact I]. cbn [bind].
  apply (contig_loop_calm _ (m :: ms')); auto.
  intros idx es1 es2 Q M1. destruct (forallb _ l); [|discriminate]. injection Q as <-. now apply made_zip.
Qed.

Lemma inter_row_calm row : forall es any pos, calm (snd (inter_row E f t e row es any pos)).
Proof.
  induction es as [|x es IH]; intros any pos; cbn [inter_row]; [exact I|].
  destruct (en_plan x) as [b|oid got room skip].
  - pose proof (calm_seek_rel E pos b) as C. destruct (seek_rel E pos b) as [pos'| | |]; cbn in C; try contradiction; [|exact I].
    specialize (IH any pos'). destruct (inter_row E f t e row es any pos'). exact IH.
  - pose proof (calm_read_at E f t e pos) as C.
    destruct (read_at E f t e pos) as [[v pos']| | |]; cbn in C; try contradiction; [|exact I].
    destruct (skip <=? row); [destruct room as [|room]|].
    + specialize (IH any pos'). destruct (inter_row E f t e row es any pos'). exact IH.
    + specialize (IH true pos'). destruct (inter_row E f t e row es true pos'). exact IH.
    + specialize (IH any pos'). destruct (inter_row E f t e row es any pos'). exact IH.
Qed.
Lemma inter_rows_calm : forall n row es read pos, calm (snd (inter_rows E f t e n row es read pos)).
Proof.
  induction n as [|n IH]; intros row es read pos; cbn [inter_rows]; [exact I|].
  pose proof (inter_row_calm row es false pos) as C. destruct (inter_row E f t e row es false pos) as [es' r].
  cbn [snd] in C. destruct r as [[[|] pos']| | |]; cbn in C; try contradiction; [apply IH|exact I..].
Qed.

Lemma rows_bounds : forall ms es, Forall2 made ms es ->
  fold_right N.add 0 (map (fun x => entry_size t (en_plan x)) es) <= k * (16 * lenN ms)
  /\ (0 < chunk_bytes ms -> 0 < fold_right N.add 0 (map (fun x => entry_size t (en_plan x)) es)).
Proof.
  induction 1 as [|m x ms es Md Mds IH]; cbn [map fold_right chunk_bytes]; [unfold lenN; cbn; lia|].
  fold (chunk_bytes ms). pose proof (made_size m x Md) as Sz. pose proof (size_16 (rm_type m)) as S16.
  unfold lenN in *. cbn [length]. rewrite Nat2N.inj_succ. split; [nia|]. intros P.
  destruct (N.eq_dec (dtype_size (rm_type m)) 0) as [Z|NZ]; [|lia]. rewrite Z in P. destruct IH as [_ IH].
  assert (0 < chunk_bytes ms) by lia. specialize (IH H). lia.
Qed.

Lemma inter_read_calm ms es start blen :
  Forall2 made ms es -> k * (16 * lenN ms) < 2 ^ 64 -> 0 < chunk_bytes ms ->
  (overflow_checks E = true -> min_or_0 (block_skips es) * (k * (16 * lenN ms)) < 2 ^ 63) ->
  calm (snd (inter_read E f t e start blen es)).
Proof.
  intros Md Sz Pos Sk. unfold inter_read. pose proof (rows_bounds ms es Md) as [B1 B2]. specialize (B2 Pos).
  set (mn := min_or_0 (block_skips es)) in *.
  unfold row_size, usum. rewrite usum_from_ok by lia.
  set (rs := fold_right N.add 0 (map (fun x => entry_size t (en_plan x)) es)) in *.
  pose proof (calm_seek_to E start) as C. destruct (seek_to E start) as [pos| | |]; cbn in C; try contradiction; [|exact I].
  cbn [bind]. unfold udiv. replace (0 + rs =? 0) with false by lia. cbn [bind].
  destruct (0 <? mn).
  - assert (C1 : calm (imul E (as_i64 mn) (as_i64 (0 + rs)))).
    { apply imul_calm_N. intros O. specialize (Sk O). nia. }
    destruct (imul E (as_i64 mn) (as_i64 (0 + rs))) as [off| | |]; cbn in C1; try contradiction; [|exact I]. cbn [bind].
    pose proof (calm_seek_rel E pos off) as C2. destruct (seek_rel E pos off); cbn in C2; try contradiction; [|exact I].
    cbn [bind]. apply inter_rows_calm.
  - apply inter_rows_calm.
Qed.

(** ** Entries from requests *)
Lemma made_base ms : Forall2 made ms (base_record ms).
Proof.
  induction ms as [|m ms IH]; cbn [base_record map]; constructor; [|exact IH].
  split; [reflexivity|]. cbn [en_plan]. apply as_i64_small. pose proof (size_16 (rm_type m)). lia.
Qed.
Lemma made_set_plan o r s : forall ms es, Forall2 made ms es -> forall i m, nth_error ms i = Some m ->
  supports t (rm_type m) = true -> Forall2 made ms (set_plan i (PRead o [] r s) es).
Proof.
  induction 1 as [|m x ms es Md Mds IH]; intros [|i] m0 Hm Hs; cbn [nth_error set_plan] in *; try discriminate.
  - injection Hm as ->. constructor; [|exact Mds]. destruct Md as [Ln _]. split; [exact Ln|exact Hs].
  - constructor; eauto.
Qed.
Lemma made_readable ms : forall reqs o es, validate t reqs ms = Ok tt -> Forall2 made ms es ->
  Forall2 made ms (set_readable o reqs es).
Proof.
  induction reqs as [|q reqs IH]; intros o es Va Md; cbn [validate set_readable] in *; [exact Md|].
  destruct (nth_error ms (rq_chan q)) as [m|] eqn:Q; [|discriminate].
  destruct (supports t (rm_type m)) eqn:Su; [|discriminate]. apply IH; [exact Va|]. eapply made_set_plan; eauto.
Qed.
Lemma validate_calm ms : forall reqs, Forall (fun q => nth_error ms (rq_chan q) <> None) reqs -> calm (validate t reqs ms).
Proof.
  induction 1 as [|q reqs Hq A IH]; cbn [validate]; [exact I|].
  destruct (nth_error ms (rq_chan q)); [|contradiction]. destruct (supports t _); [exact IH|exact I].
Qed.

(** The skips in the entries come from the requests. *)
Lemma skips_zip : forall (es : list (entry V)) skips s, (forall s, In s (block_skips es) -> s = 0) ->
  In s (block_skips (zip_skips skips es)) -> s = 0 \/ In s skips.
Proof.
  induction es as [|x es IH]; intros skips s Z H; cbn [zip_skips] in H; [contradiction|].
  assert (Z' : forall s, In s (block_skips es) -> s = 0).
  { intros s' Hs'. apply Z. unfold block_skips. cbn [map concat]. apply in_or_app. now right. }
  destruct (en_plan x) as [b|o g r s0] eqn:P.
  - unfold block_skips in H. cbn [map concat] in H. rewrite P in H. cbn [app] in H. apply IH in H; auto.
  - destruct skips as [|s1 ss]; [left; now apply Z|]. unfold block_skips in H. cbn [map concat] in H.
    unfold set_skip in H at 1. rewrite P in H. cbn [en_plan app] in H. destruct H as [<-|H]; [right; now left|].
    apply IH in H; [|exact Z']. destruct H as [H|H]; [now left|right; now right].
Qed.
Lemma skips_all : forall (es : list (entry V)) s0 s, In s (block_skips (set_all_skips s0 es)) -> s = s0.
Proof.
  induction es as [|x es IH]; intros s0 s H; [contradiction|]. unfold block_skips, set_all_skips in H.
  cbn [map concat] in H. apply in_app_or in H. destruct H as [H|H]; [|eapply IH; exact H].
  unfold set_skip in H. destruct (en_plan x) eqn:P; [rewrite P in H; contradiction|]. cbn [en_plan] in H.
  destruct H as [H|[]]. congruence.
Qed.
Lemma skips_fresh : forall ms reqs o (es : list (entry V)), (forall s, In s (block_skips es) -> s = 0) ->
  validate t reqs ms = Ok tt -> forall s, In s (block_skips (set_readable o reqs es)) -> s = 0.
Proof.
  intros ms. induction reqs as [|q reqs IH]; intros o es Z Va s H; cbn [set_readable validate] in *; [auto|].
  destruct (nth_error ms (rq_chan q)); [|discriminate]. destruct (supports t _); [|discriminate].
  eapply IH; [|exact Va|exact H]. clear -Z. revert Z. generalize (rq_chan q) as i.
  induction es as [|x es IHe]; intros i Z s H; [destruct i; contradiction|].
  assert (Z' : forall s, In s (block_skips es) -> s = 0).
  { intros s' Hs'. apply Z. unfold block_skips. cbn [map concat]. apply in_or_app. now right. }
  destruct i as [|i]; cbn [set_plan] in H; unfold block_skips in H; cbn [map concat en_plan] in H.
  - destruct H as [H|H]; [congruence|]. apply Z'. exact H.
  - apply in_app_or in H. destruct H as [H|H].
    + apply Z. unfold block_skips. cbn [map concat]. apply in_or_app. now left.
    + eapply IHe; eauto.
Qed.
Lemma skips_base ms s : In s (block_skips (V := V) (base_record ms)) -> s = 0.
Proof. induction ms as [|m ms IH]; [contradiction|]. exact IH. Qed.
Lemma min_or_0_in l : min_or_0 l = 0 \/ In (min_or_0 l) l.
Proof.
  destruct l as [|x l]; [now left|]. right. cbn [min_or_0]. revert x.
  induction l as [|y l IH]; intros x; cbn [fold_left]; [now left|].
  destruct (IH (N.min x y)) as [H|H]; [|right; now right].
  rewrite <- H. destruct (N.min_dec x y) as [-> | ->]; [now left|right; now left].
Qed.

End Safe.

Section Blocks.
Context (E : env) (f : list byte) (t : sty) (k : N).
Local Notation V := (carrier t).
Hypothesis (Hk : forall d, supports t d = true -> 0 < dtype_size d /\ dtype_size d <= size_bytes t <= k * dtype_size d).
Hypothesis (Hk1 : 1 <= k).

(** Blocks that cannot make a read panic: bounded sizes, and a contiguous block
    starts with a channel that has values. *)
Definition block_safe (b : dblock) : Prop :=
  0 < chunk_bytes (b_chans b) /\ chunk_bytes (b_chans b) <= b_len b
  /\ k * chunk_bytes (b_chans b) < 2 ^ 64
  /\ k * (16 * lenN (b_chans b)) < 2 ^ 64
  /\ (overflow_checks E = true -> b_len b * (k * (16 * lenN (b_chans b))) < 2 ^ 63)
  /\ (b_layout b = Contigious -> exists m ms, b_chans b = m :: ms /\ rm_n m <> 0).

Lemma block_fits b : block_safe b -> Forall (fits E k) (b_chans b).
Proof.
  intros [P [Le [_ [_ [Sz _]]]]]. apply Forall_forall. intros m Hm O. specialize (Sz O).
  pose proof (chunk_bytes_in m _ Hm) as In1.
  assert (0 < lenN (b_chans b)) by (unfold lenN; destruct (b_chans b); [contradiction|cbn [length]; lia]).
  set (x := rm_n m * dtype_size (rm_type m)) in *. set (L := lenN (b_chans b)) in *.
  assert (k * x <= k * b_len b) by (apply N.mul_le_mono_l; lia).
  assert (k * b_len b <= (b_len b * k) * (16 * L)) by nia. lia.
Qed.

Lemma reads_calm b reqs : block_safe b -> Forall (fun q => nth_error (b_chans b) (rq_chan q) <> None) reqs ->
  (forall q, In q reqs -> forall m, nth_error (b_chans b) (rq_chan q) = Some m -> supports t (rm_type m) = true ->
     rq_skip q <= b_len b) ->
  calm (snd (block_read E f t b reqs)) /\ calm (snd (block_read_skips E f t b reqs)).
Proof.
  intros Bs Va Sk. pose proof (block_fits b Bs) as Ft. destruct Bs as [P [Le [S1 [S2 [S3 S4]]]]].
  pose proof (validate_calm t (b_chans b) reqs Va) as Cv. unfold block_read, block_read_skips, build_record_plan.
  destruct (validate t reqs (b_chans b)) as [[]| | |] eqn:Ve; cbn in Cv; try contradiction; cbn [bind]; [|split; exact I].
  pose proof (made_readable t (b_chans b) reqs 0 _ Ve (made_base t k Hk1 (b_chans b))) as Md.
  set (es := set_readable 0 reqs (base_record (b_chans b))) in *.
  assert (Z : forall s, In s (block_skips es) -> s = 0).
  { intros s. apply (skips_fresh t (b_chans b)); [apply skips_base|exact Ve]. }
  assert (Vs : forall q, In q reqs -> rq_skip q <= b_len b).
  { intros q Hq. assert (X : exists m, nth_error (b_chans b) (rq_chan q) = Some m /\ supports t (rm_type m) = true).
    { clear -Ve Hq. induction reqs as [|q0 reqs IH]; [contradiction|]. cbn [validate] in Ve.
      destruct (nth_error (b_chans b) (rq_chan q0)) as [m|] eqn:M; [|discriminate].
      destruct (supports t (rm_type m)) eqn:S0; [|discriminate]. destruct Hq as [<-|Hq]; eauto. }
    destruct X as [m [Hm Hs]]. eapply Sk; eauto. }
  assert (Zi : forall n, n <= b_len b -> overflow_checks E = true -> n * (k * (16 * lenN (b_chans b))) < 2 ^ 63).
  { intros n Hn O. specialize (S3 O). nia. }
  split.
  - destruct (b_layout b) eqn:L.
    + pose proof (inter_read_calm E f t (b_order b) k Hk Hk1 (b_chans b) es (b_start b) (b_len b) Md S2 P) as C.
      destruct (inter_read E f t (b_order b) (b_start b) (b_len b) es) as [es' r]. cbn [snd] in *. apply C.
      apply Zi. destruct (min_or_0_in (block_skips es)) as [Q0|X]; [rewrite Q0; lia|]. apply Z in X. lia.
    + pose proof (contig_read_from_calm E f t (b_order b) k Hk Hk1 (b_chans b) es (b_start b) (b_len b) 0 Md Ft S1 P (S4 eq_refl)) as C.
      destruct (contig_read_from E f t (b_order b) (b_start b) (b_len b) es 0) as [es' r]. exact C.
  - destruct (b_layout b) eqn:L.
    + pose proof (inter_read_calm E f t (b_order b) k Hk Hk1 (b_chans b) (zip_skips (map rq_skip reqs) es) (b_start b) (b_len b)
        (made_zip t (b_chans b) es Md _) S2 P) as C.
      destruct (inter_read E f t (b_order b) (b_start b) (b_len b) (zip_skips (map rq_skip reqs) es)) as [es' r].
      cbn [snd] in *. apply C.
      apply Zi. destruct (min_or_0_in (block_skips (zip_skips (map rq_skip reqs) es))) as [Q0|X]; [rewrite Q0; lia|].
      apply (skips_zip t) in X; [|exact Z]. destruct X as [Q0|X]; [rewrite Q0; lia|]. apply in_map_iff in X.
      destruct X as [q [<- Hq]]. auto.
    + pose proof (contig_read_skips_calm E f t (b_order b) k Hk Hk1 (b_chans b) es (b_start b) (b_len b) (map rq_skip reqs)
        Md Ft S1 P (S4 eq_refl)) as C.
      destruct (contig_read_skips E f t (b_order b) (b_start b) (b_len b) es (map rq_skip reqs)) as [es' r]. exact C.
Qed.
End Blocks.
