(** * Reading where usize is narrower *)
From Verif Require Import Base Lib DataTypes MetaData Maps DataBlock Index SpecIndex SpecRead RawData ChannelReader TdmsFile Width.

Section Narrow.
Context (W : N) (W1 : 1 < W) (W64 : W <= two64).

(** Length and size of an entry: neither changes while values are read. *)
Definition measure {V} (t : sty) (x : entry V) : N * N := (en_len x, entry_size t (en_plan x)).
Definition bytes_of (l : list (N * N)) : N := fold_right (fun w a => fst w * snd w + a) 0 l.
Definition row_of (l : list (N * N)) : N := fold_right (fun w a => snd w + a) 0 l.

Lemma entry_w {V} t (x : entry V) : entry_size t (en_plan x) < W -> w_entry_size W t (en_plan x) = entry_size t (en_plan x).
Proof. destruct (en_plan x); cbn [entry_size w_entry_size]; [intros L; unfold to_usize; now apply N.mod_small|reflexivity]. Qed.

Lemma uadd_small E a b : a + b < W -> uadd E a b = Ok (a + b) /\ wadd W E a b = Ok (a + b).
Proof. intros L. unfold uadd, wadd. replace (a + b <? two64) with true by lia. now replace (a + b <? W) with true by lia. Qed.
Lemma umul_small E a b : a * b < W -> umul E a b = Ok (a * b) /\ wmul W E a b = Ok (a * b).
Proof. intros L. unfold umul, wmul. replace (a * b <? two64) with true by lia. now replace (a * b <? W) with true by lia. Qed.

Lemma block_size_w {V} E t (es : list (entry V)) : forall acc,
  Forall (fun w => snd w < W) (map (measure t) es) -> acc + bytes_of (map (measure t) es) < W ->
  w_block_size_from W E t acc es = block_size_from E t acc es.
Proof.
  induction es as [|x es IH]; intros acc S L; [reflexivity|]. inversion S as [|? ? S1 S2]; subst.
  cbn [map bytes_of fold_right measure fst snd] in *. fold (bytes_of (map (measure t) es)) in L.
  cbn [w_block_size_from block_size_from]. rewrite entry_w by exact S1.
  destruct (umul_small E (entry_size t (en_plan x)) (en_len x)) as [-> ->]; [lia|]. cbn [bind].
  destruct (uadd_small E acc (entry_size t (en_plan x) * en_len x)) as [-> ->]; [lia|]. cbn [bind].
  apply IH; [exact S2|lia].
Qed.

Lemma row_size_w {V} E t (es : list (entry V)) : row_of (map (measure t) es) < W -> w_row_size W E t es = row_size E t es.
Proof.
  intros L. unfold w_row_size, row_size, usum.
  enough (K : forall acc, acc + row_of (map (measure t) es) < W ->
    wsum_from W E acc (map (fun x => w_entry_size W t (en_plan x)) es) = usum_from E acc (map (fun x => entry_size t (en_plan x)) es))
    by (apply K; lia).
  clear L. induction es as [|x es IH]; intros acc L; [reflexivity|].
  cbn [map row_of fold_right measure fst snd] in *. fold (row_of (map (measure t) es)) in L.
  cbn [wsum_from usum_from]. rewrite entry_w by lia. destruct (uadd_small E acc (entry_size t (en_plan x))) as [-> ->]; [lia|].
  cbn [bind]. apply IH. lia.
Qed.

(** Setting skips and reading keep the measures. *)
Lemma measure_skip {V} t s (x : entry V) : measure t (set_skip s x) = measure t x.
Proof. unfold set_skip, measure. destruct (en_plan x) eqn:P; [now rewrite P|reflexivity]. Qed.
Lemma measure_skips {V} t s (es : list (entry V)) : map (measure t) (set_all_skips s es) = map (measure t) es.
Proof. unfold set_all_skips. rewrite map_map. apply map_ext. intros x. apply measure_skip. Qed.
Lemma measure_zip {V} t (es : list (entry V)) : forall l, map (measure t) (zip_skips l es) = map (measure t) es.
Proof.
  induction es as [|x es IH]; intros l; [reflexivity|]. cbn [zip_skips]. destruct (en_plan x) eqn:P.
  - cbn [map]. now rewrite IH.
  - destruct l as [|s l]; [reflexivity|]. cbn [map]. now rewrite measure_skip, IH.
Qed.

Section Read.
Context (E : env) (f : list byte) (t : sty) (e : endian).
Local Notation V := (carrier t).

Lemma measure_entry (x : entry V) pos : measure t (fst (read_entry E f t e x pos)) = measure t x.
Proof.
  unfold read_entry. destruct (en_plan x) as [b|o g r s] eqn:P; [reflexivity|].
  destruct (if 0 <? N.min s (en_len x) then _ else _); try reflexivity.
  destruct (read_seq _ _ _ _ _ _ _) as [vs q]. cbn [fst]. unfold measure. cbn [en_len en_plan]. now rewrite P.
Qed.
Lemma measure_sub (es : list (entry V)) : forall len pos, map (measure t) (fst (read_sub_block E f t e es len pos)) = map (measure t) es.
Proof.
  induction es as [|x es IH]; intros len pos; [reflexivity|]. cbn [read_sub_block].
  pose proof (measure_entry x pos) as M. destruct (read_entry E f t e x pos) as [x' q]. cbn [fst] in M.
  destruct q as [[l pos']|y|p|]; try (cbn [fst map]; now rewrite M).
  specialize (IH (match l with Some l => l | None => len end) pos').
  destruct (read_sub_block E f t e es _ pos') as [r' q]. cbn [fst map] in *. now rewrite M, IH.
Qed.

Definition fitting (es : list (entry V)) : Prop :=
  Forall (fun w => snd w < W) (map (measure t) es) /\ bytes_of (map (measure t) es) < W.
Lemma block_size_same es : fitting es -> w_block_size W E t es = block_size E t es.
Proof. intros [A B]. apply block_size_w; [exact A|lia]. Qed.

Lemma contig_loop_w step n : (forall i es es', step i es = Some es' -> map (measure t) es' = map (measure t) es) ->
  forall idx es len pos, fitting es -> w_contig_loop W E f t e step n idx es len pos = contig_loop E f t e step n idx es len pos.
Proof.
  intros St. induction n as [|n IH]; intros idx es len pos Fi; [reflexivity|]. cbn [w_contig_loop contig_loop].
  destruct (step idx es) as [es1|] eqn:Hs.
  - apply St in Hs. pose proof (measure_sub es1 0 pos) as M.
    destruct (read_sub_block E f t e es1 0 pos) as [es2 [[l pos']|x|p|]]; try reflexivity. cbn [fst] in M.
    apply IH. unfold fitting. now rewrite M, Hs.
  - rewrite (block_size_same es Fi). destruct (bs <- block_size E t es ;; seek_rel E pos (as_i64 bs)); try reflexivity. now apply IH.
Qed.

Lemma read_from_w start blen es s : fitting es -> w_contig_read_from W E f t e start blen es s = contig_read_from E f t e start blen es s.
Proof.
  intros Fi. unfold w_contig_read_from, contig_read_from. rewrite (block_size_same es Fi).
  destruct (pos <- seek_to E start ;; _) as [[[[pos total] q] rm]|x|p|]; try reflexivity.
  apply contig_loop_w; [|exact Fi]. intros i l l'. destruct (i <? q); [discriminate|]. destruct (i =? q); injection 1 as <-; apply measure_skips.
Qed.
Lemma read_skips_w start blen es l : fitting es -> w_contig_read_skips W E f t e start blen es l = contig_read_skips E f t e start blen es l.
Proof.
  intros Fi. unfold w_contig_read_skips, contig_read_skips. rewrite (block_size_same es Fi).
  destruct (pos <- seek_to E start ;; _) as [[[pos total] l']|x|p|]; try reflexivity.
  apply contig_loop_w; [|exact Fi]. intros i es1 es2. destruct (forallb _ l'); [|discriminate]. injection 1 as <-. apply measure_zip.
Qed.
Lemma inter_w start blen es : row_of (map (measure t) es) < W -> w_inter_read W E f t e start blen es = inter_read E f t e start blen es.
Proof. intros L. unfold w_inter_read, inter_read. now rewrite (row_size_w E t es L). Qed.
End Read.

(** ** Blocks *)
(** Bytes of a value of channel [m] at most, while some channels are read as [t]. *)
Definition at_most (t : sty) (m : rawmeta) : N := if supports t (rm_type m) then N.max (size_bytes t) (dtype_size (rm_type m)) else dtype_size (rm_type m).
Definition w_fits (t : sty) (b : dblock) : Prop :=
  Forall (fun m => rm_n m < W) (b_chans b)
  /\ match b_layout b with
     | Contigious => fold_right (fun m a => rm_n m * at_most t m + a) 0 (b_chans b) < W
                     /\ Forall (fun m => at_most t m < W) (b_chans b)
     | Interleaved => fold_right (fun m a => at_most t m + a) 0 (b_chans b) < W
     end.

Lemma dtype_small d : as_u64 (as_i64 (dtype_size d)) = dtype_size d.
Proof. destruct d; reflexivity. Qed.

Lemma base_w {V} chans : Forall (fun m => rm_n m < W) chans -> w_base_record W (V:=V) chans = base_record chans.
Proof.
  intros S. unfold w_base_record, base_record. apply map_ext_in. intros c Hc. rewrite Forall_forall in S.
  unfold to_usize. now rewrite N.mod_small by now apply S.
Qed.

(** Entries as the plan may have them: no wider than [at_most]. *)
Definition plausible {V} (t : sty) (chans : list rawmeta) (es : list (entry V)) : Prop :=
  Forall2 (fun m x => en_len x = rm_n m /\ entry_size t (en_plan x) <= at_most t m) chans es.
Lemma plausible_base {V} t chans : plausible t chans (base_record (V:=V) chans).
Proof.
  induction chans as [|m chans IH]; constructor; [|exact IH]. cbn [en_len en_plan entry_size]. rewrite dtype_small.
  split; [reflexivity|]. unfold at_most. destruct (supports t (rm_type m)); lia.
Qed.
Lemma plausible_set {V} t chans i o r s : forall es, plausible t chans (es : list (entry V)) ->
  (forall m, nth_error chans i = Some m -> supports t (rm_type m) = true) ->
  plausible t chans (set_plan i (PRead o [] r s) es).
Proof.
  revert i. induction chans as [|m chans IH]; intros i es P Su; inversion P as [|? x ? es' Px Ps]; subst; [destruct i; constructor|].
  destruct i as [|i]; cbn [set_plan].
  - constructor; [|exact Ps]. cbn [en_len en_plan entry_size]. split; [exact (proj1 Px)|]. unfold at_most.
    rewrite (Su m eq_refl). lia.
  - constructor; [exact Px|]. now apply IH.
Qed.
Lemma plausible_readable {V} t chans reqs : forall o es, plausible t chans (es : list (entry V)) ->
  validate t reqs chans = Ok tt -> plausible t chans (set_readable o reqs es).
Proof.
  induction reqs as [|q reqs IH]; intros o es P Va; [exact P|]. cbn [set_readable validate] in *.
  destruct (nth_error chans (rq_chan q)) as [m|] eqn:Hm; [|discriminate]. destruct (supports t (rm_type m)) eqn:Su; [|discriminate].
  apply IH; [|exact Va]. apply plausible_set; [exact P|]. intros m' K. now rewrite Hm in K; injection K as <-.
Qed.
Lemma plausible_bytes {V} t chans es : plausible t chans (es : list (entry V)) ->
  bytes_of (map (measure t) es) <= fold_right (fun m a => rm_n m * at_most t m + a) 0 chans
  /\ row_of (map (measure t) es) <= fold_right (fun m a => at_most t m + a) 0 chans
  /\ (Forall (fun m => at_most t m < W) chans -> Forall (fun w => snd w < W) (map (measure t) es)).
Proof.
  induction 1 as [|m x chans es [Px1 Px2] P [IH1 [IH2 IH3]]]; [cbn; repeat split; (lia || auto)|].
  cbn [map bytes_of row_of fold_right measure fst snd].
  fold (bytes_of (map (measure t) es)). fold (row_of (map (measure t) es)). rewrite Px1.
  assert (rm_n m * entry_size t (en_plan x) <= rm_n m * at_most t m) by now apply N.mul_le_mono_l.
  split; [lia|]. split; [lia|]. intros S. inversion S; subst. constructor; [cbn [snd]; eapply N.le_lt_trans; [exact Px2|assumption]|now apply IH3].
Qed.

Lemma plan_w {V} t chans reqs : Forall (fun m => rm_n m < W) chans ->
  w_build_record_plan W (V:=V) t chans reqs = build_record_plan t chans reqs.
Proof. intros S. unfold w_build_record_plan, build_record_plan. now rewrite base_w. Qed.
Lemma plan_plausible {V} t chans reqs es : build_record_plan t chans reqs = Ok (es : list (entry V)) -> plausible t chans es.
Proof.
  unfold build_record_plan. destruct (validate t reqs chans) as [[]|x|p|] eqn:Va; try discriminate. cbn [bind]. injection 1 as <-.
  apply plausible_readable; [apply plausible_base|exact Va].
Qed.

Lemma block_read_w E f t b reqs : w_fits t b -> w_block_read W E f t b reqs = block_read E f t b reqs.
Proof.
  intros [S L]. unfold w_block_read, block_read. rewrite plan_w by exact S.
  destruct (build_record_plan t (b_chans b) reqs) as [es|x|p|] eqn:P; try reflexivity.
  apply plan_plausible in P. apply plausible_bytes in P. destruct P as [P1 [P2 P3]]. destruct (b_layout b).
  - rewrite inter_w by lia. reflexivity.
  - rewrite read_from_w; [reflexivity|]. split; [apply P3, L|lia].
Qed.
Lemma block_skips_w E f t b reqs : w_fits t b -> w_block_read_skips W E f t b reqs = block_read_skips E f t b reqs.
Proof.
  intros [S L]. unfold w_block_read_skips, block_read_skips. rewrite plan_w by exact S.
  destruct (build_record_plan t (b_chans b) reqs) as [es|x|p|] eqn:P; try reflexivity.
  apply plan_plausible in P. apply plausible_bytes in P. destruct P as [P1 [P2 P3]]. destruct (b_layout b).
  - rewrite inter_w by (rewrite measure_zip; lia). reflexivity.
  - rewrite read_skips_w; [reflexivity|]. split; [apply P3, L|lia].
Qed.

(** ** Plans *)
Lemma execute_w E f t ix plan : Forall (fun br => forall b, get_data_block ix (br_block br) = Some b -> w_fits t b) plan ->
  forall prs outs, w_execute W E f t ix plan prs outs = execute E f t ix plan prs outs.
Proof.
  induction 1 as [|br plan Hb Hp IH]; intros prs outs; [reflexivity|]. cbn [w_execute execute].
  destruct (get_data_block ix (br_block br)) as [b|]; [|reflexivity].
  rewrite block_read_w, block_skips_w by now apply Hb.
  destruct (if any_skip (br_chans br) then _ else _) as [got r]. destruct r; try reflexivity.
  destruct (forallb complete _); [reflexivity|]. apply IH.
Qed.

(** A block is in the plan only for a location with samples. *)
Lemma plan_locs n : forall st plan, read_plan_loop n st = Ok plan ->
  Forall (fun br => exists c l, In c st /\ In l (fst c) /\ l_block l = br_block br /\ 0 < l_n l) plan.
Proof.
  induction n as [|n IH]; intros st plan; [discriminate|]. cbn [read_plan_loop].
  destruct (min_block st) as [b|]; [|injection 1 as <-; constructor].
  destruct (read_plan_loop n (map snd (map (plan_chan b) st))) as [rest|x|p|] eqn:R; try discriminate. cbn [bind].
  assert (Hr : Forall (fun br => exists c l, In c st /\ In l (fst c) /\ l_block l = br_block br /\ 0 < l_n l) rest).
  { eapply Forall_impl; [|apply (IH _ _ R)]. intros br [c [l [Hc [Hl [Hb Hn]]]]]. apply in_map_iff in Hc. destruct Hc as [y [Hy Hy2]].
    apply in_map_iff in Hy2. destruct Hy2 as [c0 [Hc0 Hc1]]. exists c0, l. split; [exact Hc1|]. split; [|now split].
    subst y c. destruct c0 as [[|l0 ls] s]; cbn [plan_chan] in Hl; [exact Hl|]. destruct (Nat.eqb (l_block l0) b); cbn [snd fst] in Hl; [now right|exact Hl]. }
  destruct (existsb _ (map fst (map (plan_chan b) st))) eqn:X; intros [= <-]; [|exact Hr].
  constructor; [|exact Hr]. cbn [br_block]. apply existsb_exists in X. destruct X as [y [Hy Y]].
  apply in_map_iff in Hy. destruct Hy as [z [<- Hz]]. apply in_map_iff in Hz. destruct Hz as [c [<- Hc]].
  destruct c as [[|l ls] s]; cbn [plan_chan fst] in Y; [discriminate|].
  destruct (Nat.eqb (l_block l) b) eqn:Eb; cbn [fst] in Y; [|discriminate]. destruct (l_n l <=? s) eqn:Ls; [discriminate|].
  exists (l :: ls, s), l. split; [exact Hc|]. split; [now left|]. split; [now apply Nat.eqb_eq|lia].
Qed.

Lemma lookup_each ix chans : forall ls, lookup_positions ix chans = Ok ls -> forall l, In l ls -> exists p, In p chans /\ get_positions ix p = Some l.
Proof.
  induction chans as [|c chans IH]; intros ls; cbn [lookup_positions]; [injection 1 as <-; contradiction|].
  destruct (get_positions ix c) as [l0|] eqn:G; [|discriminate]. destruct (lookup_positions ix chans) as [ls0|x|p|]; try discriminate.
  cbn [bind]. injection 1 as <-. intros l [<-|Hl]; [exists c; split; [now left|exact G]|].
  destruct (IH _ eq_refl l Hl) as [p [Hp G']]. exists p. split; [now right|exact G'].
Qed.

(** The blocks in which the channel has samples fit. *)
Definition chan_fits (t : sty) (ix : index) (p : str) : Prop := forall ls l b,
  get_positions ix p = Some ls -> In l ls -> 0 < l_n l -> get_data_block ix (l_block l) = Some b -> w_fits t b.

Lemma read_channels_w E F t chans start outs : Forall (chan_fits t (tf_ix F)) chans ->
  w_read_channels_from W E F t chans start outs = read_channels_from E F t chans start outs.
Proof.
  intros C. unfold w_read_channels_from, read_channels_from, ix_read_channels_from, execute_read_plan.
  destruct (lookup_positions (tf_ix F) chans) as [ls|x|p|] eqn:L; try reflexivity. cbn [bind].
  destruct (read_plan ls (repeat start (length chans))) as [plan|x|p|] eqn:P; try reflexivity.
  apply execute_w. unfold read_plan in P. apply plan_locs in P. eapply Forall_impl; [|exact P].
  intros br [[c s] [l [Hc [Hl [Hb Hn]]]]] b G. apply in_combine_l in Hc. destruct (lookup_each _ _ _ L c Hc) as [q [Hq Gq]].
  rewrite Forall_forall in C. cbn [fst] in Hl. rewrite <- Hb in G. exact (C q Hq c l b Gq Hl Hn G).
Qed.
Lemma read_channel_w E F t p start out : chan_fits t (tf_ix F) p ->
  w_read_channel_from W E F t p start out = read_channel_from E F t p start out.
Proof.
  intros C. unfold w_read_channel_from, read_channel_from, execute_read_plan.
  destruct (get_positions (tf_ix F) p) as [ls|] eqn:L; [|reflexivity].
  destruct (read_plan [ls] [start]) as [plan|x|q|] eqn:P; try reflexivity. cbn [map].
  rewrite execute_w; [reflexivity|]. unfold read_plan in P. apply plan_locs in P. eapply Forall_impl; [|exact P].
  intros br [[c s] [l [Hc [Hl [Hb Hn]]]]] b G. apply in_combine_l in Hc. destruct Hc as [<-|[]]. cbn [fst] in Hl.
  rewrite <- Hb in G. exact (C ls l b L Hl Hn G).
Qed.
End Narrow.
