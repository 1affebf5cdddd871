(** * Lemmas for C103: every function under two environments *)
From Verif Require Import Base Lib DataTypes MetaData Maps DataBlock Index RawData ChannelReader TdmsFile SpecLimits Alloc_proofs.

Section Two.
Context (E E' : env) (Al : allows E E').
Local Notation at_limit := (at_limit E E').
Local Notation same_unless := (same_unless E E').
Local Notation same_with := (same_with E E').
Lemma su_refl {A} (r : res A) : same_unless r r.
Proof. now right. Qed.
Lemma limit_cast {A B} (r : res A) : at_limit r -> at_limit (recast r : res B).
Proof. destruct 1; econstructor; eassumption. Qed.
Lemma limit_bind {A B} (r : res A) (k : A -> res B) : at_limit r -> at_limit (bind r k).
Proof. destruct 1; econstructor; eassumption. Qed.
Lemma su_bind {A B} (m m' : res A) (k k' : A -> res B) :
  same_unless m m' -> (forall a, m = Ok a -> same_unless (k a) (k' a)) -> same_unless (bind m k) (bind m' k').
Proof.
  intros [L| ->] K; [left; now apply limit_bind|]. destruct m as [a|x|p|]; cbn [bind]; try now right. now apply K.
Qed.
Lemma not_limit_ok {A} (a : A) : ~ at_limit (Ok a).
Proof. intros K. inversion K. Qed.


Lemma over_su {A} (r : res A) : same_unless (if overflow_checks E then Panic POverflow else r) (if overflow_checks E' then Panic POverflow else r).
Proof.
  destruct Al as [Ov _]. destruct (overflow_checks E) eqn:K, (overflow_checks E') eqn:K'; try (now right).
  - left. now constructor.
  - now specialize (Ov eq_refl).
Qed.
Lemma uadd_su a b : same_unless (uadd E a b) (uadd E' a b).
Proof.
  unfold uadd. destruct (a + b <? two64); [now right|apply over_su].
Qed.
Lemma umul_su a b : same_unless (umul E a b) (umul E' a b).
Proof.
  unfold umul. destruct (a * b <? two64); [now right|apply over_su].
Qed.
Lemma imul_su a b : same_unless (imul E a b) (imul E' a b).
Proof.
  unfold imul. cbv zeta. destruct ((- 2 ^ 63 <=? a * b) && (a * b <? 2 ^ 63))%Z; [now right|apply over_su].
Qed.
Lemma usum_su l : forall acc, same_unless (usum_from E acc l) (usum_from E' acc l).
Proof. induction l as [|x l IH]; intros acc; [apply su_refl|]. cbn [usum_from]. apply su_bind; [apply uadd_su|]. auto. Qed.
Lemma seek_to_su p : same_unless (seek_to E p) (seek_to E' p).
Proof.
  unfold seek_to. destruct Al as [_ [_ Sm]]. destruct (p <=? seek_max E) eqn:K, (p <=? seek_max E') eqn:K'; try (now right); [lia|left; constructor; lia].
Qed.
Lemma seek_rel_su p off : same_unless (seek_rel E p off) (seek_rel E' p off).
Proof.
  unfold seek_rel. cbv zeta. destruct Al as [_ [_ Sm]]. destruct (Z.of_N p + off <? 0)%Z; [now right|].
  destruct (Z.to_N (Z.of_N p + off) <=? seek_max E) eqn:K, (Z.to_N (Z.of_N p + off) <=? seek_max E') eqn:K'; try (now right); [lia|left; constructor; lia].
Qed.

(** ** Parsing *)
Lemma alloc_su {A} k n (r r' : res A) x : (alloc_ok E k n = false -> alloc_ok E' k n = true -> at_limit (@Err A x)) -> same_unless r r' ->
  same_unless (if alloc_ok E k n then r else Err x) (if alloc_ok E' k n then r' else Err x).
Proof.
  intros L S0. destruct Al as [_ [Ao _]]. destruct (alloc_ok E k n) eqn:K; [now rewrite (Ao _ _ K)|].
  destruct (alloc_ok E' k n) eqn:K'; [left; now apply L|now right].
Qed.
Lemma dec_su e t bs : same_unless (dec E e t bs) (dec E' e t bs).
Proof.
  destruct t; try apply su_refl. cbn [dec]. unfold dec_str. apply su_bind; [apply su_refl|]. intros [len r] _.
  apply alloc_su; [intros; econstructor; eassumption|apply su_refl].
Qed.
Lemma read_as_su {A} (p p' : parser A) c bs : (same_unless (p bs) (p' bs)) -> same_unless (read_as p c bs) (read_as p' c bs).
Proof. intros K. unfold read_as. apply su_bind; [exact K|]. intros [v r] _. apply su_refl. Qed.
Lemma read_pval_su e bs : same_unless (read_pval E e bs) (read_pval E' e bs).
Proof.
  unfold read_pval. apply su_bind; [apply su_refl|]. intros [t r] _. destruct t; try apply su_refl; apply read_as_su, dec_su.
Qed.
Lemma read_props_su e fuel : forall count bs, same_unless (read_props E e fuel count bs) (read_props E' e fuel count bs).
Proof.
  induction fuel as [|fuel IH]; intros count bs; cbn [read_props]; destruct (count =? 0); try apply su_refl.
  apply su_bind; [apply (dec_su e SStr)|]. intros [name r1] _. apply su_bind; [apply read_pval_su|]. intros [v r2] _.
  apply su_bind; [apply IH|]. intros [rest r3] _. apply su_refl.
Qed.
Lemma read_obj_su e bs : same_unless (read_obj E e bs) (read_obj E' e bs).
Proof.
  unfold read_obj. apply su_bind; [apply (dec_su e SStr)|]. intros [path r1] _. apply su_bind; [apply su_refl|]. intros [idx r2] _.
  apply su_bind; [apply su_refl|]. intros [count r3] _. apply alloc_su; [intros; econstructor; eassumption|].
  apply su_bind; [apply read_props_su|]. intros [props r4] _. apply su_refl.
Qed.
Lemma read_objs_su e fuel : forall count bs, same_unless (read_objs E e fuel count bs) (read_objs E' e fuel count bs).
Proof.
  induction fuel as [|fuel IH]; intros count bs; cbn [read_objs]; destruct (count =? 0); try apply su_refl.
  apply su_bind; [apply read_obj_su|]. intros [o r1] _. apply su_bind; [apply IH|]. intros [rest r2] _. apply su_refl.
Qed.
Lemma read_metadata_su e bs : same_unless (read_metadata E e bs) (read_metadata E' e bs).
Proof.
  unfold read_metadata. apply su_bind; [apply su_refl|]. intros [count r] _. apply alloc_su; [intros; econstructor; eassumption|apply read_objs_su].
Qed.
Lemma segment_read_su f pos : same_unless (segment_read E f pos) (segment_read E' f pos).
Proof.
  unfold segment_read. cbv zeta. destruct (read_exact 4 (dropN pos f)) as [[tag r1]|x|p|]; try apply su_refl.
  destruct (str_eqb tag TDSm); [|apply su_refl]. apply su_bind; [apply su_refl|]. intros [tocb r2] _.
  apply su_bind; [|intros [s r]; intros; apply su_refl]. unfold read_segment. cbv zeta.
  apply su_bind; [apply su_refl|]. intros [v r3] _. apply su_bind; [apply su_refl|]. intros [next r4] _.
  apply su_bind; [apply su_refl|]. intros [raw r5] _. apply su_bind; [apply read_metadata_su|]. intros [m r6] _. apply su_refl.
Qed.

(** ** The index *)
Lemma from_segment_su s start act : same_unless (from_segment E s start act) (from_segment E' s start act).
Proof.
  unfold from_segment. destruct (sg_next s <? sg_raw s); [apply su_refl|]. destruct (_ =? 0); [apply su_refl|].
  destruct act; [apply su_refl|]. apply su_bind; [apply uadd_su|]. intros a _. apply su_bind; [apply uadd_su|]. intros st _. apply su_refl.
Qed.
Lemma add_raw_su ix s : same_with (add_raw E ix s) (add_raw E' ix s).
Proof.
  unfold add_raw. destruct (active_metas (ix_objs ix) (ix_active ix)) as [[|m ms]|x|p|]; try now right.
  destruct (from_segment_su s (ix_next ix) (m :: ms)) as [L| ->]; [|now right].
  left. destruct L; econstructor; eassumption.
Qed.
Lemma add_segment_su ix s : same_with (add_segment E ix s) (add_segment E' ix s).
Proof.
  unfold add_segment. cbv zeta. destruct (match sg_meta s with Some objs => _ | None => _ end) as [ix1 [u|x|p|]]; try now right.
  destruct (toc_raw (sg_toc s)); [|now right]. destruct (add_raw_su ix1 s) as [L| ->]; [|now right].
  left. destruct (add_raw E ix1 s) as [ix2 r]. cbn [snd] in L. destruct L; econstructor; eassumption.
Qed.
Lemma channel_length_su F p : same_unless (channel_length E F p) (channel_length E' F p).
Proof.
  unfold channel_length, ix_channel_length. destruct (map_get p (ix_objs (tf_ix F))) as [od|]; [|apply su_refl].
  apply su_bind; [apply usum_su|]. intros n _. apply su_refl.
Qed.
Lemma write_channels_su e t F chans vs lay : same_with (write_channels_e E e t F chans vs lay) (write_channels_e E' e t F chans vs lay).
Proof.
  unfold write_channels_e. destruct (stream_segment e t (tf_ix F) chans vs lay) as [[bs sg]|x|p|]; try now right.
  destruct (add_segment_su (tf_ix F) sg) as [L| ->]; [|now right]. left. destruct (add_segment E (tf_ix F) sg) as [ix r]. cbn [snd] in *.
  destruct L; econstructor; eassumption.
Qed.
Lemma write_properties_su e F path props : same_with (write_properties_e E e F path props) (write_properties_e E' e F path props).
Proof.
  unfold write_properties_e. destruct (write_segment e toc_default (Some [mkObj path props RINone]) None) as [bs sg].
  destruct (add_segment_su (tf_ix F) sg) as [L| ->]; [|now right]. left. destruct (add_segment E (tf_ix F) sg) as [ix r]. cbn [snd] in *.
  destruct L; econstructor; eassumption.
Qed.

(** ** Opening: a seek that fails only ends the loop *)
Lemma build_su f : lenN f <= seek_max E \/ seek_max E' = seek_max E -> forall fuel ix pos, build_loop E' f fuel ix pos <> Diverge ->
  same_unless (build_loop E f fuel ix pos) (build_loop E' f fuel ix pos).
Proof.
  intros Lf. induction fuel as [|fuel IH]; intros ix pos Nd; [apply su_refl|]. cbn [build_loop] in *.
  destruct (segment_read_su f pos) as [L|Es]; [left; destruct L; econstructor; eassumption|]. rewrite Es in *.
  destruct (segment_read E f pos) as [s|x|p|]; try apply su_refl.
  destruct (add_segment_su ix s) as [L|Ea].
  { left. destruct (add_segment E ix s) as [ix' r]. cbn [snd] in L. now apply limit_bind. }
  rewrite Ea in *. destruct (add_segment E ix s) as [ix' r]. destruct r as [next|x|p|]; cbn [bind] in *; try apply su_refl.
  destruct (seek_to_su next) as [L|Ek].
  - unfold seek_to in L |- *. destruct (next <=? seek_max E) eqn:K; [now apply not_limit_ok in L|].
    unfold seek_to in Nd. destruct (next <=? seek_max E') eqn:K'; [|apply su_refl]. destruct Lf as [Lf|Lf]; [|lia].
    destruct fuel as [|fuel]; [now contradiction Nd|]. cbn [build_loop] in *. right.
    unfold segment_read. cbv zeta. unfold dropN. replace (lenN f <=? next) with true by lia. reflexivity.
  - rewrite Ek in *. destruct (seek_to E next) as [p|x|p|]; try apply su_refl. now apply IH.
Qed.

(** ** Reading *)
Lemma cast_pair {A B C} (a : A) (r r' : res B) : same_unless r r' -> (forall b, r <> Ok b) ->
  same_with (a, recast r : res C) (a, recast r').
Proof. intros [L| ->] _; [left; now apply limit_cast|now right]. Qed.
Section Read.
Context (f : list byte) (t : sty) (e : endian).
Local Notation V := (carrier t).
Lemma row_size_su (es : list (entry V)) : same_unless (row_size E t es) (row_size E' t es).
Proof. apply usum_su. Qed.
Lemma block_size_su (es : list (entry V)) : forall acc, same_unless (block_size_from E t acc es) (block_size_from E' t acc es).
Proof.
  induction es as [|x es IH]; intros acc; [apply su_refl|]. cbn [block_size_from]. apply su_bind; [apply umul_su|]. intros v _.
  apply su_bind; [apply uadd_su|]. auto.
Qed.
Lemma read_at_su pos : same_unless (read_at E f t e pos) (read_at E' f t e pos).
Proof. unfold read_at. apply su_bind; [apply dec_su|]. intros [v r] _. apply su_refl. Qed.
Lemma read_vals_su n : forall pos, same_with (read_vals E f t e n pos) (read_vals E' f t e n pos).
Proof.
  induction n as [|n IH]; intros pos; [now right|]. cbn [read_vals].
  destruct (read_at_su pos) as [L| ->]; [left; destruct L; econstructor; eassumption|].
  destruct (read_at E f t e pos) as [[v pos']|x|p|]; try now right.
  destruct (IH pos') as [L| ->]; [|now right]. left. destruct (read_vals E f t e n pos'). exact L.
Qed.
Lemma read_seq_su room samples pos : same_with (read_seq E f t e room samples pos) (read_seq E' f t e room samples pos).
Proof.
  unfold read_seq. cbv zeta. set (k := N.min _ _).
  destruct (read_vals_su (N.to_nat k) pos) as [L| ->]; destruct (read_vals E f t e (N.to_nat k) pos) as [vs r]; cbn [snd] in *.
  - left. now apply limit_bind.
  - destruct r as [pos1|x|p|]; cbn [bind]; try now right. destruct (0 <? samples - k); [|now right].
    destruct (imul_su (as_i64 (samples - k)) (as_i64 (size_bytes t))) as [L| ->]; [left; now apply limit_bind|].
    destruct (imul E _ _) as [off|x|p|]; cbn [bind]; try now right.
    destruct (seek_rel_su pos1 off) as [L| ->]; [left; now apply limit_bind|]. now right.
Qed.
Lemma read_entry_su x pos : same_with (read_entry E f t e x pos) (read_entry E' f t e x pos).
Proof.
  unfold read_entry. destruct (en_plan x) as [b|oid got room skip].
  - destruct (imul_su b (as_i64 (en_len x))) as [L| ->]; [left; now apply limit_bind|].
    destruct (imul E _ _) as [off|y|p|]; cbn [bind]; try now right.
    destruct (seek_rel_su pos off) as [L| ->]; [left; now apply limit_bind|]. now right.
  - cbv zeta. set (sk := N.min skip (en_len x)).
    assert (K : same_unless (if 0 <? sk then off <- imul E (as_i64 sk) (as_i64 (size_bytes t)) ;; seek_rel E pos off else Ok pos)
                            (if 0 <? sk then off <- imul E' (as_i64 sk) (as_i64 (size_bytes t)) ;; seek_rel E' pos off else Ok pos)).
    { destruct (0 <? sk); [|apply su_refl]. apply su_bind; [apply imul_su|]. intros off _. apply seek_rel_su. }
    destruct K as [L| ->]; [left; destruct L; econstructor; eassumption|].
    destruct (if 0 <? sk then _ else _) as [pos1|y|p|]; try now right.
    destruct (read_seq_su room (en_len x - sk) pos1) as [L| ->]; [|now right]. left.
    destruct (read_seq E f t e room (en_len x - sk) pos1) as [vs r]. cbn [snd] in *. now apply limit_bind.
Qed.
Lemma read_sub_su es : forall len pos, same_with (read_sub_block E f t e es len pos) (read_sub_block E' f t e es len pos).
Proof.
  induction es as [|x es IH]; intros len pos; [now right|]. cbn [read_sub_block].
  destruct (read_entry_su x pos) as [L| ->]; destruct (read_entry E f t e x pos) as [x' r]; cbn [snd] in *.
  - left. destruct L; econstructor; eassumption.
  - destruct r as [[l pos']|y|p|]; try now right.
    destruct (IH (match l with Some l => l | None => len end) pos') as [L| ->]; [|now right]. left.
    destruct (read_sub_block E f t e es _ pos'). exact L.
Qed.
Lemma contig_loop_su step n : forall idx es len pos,
  same_with (contig_loop E f t e step n idx es len pos) (contig_loop E' f t e step n idx es len pos).
Proof.
  induction n as [|n IH]; intros idx es len pos; [now right|]. cbn [contig_loop]. destruct (step idx es) as [es1|].
  - destruct (read_sub_su es1 0 pos) as [L| ->]; destruct (read_sub_block E f t e es1 0 pos) as [es2 r]; cbn [snd] in *.
    + left. destruct L; econstructor; eassumption.
    + destruct r as [[l pos']|y|p|]; try now right. apply IH.
  - assert (K : same_unless (bs <- block_size E t es ;; seek_rel E pos (as_i64 bs)) (bs <- block_size E' t es ;; seek_rel E' pos (as_i64 bs))).
    { apply su_bind; [apply block_size_su|]. intros bs _. apply seek_rel_su. }
    destruct K as [L| ->]; [left; destruct L; econstructor; eassumption|]. destruct (bind _ _) as [pos'|y|p|]; try now right. apply IH.
Qed.
Lemma contig_from_su start blen es s : same_with (contig_read_from E f t e start blen es s) (contig_read_from E' f t e start blen es s).
Proof.
  unfold contig_read_from.
  match goal with |- same_with (match ?a with _ => _ end) (match ?b with _ => _ end) => assert (K : same_unless a b) end.
  { apply su_bind; [apply seek_to_su|]. intros pos _. apply su_bind; [apply block_size_su|]. intros bs _. apply su_refl. }
  destruct K as [L| ->]; [left; destruct L; econstructor; eassumption|].
  destruct (bind _ _) as [[[[pos total] q] rm]|y|p|]; try now right. apply contig_loop_su.
Qed.
Lemma contig_skips_su start blen es skips : same_with (contig_read_skips E f t e start blen es skips) (contig_read_skips E' f t e start blen es skips).
Proof.
  unfold contig_read_skips.
  match goal with |- same_with (match ?a with _ => _ end) (match ?b with _ => _ end) => assert (K : same_unless a b) end.
  { apply su_bind; [apply seek_to_su|]. intros pos _. apply su_bind; [apply block_size_su|]. intros bs _. apply su_refl. }
  destruct K as [L| ->]; [left; destruct L; econstructor; eassumption|].
  destruct (bind _ _) as [[[pos total] l]|y|p|]; try now right. apply contig_loop_su.
Qed.
Lemma inter_row_su row es : forall any pos, same_with (inter_row E f t e row es any pos) (inter_row E' f t e row es any pos).
Proof.
  induction es as [|x es IH]; intros any pos; [now right|]. cbn [inter_row]. destruct (en_plan x) as [b|oid got room skip].
  - destruct (seek_rel_su pos b) as [L| ->]; [left; destruct L; econstructor; eassumption|]. destruct (seek_rel E pos b) as [pos'|y|p|]; try now right.
    destruct (IH any pos') as [L| ->]; [|now right]. left. destruct (inter_row E f t e row es any pos'). exact L.
  - destruct (read_at_su pos) as [L| ->]; [left; destruct L; econstructor; eassumption|].
    destruct (read_at E f t e pos) as [[v pos']|y|p|]; try now right.
    destruct (skip <=? row); [destruct room as [|room]|].
    + destruct (IH any pos') as [L| ->]; [|now right]. left. destruct (inter_row E f t e row es any pos'). exact L.
    + destruct (IH true pos') as [L| ->]; [|now right]. left. destruct (inter_row E f t e row es true pos'). exact L.
    + destruct (IH any pos') as [L| ->]; [|now right]. left. destruct (inter_row E f t e row es any pos'). exact L.
Qed.
Lemma inter_rows_su n : forall row es read pos, same_with (inter_rows E f t e n row es read pos) (inter_rows E' f t e n row es read pos).
Proof.
  induction n as [|n IH]; intros row es read pos; [now right|]. cbn [inter_rows].
  destruct (inter_row_su row es false pos) as [L| ->]; destruct (inter_row E f t e row es false pos) as [es' r]; cbn [snd] in *.
  - left. destruct L; econstructor; eassumption.
  - destruct r as [[[|] pos']|y|p|]; try now right. apply IH.
Qed.
Lemma inter_read_su start blen es : same_with (inter_read E f t e start blen es) (inter_read E' f t e start blen es).
Proof.
  unfold inter_read. cbv zeta. set (mn := min_or_0 (block_skips es)).
  match goal with |- same_with (match ?a with _ => _ end) (match ?b with _ => _ end) => assert (K : same_unless a b) end.
  { apply su_bind; [apply seek_to_su|]. intros pos _. apply su_bind; [apply row_size_su|]. intros rs _.
    apply su_bind; [apply su_refl|]. intros total _. destruct (0 <? mn); [|apply su_refl].
    apply su_bind; [apply imul_su|]. intros off _. apply su_bind; [apply seek_rel_su|]. intros pos' _. apply su_refl. }
  destruct K as [L| ->]; [left; destruct L; econstructor; eassumption|].
  destruct (bind _ _) as [[pos total]|y|p|]; try now right. apply inter_rows_su.
Qed.
Lemma outs_su {A C} (g : A -> C) (x x' : A * res N) : same_with x x' ->
  same_with (let '(es, r) := x in (g es, r)) (let '(es, r) := x' in (g es, r)).
Proof. intros [L| ->]; [left; destruct x; exact L|now right]. Qed.
End Read.
Lemma block_read_su f t b reqs : same_with (block_read E f t b reqs) (block_read E' f t b reqs).
Proof.
  unfold block_read. destruct (build_record_plan t (b_chans b) reqs) as [es|y|p|]; try now right.
  apply (outs_su (outputs reqs)). destruct (b_layout b); [apply inter_read_su|apply contig_from_su].
Qed.
Lemma block_skips_su f t b reqs : same_with (block_read_skips E f t b reqs) (block_read_skips E' f t b reqs).
Proof.
  unfold block_read_skips. cbv zeta. destruct (build_record_plan t (b_chans b) reqs) as [es|y|p|]; try now right.
  apply (outs_su (outputs reqs)). destruct (b_layout b); [apply inter_read_su|apply contig_skips_su].
Qed.
Lemma execute_su f t ix plan : forall prs outs, same_with (execute E f t ix plan prs outs) (execute E' f t ix plan prs outs).
Proof.
  induction plan as [|br rest IH]; intros prs outs; [now right|]. cbn [execute].
  destruct (get_data_block ix (br_block br)) as [b|]; [|now right]. cbv zeta. set (reqs := block_requests _ _).
  assert (K : same_with (if any_skip (br_chans br) then block_read_skips E f t b reqs else block_read E f t b reqs)
                        (if any_skip (br_chans br) then block_read_skips E' f t b reqs else block_read E' f t b reqs)).
  { destruct (any_skip (br_chans br)); [apply block_skips_su|apply block_read_su]. }
  destruct K as [L| ->]; destruct (if any_skip (br_chans br) then block_read_skips E f t b reqs else block_read E f t b reqs) as [got r]; cbn [snd] in *.
  - left. destruct L; econstructor; eassumption.
  - destruct r as [n|y|p|]; try now right. destruct (forallb complete _); [now right|]. apply IH.
Qed.
Lemma read_channels_su F t chans start outs : same_with (read_channels_from E F t chans start outs) (read_channels_from E' F t chans start outs).
Proof.
  unfold read_channels_from, ix_read_channels_from. destruct (bind _ _) as [plan|y|p|]; try now right. apply execute_su.
Qed.
Lemma read_channel_su F t chan start out : same_with (read_channel_from E F t chan start out) (read_channel_from E' F t chan start out).
Proof.
  unfold read_channel_from. destruct (get_positions (tf_ix F) chan) as [l|]; [|now right].
  destruct (read_plan [l] [start]) as [plan|y|p|]; try now right. unfold execute_read_plan.
  destruct (execute_su (tf_bytes F) t (tf_ix F) plan (map (fun o => mkPr 0 (lenN o)) [out]) [out]) as [L| ->]; [|now right].
  left. destruct (execute E _ _ _ _ _ _). exact L.
Qed.
End Two.

(** Where only the reach of seeks differs, opening is the same. *)
Lemma build_reach ov ao s s' f : lenN f <= s -> s <= s' -> forall fuel ix pos,
  build_loop (mkEnv ov ao s') f fuel ix pos <> Diverge ->
  build_loop (mkEnv ov ao s) f fuel ix pos = build_loop (mkEnv ov ao s') f fuel ix pos.
Proof.
  intros Lf Ls. induction fuel as [|fuel IH]; intros ix pos Nd; [reflexivity|]. cbn [build_loop] in *.
  rewrite (segment_same (mkEnv ov ao s') (mkEnv ov ao s) (fun _ _ _ => eq_refl) f pos).
  destruct (segment_read (mkEnv ov ao s') f pos) as [sg|x|p|]; try reflexivity.
  change (add_segment (mkEnv ov ao s) ix sg) with (add_segment (mkEnv ov ao s') ix sg).
  destruct (add_segment (mkEnv ov ao s') ix sg) as [ix' r]. destruct r as [next|x|p|]; cbn [bind] in *; try reflexivity.
  unfold seek_to in *. cbn [seek_max] in *. destruct (next <=? s) eqn:K, (next <=? s') eqn:K'; try (exfalso; lia); try reflexivity.
  - now apply IH.
  - destruct fuel as [|fuel]; [now contradiction Nd|]. cbn [build_loop].
    unfold segment_read. cbv zeta. unfold dropN. replace (lenN f <=? next) with true by lia. reflexivity.
Qed.
