(** * A data write adds its values to its channels and keeps all others *)
From Verif Require Import Base Lib DataTypes MetaData Maps DataBlock Index RawData ChannelReader TdmsFile
  SpecCodec SpecIndex SpecSession SpecRead SpecWrite Codec_proofs Segment_proofs Index_proofs History_proofs
  Session_proofs Block_proofs Request_proofs Plan_proofs Read_proofs Add_proofs Thm_Index Thm_Read Write_proofs.

(** ** Bytes appended at the end do not change what was there *)
Lemma slice_app_l f g a n : a + n <= lenN f -> slice (f ++ g) a n = slice f a n.
Proof.
  intros Hb. unfold slice. unfold lenN in Hb. rewrite skipn_app, firstn_app.
  replace (N.to_nat n - length (skipn (N.to_nat a) f))%nat with 0%nat by (rewrite skipn_length; lia).
  cbn [firstn]. now rewrite app_nil_r.
Qed.
Lemma slice_app_r f g a n : lenN f <= a -> slice (f ++ g) a n = slice g (a - lenN f) n.
Proof.
  intros Hb. unfold slice. unfold lenN in *. rewrite skipn_app, (skipn_all2 f) by lia. cbn [app].
  do 2 f_equal. lia.
Qed.

Lemma whole_block_app f g b : whole_block f b -> whole_block (f ++ g) b.
Proof.
  intros [n [c [A [B [C [D [G L]]]]]]]. exists n, c. do 5 (split; [assumption|]). rewrite lenN_app. lia.
Qed.

Lemma nth_error_app_l {A} (l r : list A) i x : nth_error l i = Some x -> nth_error (l ++ r) i = Some x.
Proof. intros Hi. rewrite nth_error_app1; [exact Hi|]. apply nth_error_Some. congruence. Qed.

Lemma samples_at_app f t bs r ls : Forall (located bs) ls ->
  samples_at f t (bs ++ r) ls = samples_at f t bs ls.
Proof.
  intros Hl. unfold samples_at. f_equal. apply map_ext_in. intros l Hin. unfold loc_samples.
  rewrite Forall_forall in Hl. destruct (Hl l Hin) as [b [m [Hb _]]].
  now rewrite Hb, (nth_error_app_l _ _ _ _ Hb).
Qed.

(** ** What an added segment means for one channel *)
Section Grow.
Context (E : env) (H : list segment) (F : tfile) (s : segment) (g : list byte) (t : sty) (p : str).
Context (Se : session E H F) (Ex : exact_end H F).

Lemma old_agree : forall b, In b (blocks_after H) -> agree (tf_bytes F) (tf_bytes F ++ g) b.
Proof.
  intros b Hb a n Ha Hn. symmetry. apply slice_app_l.
  destruct (session_accepted _ _ _ Se) as [Ac _].
  destruct (accepted_described _ _ _ Ac) as [_ [_ [_ [_ [_ [_ [_ Hbs]]]]]]].
  destruct (C20_true_addresses _ _ _ Se) as [_ [_ T]]. rewrite Hbs in T.
  destruct (T b Hb) as [_ [_ [_ [_ [_ [_ [_ [_ [B _]]]]]]]]]. unfold exact_end in Ex. lia.
Qed.

Lemma old_stored : stored (tf_bytes F) t H p -> stored (tf_bytes F ++ g) t H p.
Proof.
  intros S0. unfold stored in *. eapply Forall_impl; [|exact S0].
  intros l [b [m [A [B C]]]]. exists b, m. split; [exact A|]. split; [now apply whole_block_app|exact C].
Qed.

Lemma old_samples : stored (tf_bytes F) t H p ->
  samples_after (tf_bytes F ++ g) t H p = samples_after (tf_bytes F) t H p.
Proof.
  intros S0. symmetry. apply C35_only_own_data; [exact S0|].
  intros l b _ Hb. apply old_agree. eapply nth_error_In; eauto.
Qed.

Lemma grown_samples f : samples_after f t (H ++ [s]) p = samples_after f t H p
  ++ samples_at f t (blocks_after (H ++ [s]))
       (if toc_raw (sg_toc s) then
         locs_in p (length (blocks_after H)) 0 (whole_chunks (block_of H s)) (active_after (H ++ [s])) (active_formats (H ++ [s])) else []).
Proof.
  unfold samples_after at 1, locs_after. rewrite locs_from_snoc. cbn [app]. fold (locs_after H p).
  unfold samples_at at 1. rewrite map_app, concat_app.
  fold (samples_at f t (blocks_after (H ++ [s])) (locs_after H p)).
  rewrite blocks_after_snoc at 1. rewrite samples_at_app by apply locs_located. reflexivity.
Qed.

Lemma grown_stored f : stored f t H p ->
  Forall (fun l => exists b m, nth_error (blocks_after (H ++ [s])) (l_block l) = Some b /\ whole_block f b
                     /\ nth_error (b_chans b) (l_chan l) = Some m /\ In (rm_type m) (stored_as t))
    (if toc_raw (sg_toc s) then
         locs_in p (length (blocks_after H)) 0 (whole_chunks (block_of H s)) (active_after (H ++ [s])) (active_formats (H ++ [s])) else []) ->
  stored f t (H ++ [s]) p.
Proof.
  intros S0 S1. unfold stored, locs_after. rewrite locs_from_snoc. cbn [app]. fold (locs_after H p).
  apply Forall_app. split; [|exact S1].
  eapply Forall_impl; [|exact S0]. intros l [b [m [A B]]]. exists b, m. split; [|exact B].
  rewrite blocks_after_snoc. now apply nth_error_app_l.
Qed.
End Grow.

(** ** The values in the new data block *)
Lemma locs_in_uniform p j c n w : forall chans ms i, NoDup chans -> uniform n w ms -> length ms = length chans ->
  (forall q, nth_error chans q = Some p -> locs_in p j i c chans ms = [mkLoc j (i + q) (n * c)])
  /\ (~ In p chans -> locs_in p j i c chans ms = []).
Proof.
  induction chans as [|x cs IH]; intros ms i Nd U L.
  - split; [intros [|q] Hq; discriminate|reflexivity].
  - destruct ms as [|m ms]; [discriminate|]. inversion Nd as [|? ? Hx Nd']; subst. inversion U as [|? ? [Un _] U']; subst.
    destruct (IH ms (S i) Nd' U') as [A B]; [now injection L|]. cbn [locs_in]. split.
    + intros [|q] Hq; cbn [nth_error] in Hq.
      * injection Hq as ->. rewrite str_eqb_refl, B by assumption. cbn [app]. now rewrite Nat.add_0_r.
      * destruct (str_eqb p x) eqn:K.
        { apply str_eqb_eq in K. subst x. exfalso. apply Hx. eapply nth_error_In; eauto. }
        cbn [app]. rewrite (A q Hq). do 2 f_equal. lia.
    + intros Hn. destruct (str_eqb p x) eqn:K; [apply str_eqb_eq in K; subst; exfalso; apply Hn; now left|].
      cbn [app]. apply B. intros X. apply Hn. now right.
Qed.

(** Where sample [j] of channel [i] is among the values of a block. *)
Definition place (lay : layout) (len n i j : N) : N :=
  match lay with
  | Interleaved => j * len + i
  | Contigious => j / n * (len * n) + i * n + j mod n
  end.
Lemma uniform_firstn n w ms i : uniform n w ms -> uniform n w (firstn i ms).
Proof. intros U. unfold uniform in *. rewrite Forall_forall in *. intros x Hx. apply U. rewrite <- (firstn_skipn i ms). apply in_or_app. now left. Qed.
Lemma uniform_addr b n w i j : uniform n w (b_chans b) -> (i < length (b_chans b))%nat ->
  sample_addr b i j = b_start b + place (b_layout b) (lenN (b_chans b)) n (N.of_nat i) j * w.
Proof.
  intros U Hi. assert (Lf : lenN (firstn i (b_chans b)) = N.of_nat i) by (unfold lenN; rewrite firstn_length; lia).
  pose proof (uniform_firstn _ _ _ i U) as Uf. unfold sample_addr, place. destruct (b_layout b).
  - rewrite (row_uniform n w _ U), (row_uniform n w _ Uf), Lf. lia.
  - destruct (nth_error (b_chans b) i) as [m|] eqn:Hm; [|apply nth_error_None in Hm; lia].
    unfold uniform in U. pose proof U as U0. rewrite Forall_forall in U. destruct (U m (nth_error_In _ _ Hm)) as [Un [_ Uw]].
    rewrite (sub_uniform n w _ U0), (sub_uniform n w _ Uf), Lf, Un, Uw. lia.
Qed.

Lemma elem_enc e t (v : carrier t) : fixed t -> rust_value t v -> elem e t (enc e t v) = v.
Proof.
  intros Fx Rv. pose proof (enc_len e t v Fx) as L.
  set (E0 := mkEnv true (fun _ _ => true) 0).
  assert (St : storable t v) by (destruct Fx as [A [B C]]; destruct t; try congruence; exact Logic.I).
  assert (Al : can_alloc E0 t v) by (destruct t; reflexivity || exact Logic.I).
  pose proof (dec_enc E0 e t v [] Rv St Al) as D1. rewrite app_nil_r in D1.
  pose proof (dec_slice E0 (enc e t v) t e Fx 0) as D2.
  rewrite dropN_0 in D2. rewrite D1 in D2. specialize (D2 ltac:(lia)). injection D2 as D2 _.
  unfold at_ in D2. rewrite D2 at 2. f_equal. unfold slice. rewrite <- L. unfold lenN.
  rewrite Nat2N.id. cbn [N.to_nat skipn]. now rewrite firstn_all.
Qed.

Lemma slice_value e t : fixed t -> forall vs pre j (v : carrier t), nth_error vs j = Some v ->
  slice (pre ++ concat (map (enc e t) vs)) (lenN pre + N.of_nat j * size_bytes t) (size_bytes t) = enc e t v.
Proof.
  intros Fx vs pre j v Hj. rewrite slice_app_r by lia.
  replace (lenN pre + N.of_nat j * size_bytes t - lenN pre) with (N.of_nat j * size_bytes t) by lia.
  clear pre. revert j Hj. induction vs as [|w vs IH]; intros [|j] Hj; try discriminate; cbn [nth_error] in Hj.
  - injection Hj as ->. cbn [map concat]. rewrite N.mul_0_l, slice_app_l by (rewrite (enc_len e t v Fx); lia).
    unfold slice. rewrite <- (enc_len e t v Fx). unfold lenN. rewrite Nat2N.id. cbn [N.to_nat skipn]. apply firstn_all.
  - cbn [map concat]. rewrite slice_app_r by (rewrite (enc_len e t w Fx); nia).
    rewrite (enc_len e t w Fx). replace (N.of_nat (S j) * size_bytes t - size_bytes t) with (N.of_nat j * size_bytes t) by lia.
    now apply IH.
Qed.

Lemma flat_nth {A} (g : nat -> nat) (h : nat -> A) (vs : list A) : forall k a,
  (forall j, (a <= j < a + k)%nat -> nth_error vs (g j) = Some (h j)) ->
  flat_map (fun j => match nth_error vs (g j) with Some v => [v] | None => [] end) (seq a k) = map h (seq a k).
Proof.
  induction k as [|k IH]; intros a Hg; [reflexivity|]. cbn [seq flat_map map].
  rewrite Hg by lia. cbn [app]. f_equal. apply IH. intros j Hj. apply Hg. lia.
Qed.

Lemma skipn_nth {A} (vs : list A) : forall a x, nth_error vs a = Some x -> skipn a vs = x :: skipn (S a) vs.
Proof.
  induction vs as [|y vs IH]; intros [|a] x Ha; try discriminate; cbn [nth_error] in Ha.
  - now injection Ha as ->.
  - cbn [skipn]. rewrite (IH a x Ha). reflexivity.
Qed.
Lemma run_nth {A} : forall k (h : nat -> A) (vs : list A) a,
  (forall j, (j < k)%nat -> nth_error vs (a + j) = Some (h j)) -> firstn k (skipn a vs) = map h (seq 0 k).
Proof.
  induction k as [|k IH]; intros h vs a Hg; [reflexivity|].
  rewrite (skipn_nth vs a (h 0%nat)) by (rewrite <- (Hg 0%nat) by lia; f_equal; lia).
  cbn [firstn seq map]. f_equal. rewrite <- seq_shift, map_map. apply IH.
  intros j Hj. rewrite <- (Hg (S j)) by lia. f_equal. lia.
Qed.

Lemma map_const {A B} (g : A -> B) y (l : list A) : (forall x, In x l -> g x = y) -> map g l = repeat y (length l).
Proof.
  induction l as [|x l IH]; intros Hg; [reflexivity|]. cbn [map length repeat].
  rewrite Hg by now left. f_equal. apply IH. intros z Hz. apply Hg. now right.
Qed.
Lemma firstn_repeat' {A} (x : A) : forall a b, (a <= b)%nat -> firstn a (repeat x b) = repeat x a.
Proof. induction a as [|a IH]; intros [|b] Hb; try reflexivity; [lia|]. cbn [repeat firstn]. now rewrite IH by lia. Qed.
Lemma last_prop_empty p name os os' : (forall o, In o os' -> om_props o = []) ->
  last_prop (os ++ os') p name = last_prop os p name.
Proof.
  intros He. unfold last_prop. rewrite fold_left_app. generalize (fold_left (prop_obj p name) os None).
  induction os' as [|o os' IH]; intros acc; [reflexivity|]. cbn [fold_left]. rewrite IH by (intros; apply He; now right).
  unfold prop_obj. rewrite (He o) by now left. cbn [fold_left]. now destruct (str_eqb p (om_path o)).
Qed.

(** ** The step *)
Section Step.
Context (E : env) (e : endian) (H : list segment) (F : tfile) (t : sty) (chans : list str)
  (vs : list (carrier t)) (lay : layout).
Context (Se : session E H F) (Ex : exact_end H F) (Fx : fixed t) (Rv : Forall (rust_value t) vs)
  (Nd : NoDup chans) (Ne : chans <> []) (Nv : vs <> []) (Dv : lenN vs mod lenN chans = 0).

Local Notation m := (call_meta t vs chans).
Local Notation k := (lenN vs / lenN chans).

(** A call after which its channels are the channel list, all for [n] values
    per chunk, [n] dividing the number of values per channel. *)
Section Uniform.
Context (s : segment) (bs : list byte) (n : N).
Context (Traw : toc_raw (sg_toc s) = true) (Tint : toc_inter (sg_toc s) = layout_eqb lay Interleaved)
  (Tbig : toc_big (sg_toc s) = (match e with BigE => true | LittleE => false end))
  (Snext : sg_next s = sg_raw s + lenN vs * size_bytes t)
  (Ebyt : bs = firstn (N.to_nat (28 + sg_raw s)) bs ++ concat (map (enc e t) vs)) (Lbs : lenN bs = 28 + sg_next s)
  (Act : active_after (H ++ [s]) = chans) (Pn : 0 < n) (Dk : k mod n = 0)
  (Um : Forall (fun x => rm_n x = n /\ In (rm_type x) (stored_as t)) (active_formats (H ++ [s]))).

Lemma uniform_ms : uniform n (size_bytes t) (active_formats (H ++ [s])).
Proof. eapply Forall_impl; [|exact Um]. intros x [A B]. split; [exact A|now apply stored_size]. Qed.
Lemma uniform_len : length (active_formats (H ++ [s])) = length chans.
Proof. unfold active_formats. now rewrite map_length, Act. Qed.

(** The value of one sample. *)
Lemma new_sample i j v : (i < length chans)%nat ->
  nth_error vs (N.to_nat (place lay (lenN chans) n (N.of_nat i) j)) = Some v ->
  sample (tf_bytes F ++ bs) t (block_of H s) i j = v.
Proof.
  intros Hi Hv. set (b := block_of H s). pose proof uniform_ms as U. pose proof uniform_len as Lu.
  assert (By : b_layout b = lay) by (unfold b, block_of; cbn [b_layout]; rewrite Tint; destruct lay; reflexivity).
  assert (Bo : b_order b = e) by (unfold b, block_of; cbn [b_order]; rewrite Tbig; destruct e; reflexivity).
  assert (Bs : b_start b = lenN (tf_bytes F) + 28 + sg_raw s) by (unfold b, block_of; cbn [b_start]; unfold exact_end in Ex; lia).
  change (active_formats (H ++ [s])) with (b_chans b) in U, Lu.
  unfold sample. destruct (nth_error (b_chans b) i) as [x|] eqn:Hx; [|apply nth_error_None in Hx; lia].
  assert (Wx : width (rm_type x) = size_bytes t).
  { unfold uniform in U. rewrite Forall_forall in U. apply (U x). eapply nth_error_In; eauto. }
  rewrite (uniform_addr b n (size_bytes t) i j U) by lia. rewrite Wx, By, Bo.
  replace (lenN (b_chans b)) with (lenN chans) by (unfold lenN; now rewrite Lu).
  rewrite Ebyt, app_assoc. set (pre := tf_bytes F ++ firstn (N.to_nat (28 + sg_raw s)) bs).
  assert (Lpre : lenN pre = b_start b).
  { unfold pre. rewrite lenN_app, Bs. unfold lenN at 2. rewrite firstn_length. unfold lenN in Lbs. lia. }
  rewrite <- Lpre, <- (N2Nat.id (place _ _ _ _ _)), (slice_value e t Fx vs pre _ v Hv).
  apply elem_enc; [exact Fx|]. rewrite Forall_forall in Rv. apply Rv. eapply nth_error_In; eauto.
Qed.

(** The sizes do not depend on where the file ends. *)
Lemma uniform_sizes : 0 < k / n /\ k = n * (k / n) /\ whole_chunks (block_of H s) = k / n
  /\ b_len (block_of H s) = k / n * (lenN chans * (n * size_bytes t))
  /\ chunk_bytes (active_formats (H ++ [s])) = lenN chans * (n * size_bytes t)
  /\ sub_bytes (active_formats (H ++ [s])) = lenN chans * (n * size_bytes t)
  /\ chunks (block_of H s) (k / n) /\ b_chans (block_of H s) <> []
  /\ Forall (fun x => rm_n x = n /\ 0 < width (rm_type x)) (b_chans (block_of H s)).
Proof using e Fx Ne Nv Dv Tint Snext Act Pn Dk Um.
  clear Ebyt Lbs Nd Ex Se Rv.
  destruct (share_vs vs chans Ne Nv Dv) as [Hn [Hk Hnk]]. destruct (natural_size t Fx) as [_ [_ [Pz _]]].
  set (b := block_of H s). set (c := k / n). pose proof uniform_ms as U. pose proof uniform_len as Lm.
  set (ms := active_formats (H ++ [s])) in *.
  assert (Kc : k = n * c) by (unfold c; pose proof (N.div_mod k n); lia).
  assert (Pc : 0 < c) by nia.
  assert (Bc : b_chans b = ms) by reflexivity.
  assert (Bl : b_len b = lenN chans * k * size_bytes t) by (unfold b, block_of; cbn [b_len]; rewrite Snext, <- Hnk; lia).
  assert (By : b_layout b = lay) by (unfold b, block_of; cbn [b_layout]; rewrite Tint; destruct lay; reflexivity).
  assert (Lms : lenN ms = lenN chans) by (unfold lenN; now rewrite Lm).
  set (cb := lenN chans * (n * size_bytes t)).
  assert (Cb : chunk_bytes ms = cb) by (rewrite (chunk_uniform n (size_bytes t)) by exact U; now rewrite Lms).
  assert (Sb : sub_bytes ms = cb) by (rewrite (sub_uniform n (size_bytes t)) by exact U; now rewrite Lms).
  assert (Pb : 0 < cb) by (unfold cb; nia).
  assert (Bcb : b_len b = c * cb) by (rewrite Bl, Kc; unfold cb; lia).
  assert (Wc : whole_chunks b = c).
  { unfold whole_chunks. rewrite Bc, Cb, Bcb. replace (cb =? 0) with false by lia. apply N.div_mul. lia. }
  do 6 (split; [assumption|]). rewrite Bc. split.
  - unfold chunks. rewrite Bc, Sb, Bcb, By. destruct lay; [reflexivity|apply N.div_mul; lia].
  - split; [destruct ms, chans; congruence || discriminate|].
    eapply Forall_impl; [|exact U]. intros x [A [_ B]]. split; [exact A|lia].
Qed.

Lemma uniform_whole : whole_block (tf_bytes F ++ bs) (block_of H s).
Proof.
  destruct uniform_sizes as [Pc [Kc [_ [Bl [_ [Sb [Ch [Nb Fa]]]]]]]].
  exists n, (k / n). do 5 (split; [assumption|]).
  change (b_chans (block_of H s)) with (active_formats (H ++ [s])). rewrite Sb, <- Bl, lenN_app, Lbs.
  unfold block_of. cbn [b_start b_len]. unfold exact_end in Ex. rewrite Ex, Snext. lia.
Qed.

Lemma uniform_locs p : 
  (forall i, nth_error chans i = Some p -> locs_after (H ++ [s]) p = locs_after H p ++ [mkLoc (length (blocks_after H)) i k])
  /\ (~ In p chans -> locs_after (H ++ [s]) p = locs_after H p).
Proof using e Fx Nd Ne Nv Dv Traw Tint Snext Act Pn Dk Um.
  clear Ebyt Lbs Ex Se Rv.
  destruct uniform_sizes as [_ [Kc [Wc _]]].
  destruct (locs_in_uniform p (length (blocks_after H)) (k / n) n (size_bytes t) chans _ 0 Nd uniform_ms uniform_len) as [A B].
  unfold locs_after. rewrite locs_from_snoc. cbn [app]. rewrite Traw, Wc, Act.
  change (b_chans (block_of H s)) with (active_formats (H ++ [s])). split.
  - intros i Hi. rewrite (A i Hi). cbn [plus]. now rewrite <- Kc.
  - intros Hp. rewrite B by exact Hp. apply app_nil_r.
Qed.

Lemma uniform_stored i p : nth_error chans i = Some p -> stored (tf_bytes F) t H p ->
  stored (tf_bytes F ++ bs) t (H ++ [s]) p
  /\ samples_after (tf_bytes F ++ bs) t (H ++ [s]) p
     = samples_after (tf_bytes F) t H p ++ block_samples (tf_bytes F ++ bs) t (block_of H s) i k.
Proof.
  intros Hi S0. destruct uniform_sizes as [_ [Kc [Wc _]]]. pose proof uniform_whole as Wb.
  assert (Hil : (i < length chans)%nat) by (apply nth_error_Some; congruence).
  destruct (locs_in_uniform p (length (blocks_after H)) (k / n) n (size_bytes t) chans _ 0 Nd uniform_ms uniform_len) as [Lp _].
  specialize (Lp i Hi). cbn [plus] in Lp. rewrite <- Kc in Lp.
  assert (Nb' : nth_error (blocks_after (H ++ [s])) (length (blocks_after H)) = Some (block_of H s)).
  { rewrite blocks_after_snoc, Traw, nth_error_app2 by lia. now rewrite Nat.sub_diag. }
  split.
  - apply grown_stored; [now apply old_stored|]. rewrite Traw, Wc, Act, Lp. constructor; [|constructor].
    destruct (nth_error (active_formats (H ++ [s])) i) as [x|] eqn:Hx; [|apply nth_error_None in Hx; rewrite uniform_len in Hx; lia].
    exists (block_of H s), x. cbn [l_block l_chan]. split; [exact Nb'|]. split; [exact Wb|].
    split; [exact Hx|]. rewrite Forall_forall in Um. apply (Um x). eapply nth_error_In; eauto.
  - rewrite grown_samples, (old_samples E H F bs t p Se Ex S0). f_equal.
    rewrite Traw, Wc, Act, Lp. unfold samples_at. cbn [map concat]. rewrite app_nil_r.
    unfold loc_samples. cbn [l_block l_chan l_n]. now rewrite Nb'.
Qed.
End Uniform.

Context (Ds : described_call H t lay k chans).

Lemma write_step F' r : write_channels_e E e t F chans vs lay = (F', r) -> lenN (tf_bytes F') < 2 ^ 64 ->
  r = Ok tt /\ exists s bs,
    wrote E F s F' (Ok tt)
    /\ tf_bytes F' = tf_bytes F ++ bs /\ lenN vs <= lenN bs
    /\ exact_end (H ++ [s]) F'
    /\ active_after (H ++ [s]) = chans
    /\ (~ continues (active_after H) chans -> forall p, In p chans -> last_format (all_objs (H ++ [s])) p = Some m)
    /\ (continues (active_after H) chans -> forall p, last_format (all_objs (H ++ [s])) p = last_format (all_objs H) p)
    /\ (forall p, ~ In p chans -> last_format (all_objs (H ++ [s])) p = last_format (all_objs H) p)
    /\ (forall p name, last_prop (all_objs (H ++ [s])) p name = last_prop (all_objs H) p name)
    /\ (forall p, mentioned (all_objs (H ++ [s])) p <-> mentioned (all_objs H) p \/ In p chans)
    /\ (forall i p, nth_error chans i = Some p -> stored (tf_bytes F) t H p ->
         stored (tf_bytes F') t (H ++ [s]) p
         /\ samples_after (tf_bytes F') t (H ++ [s]) p
            = samples_after (tf_bytes F) t H p ++ dealt lay (length chans) i vs)
    /\ (forall p, ~ In p chans -> locs_after (H ++ [s]) p = locs_after H p)
    /\ (forall t' p, ~ In p chans -> stored (tf_bytes F) t' H p ->
         stored (tf_bytes F') t' (H ++ [s]) p
         /\ samples_after (tf_bytes F') t' (H ++ [s]) p = samples_after (tf_bytes F) t' H p).
Proof.
  intros Ew Hlen.
  destruct (share_vs vs chans Ne Nv Dv) as [Hn [Hk Hnk]].
  destruct (natural_size t Fx) as [_ [_ [Pz _]]].
  destruct (session_accepted _ _ _ Se) as [Ac Pl].
  destruct (the_segment E e H F t chans vs lay Se Fx Nd Ne Dv)
    as [omit [s [bs [Est [Ho [Ebs [Traw [Tint [Tbig [Snext [Ebyt [Lbs [So [Ac0 _]]]]]]]]]]]]]].
  destruct (the_described E H F t chans vs lay Se Fx Ne Dv Nv Ds omit s Ho So Ac0)
    as [Act [[n [[Pn [Dk Ck]] Fm]] [LfN [LfC [Lf' [Sob Men]]]]]].
  assert (Wr : wrote E F s F' r) by (eapply wrote_chans; eauto).
  destruct (wrote_add _ _ _ _ _ Wr) as [bs0 [rn [Eb0 [Ead Er]]]].
  assert (Eb : tf_bytes F' = tf_bytes F ++ bs).
  { unfold write_channels_e in Ew. rewrite Est in Ew. destruct (add_segment E (tf_ix F) s). injection Ew as <- _. reflexivity. }
  assert (Hl : offset H + 28 + sg_next s < two64).
  { rewrite Eb, lenN_app, Lbs in Hlen. unfold exact_end in Ex. rewrite Ex. unfold two64. lia. }
  assert (Um : Forall (fun x => rm_n x = n /\ In (rm_type x) (stored_as t)) (active_formats (H ++ [s]))).
  { unfold active_formats. rewrite Act. apply Forall_forall. intros x Hx. apply in_map_iff in Hx.
    destruct Hx as [p [<- Hp]]. destruct (Fm p Hp) as [d [-> Hd]]. cbn [rm_n rm_type]. auto. }
  pose proof (uniform_ms s n Um) as U. pose proof (uniform_len s Act) as Lm.
  destruct (uniform_sizes s n Tint Snext Act Pn Dk Um) as [Pc [Kc [Wc [Bl [Cb _]]]]].
  set (ms := active_formats (H ++ [s])) in *. set (c := k / n) in *. set (cb := lenN chans * (n * size_bytes t)) in *.
  assert (Nb : c * cb < two64) by (rewrite <- Bl; unfold block_of; cbn [b_len]; lia).
  destruct (add_segment_ok E H (tf_ix F) s Ac Pl (wrote_plain _ _ _ _ _ Wr)
              (wrote_resolvable _ _ _ _ _ _ (accepted_told _ _ _ Ac) Wr) Hl) as [ix' Ead'].
  { intros _. split; [nia|]. rewrite Act. fold ms. split; [exact Ne|]. split; [rewrite Cb; nia|].
    eapply Forall_impl; [|exact U]. intros x [-> _]. rewrite Wc.
    apply N.le_lt_trans with (c * cb); [unfold cb; nia|exact Nb]. }
  rewrite Ead' in Ead. injection Ead as Eix <-. cbn [bind] in Er. subst r. split; [reflexivity|].
  assert (Ex' : exact_end (H ++ [s]) F').
  { unfold exact_end in *. rewrite offset_snoc, Eb, lenN_app, Lbs. lia. }
  exists s, bs. split; [exact Wr|]. split; [exact Eb|]. split; [rewrite Lbs, Snext; nia|].
  split; [exact Ex'|]. split; [exact Act|].
  split; [exact LfN|]. split; [exact LfC|]. split; [exact Lf'|]. split.
  { intros p name. rewrite all_objs_snoc. apply last_prop_empty. intros o Hin. now apply Sob. }
  split.
  { intros p. split.
    - unfold mentioned. rewrite all_objs_snoc, map_app. intros Hin. apply in_app_or in Hin. destruct Hin as [Hin|Hin]; [now left|].
      right. apply in_map_iff in Hin. destruct Hin as [o [<- Hin]]. now apply Sob.
    - intros [Hin|Hin]; [|now apply Men]. unfold mentioned in *. rewrite all_objs_snoc, map_app. apply in_or_app. now left. }
  split; [|split].
  - intros i p Hi S0.
    assert (Hil : (i < length chans)%nat) by (apply nth_error_Some; congruence).
    rewrite Eb. destruct (uniform_stored s bs n Traw Tint Snext Lbs Act Pn Dk Um i p Hi S0) as [S1 Q].
    split; [exact S1|]. rewrite Q. f_equal. unfold block_samples.
    assert (Kn : (length vs / length chans)%nat = N.to_nat k).
    { unfold lenN. rewrite <- Nat2N.inj_div. now rewrite Nat2N.id. }
    assert (Vl : (length vs = length chans * N.to_nat k)%nat).
    { unfold lenN in Hnk at 1 2. lia. }
    assert (Hin : forall q, (q < length vs)%nat -> exists v, nth_error vs q = Some v).
    { intros q Hq. apply nth_error_Some in Hq. destruct (nth_error vs q) as [v|]; [now exists v|congruence]. }
    symmetry. unfold dealt. rewrite Kn.
    assert (Pl' : forall j, (j < N.to_nat k)%nat -> 
               N.to_nat (place lay (lenN chans) n (N.of_nat i) (N.of_nat j))
               = match lay with Interleaved => j * length chans + i | Contigious => i * N.to_nat k + j end%nat).
    { intros j Hj. unfold place. destruct lay; [unfold lenN; lia|].
      destruct Ck as [Ck|[Ck|Ck]]; [discriminate| |].
      - assert (i = 0%nat) as -> by lia. unfold lenN. rewrite Ck. change (N.of_nat 0) with 0. change (N.of_nat 1) with 1.
        pose proof (N.div_mod (N.of_nat j) n). lia.
      - rewrite N.div_small, N.mod_small by lia. lia. }
    pose proof (fun j v => new_sample s bs n Tint Tbig Snext Ebyt Lbs Act Pn Dk Um i j v Hil) as Sm.
    destruct lay.
    + apply flat_nth. intros j Hj. destruct (Hin (j * length chans + i)%nat) as [v Hv]; [nia|].
      rewrite Hv. symmetry. f_equal. apply Sm. rewrite Pl' by lia. exact Hv.
    + apply run_nth. intros j Hj. destruct (Hin (i * N.to_nat k + j)%nat) as [v Hv]; [nia|].
      rewrite Hv. symmetry. f_equal. apply Sm. rewrite Pl' by lia. exact Hv.
  - intros p Hp. now apply (uniform_locs s n Traw Tint Snext Act Pn Dk Um p).
  - intros t' p Hp S0. destruct (locs_in_uniform p (length (blocks_after H)) c n (size_bytes t) chans ms 0 Nd U Lm) as [_ Lp]. specialize (Lp Hp).
    rewrite Eb. split.
    + apply grown_stored; [now apply old_stored|]. fold ms. rewrite Traw, Wc, Act, Lp. constructor.
    + rewrite grown_samples, (old_samples E H F bs t' p Se Ex S0).
      fold ms. rewrite Traw, Wc, Act, Lp. cbn [samples_at map concat]. apply app_nil_r.
Qed.
End Step.
