(** * Data calls without metadata: what they add to each channel *)
From Verif Require Import Base Lib DataTypes MetaData Maps DataBlock Index RawData ChannelReader TdmsFile
  SpecCodec SpecIndex SpecSession SpecRead SpecWrite Codec_proofs Segment_proofs Index_proofs History_proofs
  Session_proofs Block_proofs Request_proofs Plan_proofs Read_proofs Add_proofs Thm_Index Thm_Read Write_proofs
  Step_proofs Program_proofs Thm_Write SpecExact.

Lemma two_values t : fixed t -> exists v0 v1 : carrier t, rust_value t v0 /\ rust_value t v1 /\ v0 <> v1.
Proof.
  intros [A [B C]]. destruct t; try congruence;
    first [ exists 0%Z, 1%Z | exists 0, 1 | exists true, false | exists (0, 0), (0, 1) ]; cbn [rust_value fst snd];
    (split; [|split; [|discriminate]]); unfold in_signed; try exact Logic.I; repeat split; try (vm_compute; congruence).
Qed.

(** ** Samples of one channel in a block *)
Lemma samples_in_0 q b : forall act ms, b_chans b = ms -> ~ In q act ->
  fold_right N.add 0 (map (fun pm => if str_eqb q (fst pm) then rm_n (snd pm) * whole_chunks b else 0) (combine act ms)) = 0.
Proof.
  intros act ms _. revert ms. induction act as [|x act IH]; intros [|m ms] Hq; try reflexivity.
  cbn [combine map fold_right fst snd]. destruct (str_eqb q x) eqn:K.
  - apply str_eqb_eq in K. exfalso. apply Hq. now left.
  - rewrite IH; [reflexivity|]. intros X. apply Hq. now right.
Qed.
Lemma samples_in_nth q c : forall (act : list str) ms i m, NoDup act -> nth_error act i = Some q -> nth_error ms i = Some m ->
  fold_right N.add 0 (map (fun pm => if str_eqb q (fst pm) then rm_n (snd pm) * c else 0) (combine act ms)) = rm_n m * c.
Proof.
  induction act as [|x act IH]; intros ms i m Nd Hi Hm; [destruct i; discriminate|].
  destruct ms as [|m0 ms]; [destruct i; discriminate|]. inversion Nd as [|? ? Hx Nd']; subst.
  cbn [combine map fold_right fst snd]. destruct i as [|i]; cbn [nth_error] in Hi, Hm.
  - injection Hi as ->. injection Hm as ->. rewrite str_eqb_refl.
    assert (Z : forall ms, fold_right N.add 0 (map (fun pm => if str_eqb q (fst pm) then rm_n (snd pm) * c else 0) (combine act ms)) = 0).
    { clear -Hx. induction act as [|x act IH]; intros [|m ms]; try reflexivity. cbn [combine map fold_right fst snd].
      destruct (str_eqb q x) eqn:K; [apply str_eqb_eq in K; exfalso; apply Hx; now left|]. rewrite IH; [reflexivity|].
      intros X. apply Hx. now right. }
    rewrite Z. lia.
  - destruct (str_eqb q x) eqn:K; [apply str_eqb_eq in K; subst x; exfalso; apply Hx; eapply nth_error_In; eauto|].
    now rewrite (IH ms i m Nd' Hi Hm).
Qed.
Lemma chunk_bound : forall ms i m, nth_error ms i = Some m -> rm_n m * dtype_size (rm_type m) <= chunk_bytes ms.
Proof.
  induction ms as [|m0 ms IH]; intros [|i] m Hm; try discriminate; cbn [nth_error chunk_bytes fold_right] in *; fold (chunk_bytes ms).
  - injection Hm as ->. lia.
  - specialize (IH i m Hm). lia.
Qed.
Lemma needed_app ls' : forall ls, needed (ls ++ ls') (fold_right (fun l a => l_n l + a) 0 ls) = needed ls' 0.
Proof.
  induction ls as [|l ls IH]; [reflexivity|]. cbn [app fold_right needed].
  replace (l_n l <=? l_n l + fold_right (fun l a => l_n l + a) 0 ls) with true by lia.
  rewrite N.add_comm, N.add_sub. exact IH.
Qed.

Section Continued.
Context (E : env) (e : endian) (H : list segment) (F : tfile) (t : sty) (lay : layout) (k : N) (chans : list str).
Context (Se : session E H F) (Ex : exact_end H F) (Fx : fixed t) (Nd : NoDup chans) (Ne : chans <> []) (Pk : 0 < k)
  (Sd : sized_now H) (Rm : room E F t k chans) (Ls : forall q, length_after H q < 2 ^ 63)
  (Co : continues (active_after H) chans).

Lemma active_good : NoDup (active_after H) /\ forall q, In q (active_after H) -> mentioned (all_objs H) q.
Proof.
  destruct (session_accepted _ _ _ Se) as [Ac _].
  destruct (accepted_described _ _ _ Ac) as [Iv [_ [_ [Ha [Hk _]]]]]. rewrite <- Ha.
  split; [apply Iv|]. intros q Hq. apply Hk. apply in_map_iff in Hq. destruct Hq as [a [<- Hin]].
  destruct (inv_act _ Iv a Hin) as [od [mm [G _]]]. unfold known. congruence.
Qed.

(** One such call. *)
Lemma continued vs F' r : values_for t k chans vs -> write_channels_e E e t F chans vs lay = (F', r) -> r = Ok tt ->
  exists s bs,
    session E (H ++ [s]) F' /\ tf_bytes F' = tf_bytes F ++ bs /\ addressable E (tf_bytes F')
    /\ lenN vs mod lenN chans = 0 /\ lenN vs / lenN chans = k /\ vs <> []
    /\ toc_raw (sg_toc s) = true /\ toc_inter (sg_toc s) = layout_eqb lay Interleaved
    /\ toc_big (sg_toc s) = (match e with BigE => true | LittleE => false end)
    /\ sg_next s = sg_raw s + lenN vs * size_bytes t
    /\ bs = firstn (N.to_nat (28 + sg_raw s)) bs ++ concat (map (enc e t) vs)
    /\ lenN bs = 28 + sg_next s
    /\ active_after (H ++ [s]) = active_after H /\ active_formats (H ++ [s]) = active_formats H
    /\ all_objs (H ++ [s]) = all_objs H
    /\ (forall q, ~ In q (active_after H) -> length_after (H ++ [s]) q = length_after H q)
    /\ (forall i q m, nth_error (active_after H) i = Some q -> nth_error (active_formats H) i = Some m ->
          length_after (H ++ [s]) q = length_after H q + rm_n m * whole_chunks (block_of H s))
    /\ (forall q, length_after (H ++ [s]) q < 2 ^ 64).
Proof.
  intros [Rv Lv] Ew ->.
  assert (Pc : 0 < lenN chans) by (destruct chans; [congruence|rewrite lenN_cons; lia]).
  assert (Dv : lenN vs mod lenN chans = 0) by (rewrite Lv, N.mul_comm; apply N.mod_mul; lia).
  assert (Dk : lenN vs / lenN chans = k) by (rewrite Lv, N.mul_comm; apply N.div_mul; lia).
  assert (Nv : vs <> []) by (intros ->; change (lenN (@nil (carrier t))) with 0 in Lv; nia).
  destruct (the_segment E e H F t chans vs lay Se Fx Nd Ne Dv)
    as [omit [s [bs [Est [Ho [Ebs [Traw [Tint [Tbig [Snext [Ebyt [Lbs [So [Ac0 R0]]]]]]]]]]]]]].
  assert (omit = true) as -> by now apply Ho. specialize (R0 eq_refl).
  assert (Wr : wrote E F s F' (Ok tt)) by (eapply wrote_chans; eauto).
  assert (Eb : tf_bytes F' = tf_bytes F ++ bs).
  { unfold write_channels_e in Ew. rewrite Est in Ew. destruct (add_segment E (tf_ix F) s). injection Ew as <- _. reflexivity. }
  assert (Ao : all_objs (H ++ [s]) = all_objs H) by (rewrite all_objs_snoc, So; apply app_nil_r).
  assert (Af : active_formats (H ++ [s]) = active_formats H) by (unfold active_formats; now rewrite Ac0, Ao).
  exists s, bs. split; [eapply ss_write; eauto|]. split; [exact Eb|]. split.
  { destruct Rm as [R1 R2]. rewrite Eb. unfold addressable. rewrite !lenN_app, Lbs, Snext, R0, Lv. split; lia. }
  do 12 (split; [assumption|]).
  destruct active_good as [Na _].
  assert (Out : forall q, ~ In q (active_after H) -> length_after (H ++ [s]) q = length_after H q).
  { intros q Hq. rewrite length_after_snoc, Traw, Ac0. unfold samples_in.
    rewrite (samples_in_0 q (block_of H s) (active_after H) _ eq_refl Hq). lia. }
  assert (Inn : forall i q m, nth_error (active_after H) i = Some q -> nth_error (active_formats H) i = Some m ->
          length_after (H ++ [s]) q = length_after H q + rm_n m * whole_chunks (block_of H s)).
  { intros i q m Hq Hm. rewrite length_after_snoc, Traw, Ac0. unfold samples_in.
    change (b_chans (block_of H s)) with (active_formats (H ++ [s])). rewrite Af.
    now rewrite (samples_in_nth q _ _ _ i m Na Hq Hm). }
  split; [exact Out|]. split; [exact Inn|].
  intros q. destruct (in_dec (list_eq_dec Byte.byte_eq_dec) q (active_after H)) as [Hq|Hq].
  2: { rewrite Out by exact Hq. etransitivity; [apply Ls|reflexivity]. }
  apply In_nth_error in Hq. destruct Hq as [i Hi]. change (@nth_error str (active_after H) i = Some q) in Hi.
  destruct (nth_error (active_formats H) i) as [m|] eqn:Hm.
  2: { apply nth_error_None in Hm. unfold active_formats in Hm. rewrite map_length in Hm.
       assert (Hil : (i < length (active_after H))%nat) by (apply (proj1 (nth_error_Some (active_after H) i)); change (@nth_error str (active_after H) i <> None); rewrite Hi; discriminate). lia. }
  rewrite (Inn i q m Hi Hm).
  assert (rm_n m * whole_chunks (block_of H s) < 2 ^ 63).
  { unfold whole_chunks. change (b_chans (block_of H s)) with (active_formats (H ++ [s])). rewrite Af.
    destruct (chunk_bytes (active_formats H) =? 0) eqn:Z; [rewrite N.mul_0_r; reflexivity|].
    pose proof (chunk_bound _ _ _ Hm) as Cb. unfold sized_now in Sd. rewrite Forall_forall in Sd.
    destruct (Sd m (nth_error_In _ _ Hm)) as [_ Wm]. pose proof (width_dtype (rm_type m) Wm) as Wd.
    assert (Bl : b_len (block_of H s) < 2 ^ 63).
    { unfold block_of. cbn [b_len]. destruct Rm as [R1 _]. rewrite Snext, Lv. lia. }
    pose proof (N.mul_div_le (b_len (block_of H s)) (chunk_bytes (active_formats H))) as D.
    apply N.le_lt_trans with (b_len (block_of H s)); [|exact Bl]. etransitivity; [|apply D; lia].
    apply N.mul_le_mono_r. rewrite Wd in Cb. nia. }
  specialize (Ls q). change (2 ^ 64) with (2 ^ 63 + 2 ^ 63). lia.
Qed.

(** A served one: every channel of the call has become longer by [k], every
    other current channel by nothing. *)
Lemma served_gains vs F' r : values_for t k chans vs -> write_channels_e E e t F chans vs lay = (F', r) ->
  served E H F t lay chans vs F' r -> forall s, session E (H ++ [s]) F' ->
  all_objs (H ++ [s]) = all_objs H -> (forall q, length_after (H ++ [s]) q < 2 ^ 64) ->
  (forall q, In q chans -> length_after (H ++ [s]) q = length_after H q + k)
  /\ (forall q, In q (active_after H) -> ~ In q chans -> length_after (H ++ [s]) q = length_after H q).
Proof.
  intros [Rv Lv] Ew [_ [Sin Sout]] s Se' Ao Lt. destruct active_good as [_ Am]. split.
  - intros q Hq. apply In_nth_error in Hq. destruct Hq as [i Hi]. destruct (Sin i q Hi) as [Cl _].
    destruct (C19_channel_length E _ F' q Se') as [C1 C2]. rewrite Cl in C1, C2.
    destruct (in_dec (list_eq_dec Byte.byte_eq_dec) q (map om_path (all_objs (H ++ [s])))) as [M|M].
    2: { apply C2 in M. discriminate. }
    specialize (C1 (Lt q) M). injection C1 as C1. rewrite lenN_app, C36_samples_count in C1. rewrite <- C1. f_equal.
    assert (Hil : (i < length chans)%nat) by (apply nth_error_Some; congruence).
    unfold lenN. rewrite (dealt_length lay (length chans) (N.to_nat k) i vs Hil); [lia|]. unfold lenN in Lv. lia.
  - intros q Ha Hq. specialize (Sout q Hq).
    destruct (C19_channel_length E _ F' q Se') as [C1 _]. destruct (C19_channel_length E _ F q Se) as [D1 _].
    assert (M : mentioned (all_objs H) q) by now apply Am.
    rewrite C1, D1 in Sout; [now injection Sout| |exact M|exact (Lt q)|now rewrite Ao].
    etransitivity; [apply Ls|reflexivity].
Qed.
End Continued.
