(** * What is written follows [SpecWritten], which fixes every byte *)
From Verif Require Import Base Lib DataTypes MetaData RawData Index TdmsFile SpecCodec SpecIndex SpecWrite SpecGrammar SpecWritten
  Codec_proofs Segment_proofs Parse_proofs Index_proofs History_proofs Write_proofs Grammar_proofs.

Lemma w_number e w n : n < 256 ^ N.of_nat w -> number e w n (enc_uint e w n).
Proof.
  intros H. apply number_value. unfold enc_uint. split; [|rewrite uint_val_bytes; symmetry; now apply N.mod_small].
  pose proof (lenN_uint_bytes e w n) as L. unfold lenN in L. lia.
Qed.
Lemma w_signed e w z : (0 < w)%nat -> in_signed (8 * Z.of_nat w) z -> signed e w z (enc_sint e w z).
Proof.
  intros Hw B. destruct (to_of_signed w z Hw B) as [_ L]. exists (of_signed w z).
  split; [now apply w_number|]. split; [exact B|]. unfold of_signed. rewrite Z2N.id; [reflexivity|].
  apply Z.mod_pos_bound. apply Z.pow_pos_nonneg; lia.
Qed.
Lemma w_string e s : lenN s < 2 ^ 32 -> string_bytes e s (enc_str e s).
Proof.
  intros H. unfold enc_str. rewrite N.mod_small by exact H. exists (uint_bytes e 4 (lenN s)). split; [reflexivity|].
  now apply w_number.
Qed.
Lemma w_pair e w c : fst c < 256 ^ N.of_nat w -> snd c < 256 ^ N.of_nat w ->
  pair_bytes e w c (enc_uint e w (fst c) ++ enc_uint e w (snd c)).
Proof. intros A B. eexists _, _. split; [reflexivity|]. split; now apply w_number. Qed.
Lemma w_ext e n : n < 2 ^ 80 -> number e 10 n (enc_ext e n).
Proof.
  intros H. pose proof (dec_ext_app e n []) as D. rewrite N.mod_small in D by exact H.
  destruct (exact_ext_float e) as [X _]. destruct (X _ _ _ D) as [c [Q C]]. rewrite !app_nil_r in Q. now subst c.
Qed.
Lemma w_sample e t v : rust_value t v -> storable t v -> sample_bytes e t v (enc e t v).
Proof.
  destruct t; cbn [rust_value storable sample_bytes enc carrier] in *; intros R S';
    first [apply w_signed; [apply Nat.lt_0_succ|exact R]
          |now apply w_ext|now apply w_string|now apply (w_pair e 4)|now apply (w_pair e 8)
          |apply w_number; exact R|reflexivity].
Qed.

Lemma w_pvalue e p : rust_pval p -> storable_pval p -> pvalue_bytes e p (pval_bytes e p).
Proof.
  destruct p; cbn [rust_pval storable_pval pvalue_bytes pval_bytes]; intros R S'; try reflexivity;
    match goal with |- sample_bytes _ ?t _ _ => now apply (w_sample e t) end.
Qed.
Lemma code_small t : dtype_code t < 256 ^ N.of_nat 4.
Proof. destruct t; vm_compute; reflexivity. Qed.
Lemma w_prop e p : writable_prop p -> prop_bytes e p (write_prop e p).
Proof.
  intros [L [R S']]. unfold write_prop, write_pval, write_dtype. cbn [enc]. eexists _, _, _. split; [reflexivity|].
  split; [now apply w_string|]. split; [apply w_number, code_small|now apply w_pvalue].
Qed.
Lemma w_items {A} (R : A -> list byte -> Prop) w (P : A -> Prop) xs : (forall x, P x -> R x (w x)) -> Forall P xs ->
  items R xs (concat (map w xs)).
Proof.
  intros H F. exists (map w xs). split; [reflexivity|]. induction F; cbn [map]; constructor; auto.
Qed.
Definition ok_obj (o : objmeta) : Prop :=
  lenN (om_path o) < 2 ^ 32 /\ lenN (om_props o) < 2 ^ 32 /\ Forall writable_prop (om_props o)
  /\ match om_idx o with RIRaw m => rm_n m < 2 ^ 64 | _ => True end.
Lemma w_obj e o : ok_obj o -> obj_bytes e o (write_obj e o).
Proof.
  intros [L [Lp [P X]]]. unfold write_obj. cbn [enc]. eexists _, _, _, _. split; [reflexivity|].
  split; [now apply w_string|]. split; [|split; [rewrite N.mod_small by exact Lp; now apply w_number|]].
  - destruct (om_idx o) as [| |m]; cbn [write_rawidx index_bytes].
    + apply w_number. reflexivity.
    + apply w_number. reflexivity.
    + unfold write_dtype. eexists _, _, _, _. split; [reflexivity|]. split; [now apply w_number|].
      split; [apply w_number, code_small|]. split; now apply w_number.
  - eapply w_items; [apply w_prop|exact P].
Qed.
Lemma w_objs e os : lenN os < 2 ^ 32 -> Forall ok_obj os -> objs_bytes e os (write_metadata e os).
Proof.
  intros L F. unfold write_metadata. eexists _, _. split; [reflexivity|].
  split; [rewrite N.mod_small by exact L; now apply w_number|]. eapply w_items; [apply w_obj|exact F].
Qed.
Lemma w_lead e tc mb db : lead_bytes e (toc_word tc) (mb + db) mb
  (TDSm ++ write_toc tc ++ enc_uint e 4 4713 ++ enc_uint e 8 (mb + db) ++ enc_uint e 8 mb).
Proof.
  assert (M : forall n, enc_uint e 8 n = enc_uint e 8 (n mod 2 ^ 64)).
  { intros n. change (2 ^ 64) with (256 ^ N.of_nat 8). unfold enc_uint.
    rewrite <- (uint_bytes_val e (uint_bytes e 8 n)) at 1. rewrite uint_val_bytes.
    pose proof (lenN_uint_bytes e 8 n) as Q. unfold lenN in Q.
    replace (length (uint_bytes e 8 n)) with 8%nat by lia. reflexivity. }
  rewrite (M (mb + db)), (M mb).
  exists (write_toc tc), (enc_uint e 4 4713), (enc_uint e 8 ((mb + db) mod 2 ^ 64)), (enc_uint e 8 (mb mod 2 ^ 64)).
  split; [reflexivity|]. split.
  - change (write_toc tc) with (enc_uint LittleE 4 (toc_word tc)). apply w_number.
    destruct tc as [a b c d g h]. destruct a, b, c, d, g, h; reflexivity.
  - split; [now apply w_number|]. split; apply w_number; now apply N.mod_lt.
Qed.

Lemma Forall2_map_r {A B} (P : A -> B -> Prop) g (l : list A) : (forall x, P x (g x)) -> Forall2 P l (map g l).
Proof. intros H. induction l; cbn [map]; constructor; auto. Qed.

Theorem data_call_written : forall E e t F H chans vs lay F' r,
  accepted E H (tf_ix F) -> chans <> [] -> lenN vs mod lenN chans = 0 ->
  Forall (fun c => lenN c < 2 ^ 32) chans -> lenN chans < 2 ^ 32 -> lenN vs < 2 ^ 64 ->
  Forall (rust_value t) vs -> Forall (storable t) vs ->
  write_channels_e E e t F chans vs lay = (F', r) ->
  exists bs, tf_bytes F' = tf_bytes F ++ bs /\ data_call e t H chans vs lay bs.
Proof.
  intros E e t F H chans vs lay F' r A Ne Dv Lc Ln Lv Rv Sv Ew.
  apply accepted_described in A. destruct A as (_ & _ & _ & Aa & _ & Af & _).
  unfold write_channels_e in Ew. destruct (call_stream e t (tf_ix F) chans vs lay Ne Dv) as [omit [Ho Es]].
  rewrite Es in Ew. unfold write_segment in Ew. cbv zeta in Ew.
  match type of Ew with (let '(_, _) := ?a in _) = _ => destruct a as [ix' n] end.
  injection Ew as <- _. cbn [tf_bytes]. eexists. split; [reflexivity|].
  rewrite Aa in Ho.
  assert (It : items (sample_bytes e t) vs (concat (map (enc e t) vs))).
  { eapply (w_items (sample_bytes e t) (enc e t) (fun v => rust_value t v /\ storable t v)); [intros v [? ?]; now apply w_sample|].
    rewrite Forall_forall in *. auto. }
  cbn [slice_block wb_bytes wb_size].
  set (tc := write_toc_flags e (call_toc lay omit) _ true).
  set (md := match (if omit then None else Some _) with Some m => write_metadata e m | None => [] end).
  set (mb := match (if omit then None else Some _) with Some m => metadata_size m | None => 0 end).
  assert (Mb : mb = lenN md).
  { unfold mb, md. destruct omit; [reflexivity|]. symmetry. apply metadata_size_eq. }
  exists (TDSm ++ write_toc tc ++ enc_uint e 4 4713 ++ enc_uint e 8 (mb + lenN vs * size_bytes t) ++ enc_uint e 8 mb),
    md, (concat (map (enc e t) vs)).
  split; [now rewrite <- !app_assoc|]. split; [exact It|]. cbv zeta.
  pose proof (w_lead e tc mb (lenN vs * size_bytes t)) as Wl.
  destruct omit.
  - left. split; [now apply Ho|]. split; [reflexivity|].
    replace (8 + layout_flag lay + order_flag e) with (toc_word tc); [|unfold tc; destruct e, lay; reflexivity].
    rewrite <- Mb. exact Wl.
  - right. split; [intros X; apply Ho in X; discriminate|]. split.
    + exists (call_objs (tf_ix F) (call_meta t vs chans) chans). split.
      * unfold call_objs. fold (call_meta t vs chans). apply Forall2_map_r. intros c. unfold said. cbn [om_path om_props om_idx].
        rewrite <- (Af c). split; [reflexivity|]. split; [reflexivity|].
        destruct (channel_format (tf_ix F) c) as [l|]; [destruct (rawmeta_eqb l (call_meta t vs chans)) eqn:K|].
        -- apply rawmeta_eqb_eq in K. subst l. split; [reflexivity|congruence].
        -- split; [|reflexivity]. intros Q. injection Q as ->. rewrite (proj2 (rawmeta_eqb_eq _ _) eq_refl) in K. discriminate.
        -- split; [discriminate|reflexivity].
      * unfold md. apply w_objs; [unfold call_objs, lenN; rewrite map_length; exact Ln|].
        unfold call_objs. apply Forall_forall. intros o Io. apply in_map_iff in Io. destruct Io as [c [<- Ic]].
        unfold ok_obj. cbn [om_path om_props om_idx]. rewrite Forall_forall in Lc. split; [now apply Lc|].
        split; [reflexivity|]. split; [constructor|].
        assert (K : rm_n (call_meta t vs chans) < 2 ^ 64).
        { unfold call_meta. cbn [rm_n]. eapply N.le_lt_trans; [|exact Lv]. apply N.div_le_upper_bound.
          - destruct chans; [congruence|]. unfold lenN. cbn [length]. lia.
          - rewrite <- (N.mul_1_l (lenN vs)) at 1. apply N.mul_le_mono_r.
            destruct chans as [|c0 cs]; [congruence|]. unfold lenN. cbn [length]. lia. }
        destruct (channel_format (tf_ix F) c) as [l|]; [destruct (rawmeta_eqb l (call_meta t vs chans))|]; auto.
    + replace (2 + 4 + 8 + layout_flag lay + order_flag e) with (toc_word tc); [|unfold tc; destruct e, lay; reflexivity].
      rewrite <- Mb. exact Wl.
Qed.

Theorem property_call_written : forall E e F path kvs F' r,
  lenN path < 2 ^ 32 -> lenN kvs < 2 ^ 32 -> Forall writable_prop kvs ->
  write_properties_e E e F path kvs = (F', r) ->
  exists bs, tf_bytes F' = tf_bytes F ++ bs /\ property_call e path kvs bs.
Proof.
  intros E e F path kvs F' r Lp Lk Ok' Ew. unfold write_properties_e, write_segment in Ew. cbv zeta in Ew.
  match type of Ew with (let '(_, _) := ?a in _) = _ => destruct a as [ix' n] end.
  injection Ew as <- _. cbn [tf_bytes]. eexists. split; [reflexivity|].
  set (os := [mkObj path kvs RINone]). set (tc := write_toc_flags _ _ _ _).
  exists (TDSm ++ write_toc tc ++ enc_uint e 4 4713 ++ enc_uint e 8 (metadata_size os + 0) ++ enc_uint e 8 (metadata_size os)), (write_metadata e os).
  split; [rewrite <- !app_assoc, app_nil_r; reflexivity|]. split.
  - apply w_objs; [reflexivity|]. repeat constructor; assumption.
  - pose proof (w_lead e tc (metadata_size os) 0) as Wl. rewrite metadata_size_eq.
    replace (2 + order_flag e) with (toc_word tc); [|unfold tc; destruct e; reflexivity].
    rewrite N.add_0_r in Wl at 1. exact Wl.
Qed.

(** ** Every byte is fixed *)
Definition fixes {A} (R : A -> list byte -> Prop) : Prop := forall x b1 b2, R x b1 -> R x b2 -> b1 = b2.
Lemma f_number e w : fixes (number e w).
Proof.
  intros n b1 b2 H1 H2. apply number_value in H1, H2. destruct H1 as [L1 V1], H2 as [L2 V2].
  rewrite <- (uint_bytes_val e b1), <- (uint_bytes_val e b2). rewrite <- V1, <- V2. congruence.
Qed.
Lemma number_app e w n b1 b2 r1 r2 : number e w n b1 -> number e w n b2 -> b1 ++ r1 = b2 ++ r2 -> r1 = r2.
Proof. intros H1 H2 Q. rewrite (f_number _ _ _ _ _ H1 H2) in Q. now apply app_inv_head in Q. Qed.
Lemma f_signed e w : fixes (signed e w).
Proof.
  intros z b1 b2 [n1 [H1 [_ M1]]] [n2 [H2 [_ M2]]]. replace n2 with n1 in H2 by lia. eapply f_number; eassumption.
Qed.
Lemma f_string e : fixes (string_bytes e).
Proof. intros s b1 b2 [l1 [-> H1]] [l2 [-> H2]]. now rewrite (f_number _ _ _ _ _ H1 H2). Qed.
Lemma f_pair e w : fixes (pair_bytes e w).
Proof.
  intros c b1 b2 [x1 [y1 [-> [X1 Y1]]]] [x2 [y2 [-> [X2 Y2]]]].
  now rewrite (f_number _ _ _ _ _ X1 X2), (f_number _ _ _ _ _ Y1 Y2).
Qed.
Lemma f_sample e t : fixes (sample_bytes e t).
Proof.
  destruct t; cbn [sample_bytes]; try apply f_signed; try apply f_number; try apply f_string; try apply f_pair.
  intros v b1 b2 -> ->. reflexivity.
Qed.
Lemma f_pvalue e : fixes (pvalue_bytes e).
Proof.
  intros p b1 b2. destruct p; cbn [pvalue_bytes]; try (intros -> ->; reflexivity);
  match goal with |- sample_bytes _ ?t _ _ -> _ => apply (f_sample e t) end.
Qed.
Lemma f_items {A} (R : A -> list byte -> Prop) : fixes R -> fixes (items R).
Proof.
  intros H xs b1 b2 [p1 [-> F1]] [p2 [-> F2]]. f_equal. revert p2 F2.
  induction F1 as [|x c xs cs Hx F1 IH]; intros p2 F2; inversion F2; subst; [reflexivity|].
  f_equal; [eapply H; eassumption|now apply IH].
Qed.
Lemma f_prop e : fixes (prop_bytes e).
Proof.
  intros p b1 b2 [n [c [v [-> [Hn [Hc Hv]]]]]] [n' [c' [v' [-> [Hn' [Hc' Hv']]]]]].
  now rewrite (f_string _ _ _ _ Hn Hn'), (f_number _ _ _ _ _ Hc Hc'), (f_pvalue _ _ _ _ Hv Hv').
Qed.
Lemma f_index e : fixes (index_bytes e).
Proof.
  intros x b1 b2. destruct x; cbn [index_bytes]; try apply f_number.
  intros [l [c [d [n [-> [H1 [H2 [H3 H4]]]]]]]] [l' [c' [d' [n' [-> [G1 [G2 [G3 G4]]]]]]]].
  now rewrite (f_number _ _ _ _ _ H1 G1), (f_number _ _ _ _ _ H2 G2), (f_number _ _ _ _ _ H3 G3), (f_number _ _ _ _ _ H4 G4).
Qed.
Lemma f_obj e : fixes (obj_bytes e).
Proof.
  intros o b1 b2 [p [i [n [q [-> [H1 [H2 [H3 H4]]]]]]]] [p' [i' [n' [q' [-> [G1 [G2 [G3 G4]]]]]]]].
  now rewrite (f_string _ _ _ _ H1 G1), (f_index _ _ _ _ H2 G2), (f_number _ _ _ _ _ H3 G3), (f_items _ (f_prop e) _ _ _ H4 G4).
Qed.
Lemma f_objs e : fixes (objs_bytes e).
Proof.
  intros os b1 b2 [n [q [-> [H1 H2]]]] [n' [q' [-> [G1 G2]]]].
  now rewrite (f_number _ _ _ _ _ H1 G1), (f_items _ (f_obj e) _ _ _ H2 G2).
Qed.
Lemma f_lead e t n r : forall b1 b2, lead_bytes e t n r b1 -> lead_bytes e t n r b2 -> b1 = b2.
Proof.
  intros b1 b2 [a [b [c [d [-> [H1 [H2 [H3 H4]]]]]]]] [a' [b' [c' [d' [-> [G1 [G2 [G3 G4]]]]]]]].
  now rewrite (f_number _ _ _ _ _ H1 G1), (f_number _ _ _ _ _ H2 G2), (f_number _ _ _ _ _ H3 G3), (f_number _ _ _ _ _ H4 G4).
Qed.
Lemma said_one H m c o o' : said H m c o -> said H m c o' -> o = o'.
Proof.
  intros [A [B [C D]]] [A' [B' [C' D']]]. destruct o as [p q i], o' as [p' q' i']. cbn [om_path om_props om_idx] in *. subst p p' q q'.
  f_equal.
  assert (K : last_format (all_objs H) c = Some m \/ last_format (all_objs H) c <> Some m).
  { destruct (last_format (all_objs H) c) as [l|]; [|right; discriminate].
    destruct (rawmeta_eqb l m) eqn:Q; [left; apply rawmeta_eqb_eq in Q; now subst|right].
    intros X. injection X as ->. rewrite (proj2 (rawmeta_eqb_eq _ _) eq_refl) in Q. discriminate. }
  destruct K as [K|K]; [rewrite (C K), (C' K)|rewrite (D K), (D' K)]; reflexivity.
Qed.
Lemma Forall2_same {A B} (P : A -> B -> Prop) : (forall x y y', P x y -> P x y' -> y = y') ->
  forall l a b, Forall2 P l a -> Forall2 P l b -> a = b.
Proof.
  intros H l a b Fa. revert b. induction Fa as [|x y l a Hx Fa IH]; intros b Fb; inversion Fb; subst; [reflexivity|].
  f_equal; [eapply H; eassumption|now apply IH].
Qed.
Theorem data_call_fixed e t H chans vs lay b1 b2 :
  data_call e t H chans vs lay b1 -> data_call e t H chans vs lay b2 -> b1 = b2.
Proof.
  intros [l1 [m1 [d1 [-> [I1 C1]]]]] [l2 [m2 [d2 [-> [I2 C2]]]]]. cbv zeta in C1, C2.
  rewrite (f_items _ (f_sample e t) _ _ _ I1 I2).
  destruct C1 as [[N1 [-> L1]]|[N1 [[os1 [S1 O1]] L1]]], C2 as [[N2 [-> L2]]|[N2 [[os2 [S2 O2]] L2]]]; try contradiction.
  - now rewrite (f_lead _ _ _ _ _ _ L1 L2).
  - assert (Q : os1 = os2).
    { eapply Forall2_same; [|exact S1|exact S2]. intros c o o'. apply said_one. }
    subst os2. pose proof (f_objs _ _ _ _ O1 O2) as Qm. subst m2. now rewrite (f_lead _ _ _ _ _ _ L1 L2).
Qed.
Theorem property_call_fixed e path kvs b1 b2 :
  property_call e path kvs b1 -> property_call e path kvs b2 -> b1 = b2.
Proof.
  intros [l1 [m1 [-> [O1 L1]]]] [l2 [m2 [-> [O2 L2]]]]. pose proof (f_objs _ _ _ _ O1 O2) as Qm. subst m2.
  now rewrite (f_lead _ _ _ _ _ _ L1 L2).
Qed.
