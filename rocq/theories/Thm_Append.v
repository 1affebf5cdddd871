(** * C82 Exactly which files can be appended to *)
From Coq Require Import Strings.String.
From Verif Require Import Base Lib DataTypes MetaData Maps DataBlock Index RawData ChannelReader TdmsFile Vectors
  SpecCodec SpecIndex SpecSession SpecRead SpecWrite SpecLocal SpecCutFile Codec_proofs Segment_proofs Index_proofs History_proofs
  Session_proofs Block_proofs Request_proofs Plan_proofs Read_proofs Add_proofs Thm_Index Thm_Read Write_proofs
  Step_proofs Program_proofs Thm_Write SpecExact Exact_proofs Thm_Exact Thm_CutFile SpecAppend.
Close Scope string_scope.
Local Notation a := (ch "g" "a").
Local Notation b := (ch "g" "b").

(** ** Two values that differ in the first byte *)
Lemma hd_slice f p n : 0 < n -> hd_error (slice f p n) = nth_error f (N.to_nat p).
Proof.
  intros Hn. unfold slice. rewrite <- (firstn_skipn (N.to_nat p) f) at 2.
  destruct (Nat.le_gt_cases (length f) (N.to_nat p)) as [Q|Q].
  - rewrite (skipn_all2 f) by exact Q. rewrite app_nil_r, firstn_nil.
    symmetry. apply nth_error_None. rewrite firstn_length. lia.
  - rewrite nth_error_app2 by (rewrite firstn_length; lia). rewrite firstn_length.
    replace (N.to_nat p - Nat.min (N.to_nat p) (length f))%nat with 0%nat by lia.
    destruct (skipn (N.to_nat p) f); [now rewrite firstn_nil|].
    destruct (N.to_nat n) eqn:Q2; [lia|]. reflexivity.
Qed.
Lemma uint_is e w (s : list byte) n : length s = w -> uint_val e s = n -> s = uint_bytes e w n.
Proof. intros <- <-. symmetry. apply uint_bytes_val. Qed.
Lemma signed_is e w (s : list byte) z n : length s = w -> (w = 1 \/ w = 2 \/ w = 4 \/ w = 8)%nat ->
  to_signed w (uint_val e s) = z -> (z = 0%Z /\ n = 0 \/ z = (-1)%Z /\ n = 256 ^ N.of_nat w - 1) -> s = uint_bytes e w n.
Proof.
  intros L W Hz Hn. apply uint_is; [exact L|]. pose proof (uint_val_bound e s) as B. unfold lenN in B. rewrite L in B.
  unfold to_signed in Hz.
  destruct W as [->|[->|[->| ->]]];
    match type of B with _ < ?q => let v := eval vm_compute in q in change q with v in * end;
    match type of Hz with context [?n <? ?q] => let v := eval vm_compute in q in change q with v in * end;
    match type of Hz with context [(_ - ?q)%Z] => let v := eval vm_compute in q in change q with v in * end;
    destruct (uint_val e s <? _) eqn:Q; lia.
Qed.
Lemma first_byte t : fixed t -> exists v0 v1 : carrier t, rust_value t v0 /\ rust_value t v1
  /\ forall e s0 s1, lenN s0 = size_bytes t -> lenN s1 = size_bytes t -> elem e t s0 = v0 -> elem e t s1 = v1 ->
       hd_error s0 <> hd_error s1.
Proof.
  assert (Len : forall (s : list byte) n, lenN s = n -> length s = N.to_nat n) by (intros s n <-; unfold lenN; lia).
  assert (U : forall w e (s0 s1 : list byte) n, length s0 = w -> length s1 = w -> uint_val e s0 = 0 -> uint_val e s1 = n ->
     hd_error (uint_bytes e w 0) <> hd_error (uint_bytes e w n) -> hd_error s0 <> hd_error s1).
  { intros w e s0 s1 n L0 L1 H0 H1. now rewrite <- (uint_is e w s0 0 L0 H0), <- (uint_is e w s1 n L1 H1). }
  assert (G : forall w e (s0 s1 : list byte), (w = 1 \/ w = 2 \/ w = 4 \/ w = 8)%nat -> length s0 = w -> length s1 = w ->
     to_signed w (uint_val e s0) = 0%Z -> to_signed w (uint_val e s1) = (-1)%Z ->
     hd_error (uint_bytes e w 0) <> hd_error (uint_bytes e w (256 ^ N.of_nat w - 1)) -> hd_error s0 <> hd_error s1).
  { intros w e s0 s1 W L0 L1 H0 H1.
    now rewrite <- (signed_is e w s0 _ 0 L0 W H0 ltac:(auto)), <- (signed_is e w s1 _ _ L1 W H1 ltac:(auto)). }
  assert (C : forall w e (s0 s1 : list byte) n, (0 < w)%nat -> length s0 = (w + w)%nat -> length s1 = (w + w)%nat ->
     uint_val e (firstn w s0) = 0 -> uint_val e (firstn w s1) = n ->
     hd_error (uint_bytes e w 0) <> hd_error (uint_bytes e w n) -> hd_error s0 <> hd_error s1).
  { intros w e s0 s1 n Pw L0 L1 H0 H1 D. 
    assert (Hd : forall s : list byte, length s = (w + w)%nat -> hd_error s = hd_error (firstn w s)).
    { intros [|x s] L; [now rewrite firstn_nil|]. destruct w; [lia|reflexivity]. }
    rewrite (Hd s0 L0), (Hd s1 L1). apply (U w e _ _ n); rewrite ?firstn_length; auto; lia. }
  intros [A [B0 C0]]. destruct t; try congruence.
  1-4: exists 0%Z, (-1)%Z; split; [unfold rust_value, in_signed; cbn; lia|]; split; [unfold rust_value, in_signed; cbn; lia|];
    intros e s0 s1 L0 L1 H0 H1; cbn [elem] in H0, H1; apply Len in L0, L1;
    first [apply (G 1%nat e s0 s1 ltac:(auto) L0 L1 H0 H1)|apply (G 2%nat e s0 s1 ltac:(auto) L0 L1 H0 H1)|apply (G 4%nat e s0 s1 ltac:(auto) L0 L1 H0 H1)
      |apply (G 8%nat e s0 s1 ltac:(auto) L0 L1 H0 H1)]; destruct e; vm_compute; discriminate.
  all: try (exists 0, 255; split; [reflexivity|]; split; [reflexivity|];
    intros e s0 s1 L0 L1 H0 H1; cbn [elem] in H0, H1; apply Len in L0, L1; apply (U 1%nat e _ _ _ L0 L1 H0 H1); destruct e; vm_compute; discriminate).
  all: try (exists 0, 65535; split; [reflexivity|]; split; [reflexivity|];
    intros e s0 s1 L0 L1 H0 H1; cbn [elem] in H0, H1; apply Len in L0, L1; apply (U 2%nat e _ _ _ L0 L1 H0 H1); destruct e; vm_compute; discriminate).
  all: try (exists 0, 4294967295; split; [reflexivity|]; split; [reflexivity|];
    intros e s0 s1 L0 L1 H0 H1; cbn [elem] in H0, H1; apply Len in L0, L1; apply (U 4%nat e _ _ _ L0 L1 H0 H1); destruct e; vm_compute; discriminate).
  all: try (exists 0, 18446744073709551615; split; [reflexivity|]; split; [reflexivity|];
    intros e s0 s1 L0 L1 H0 H1; cbn [elem] in H0, H1; apply Len in L0, L1; apply (U 8%nat e _ _ _ L0 L1 H0 H1); destruct e; vm_compute; discriminate).
  all: try (exists 0, (2 ^ 128 - 1); split; [reflexivity|]; split; [reflexivity|];
    intros e s0 s1 L0 L1 H0 H1; cbn [elem] in H0, H1; apply Len in L0, L1; apply (U 16%nat e _ _ _ L0 L1 H0 H1); destruct e; vm_compute; discriminate).
  - exists false, true. split; [exact Logic.I|]. split; [exact Logic.I|]. intros e s0 s1 L0 L1 H0 H1 Hh.
    apply Len in L0, L1. change (N.to_nat (size_bytes SBool)) with 1%nat in *.
    destruct s0 as [|x [|? ?]]; try discriminate. destruct s1 as [|y [|? ?]]; try discriminate. injection Hh as ->. congruence.
  - exists (0, 0), (4294967295, 4294967295). split; [split; reflexivity|]. split; [split; reflexivity|].
    intros e s0 s1 L0 L1 H0 H1; cbn [elem] in H0, H1; apply Len in L0, L1. injection H0 as H0 _. injection H1 as H1 _.
    apply (C 4%nat e s0 s1 _ ltac:(lia) L0 L1 H0 H1). destruct e; vm_compute; discriminate.
  - exists (0, 0), (18446744073709551615, 18446744073709551615). split; [split; reflexivity|]. split; [split; reflexivity|].
    intros e s0 s1 L0 L1 H0 H1; cbn [elem] in H0, H1; apply Len in L0, L1. injection H0 as H0 _. injection H1 as H1 _.
    apply (C 8%nat e s0 s1 _ ltac:(lia) L0 L1 H0 H1). destruct e; vm_compute; discriminate.
Qed.

(** ** The last location of a channel *)
Lemma touched_last l j : j < l_n l -> forall ls, touched (ls ++ [l]) (fold_right (fun l a => l_n l + a) 0 ls + j) 1 = [l].
Proof.
  intros Hj. induction ls as [|x ls IH]; cbn [app fold_right touched].
  - replace (l_n l <=? 0 + j) with false by lia. replace (1 <=? l_n l - (0 + j)) with true by lia. reflexivity.
  - replace (l_n x <=? l_n x + fold_right (fun l a => l_n l + a) 0 ls + j) with true by lia.
    replace (l_n x + fold_right (fun l a => l_n l + a) 0 ls + j - l_n x) with (fold_right (fun l a => l_n l + a) 0 ls + j) by lia.
    exact IH.
Qed.
Lemma places_length bs ls : Forall (located bs) ls ->
  length (concat (map (loc_places bs) ls)) = N.to_nat (fold_right (fun l a => l_n l + a) 0 ls).
Proof.
  induction 1 as [|l ls [b0 [m [Hb _]]] _ IH]; [reflexivity|]. cbn [map concat fold_right].
  rewrite app_length, IH. unfold loc_places. rewrite Hb, map_length, seq_length. lia.
Qed.

Lemma last_place lay x n k : 0 < n -> 0 < k -> k mod n = 0 -> place lay (x + 1) n x (k - 1) + 1 = (x + 1) * k.
Proof.
  intros Pn Pk Dn. unfold place. destruct lay; [nia|].
  assert (Kc : k = n * (k / n)) by (pose proof (N.div_mod k n); lia).
  destruct (N.eq_dec (k / n) 0) as [Z|Z]; [rewrite Z in Kc; lia|].
  assert (Hc : k / n = (k / n - 1) + 1) by lia. set (c := k / n - 1) in *. rewrite Hc in Kc.
  assert (K1 : k - 1 = n * c + (n - 1)) by lia.
  rewrite <- (N.div_unique (k - 1) n c (n - 1)), <- (N.mod_unique (k - 1) n c (n - 1)) by lia.
  rewrite Kc. replace (n - 1 + 1) with n by lia. nia.
Qed.

Section Append.
Context (E : env) (e : endian) (H : list segment) (F : tfile) (t : sty) (lay : layout) (k : N) (chans : list str).
Context (Se : session E H F) (Fx : fixed t) (Nd : NoDup chans) (Ne : chans <> []) (Pk : 0 < k)
  (Sd : sized_now H) (Rm : roomy E e H F t lay k chans) (Ls : forall q, length_after H q < 2 ^ 63).

Lemma val_count vs : values_for t k chans vs -> lenN vs mod lenN chans = 0 /\ lenN vs / lenN chans = k /\ vs <> [].
Proof.
  clear Se Sd Rm Ls.
  assert (Pc : 0 < lenN chans) by (destruct chans; [congruence|rewrite lenN_cons; lia]).
  intros [_ Lv]. rewrite Lv, N.mul_comm, N.mod_mul, N.div_mul by lia. split; [reflexivity|]. split; [reflexivity|].
  intros ->. change (lenN (@nil (carrier t))) with 0 in Lv. nia.
Qed.

(** A served call: the new block is even. *)
Lemma appended vs F' r : values_for t k chans vs -> write_channels_e E e t F chans vs lay = (F', r) ->
  served E H F t lay chans vs F' r ->
  exists omit s bs n,
    session E (H ++ [s]) F' /\ tf_bytes F' = tf_bytes F ++ bs
    /\ (omit = true <-> continues (active_after H) chans)
    /\ (bs, s) = write_segment e (call_toc lay omit)
               (if omit then None else Some (call_objs (tf_ix F) (mkRaw (natural t) k None) chans)) (Some (slice_block e t vs))
    /\ toc_raw (sg_toc s) = true /\ toc_inter (sg_toc s) = layout_eqb lay Interleaved
    /\ toc_big (sg_toc s) = (match e with BigE => true | LittleE => false end)
    /\ sg_next s = sg_raw s + lenN vs * size_bytes t
    /\ bs = firstn (N.to_nat (28 + sg_raw s)) bs ++ concat (map (enc e t) vs)
    /\ lenN bs = 28 + sg_next s
    /\ active_after (H ++ [s]) = chans /\ 0 < n /\ k mod n = 0
    /\ Forall (fun x => rm_n x = n /\ In (rm_type x) (stored_as t)) (active_formats (H ++ [s]))
    /\ (forall p, In p chans -> mentioned (all_objs (H ++ [s])) p)
    /\ (omit = true -> active_after H = chans
         /\ Forall (fun p => exists d, last_format (all_objs H) p = Some (mkRaw d n None) /\ In d (stored_as t)) chans).
Proof.
  intros Vf Ew Sv. destruct (val_count vs Vf) as [Dv [Dk Nv]]. pose proof Sv as [Rk _].
  destruct (the_segment E e H F t chans vs lay Se Fx Nd Ne Dv)
    as [omit [s [bs [Est [Ho [Ebs [Traw [Tint [Tbig [Snext [Ebyt [Lbs [So [Ac0 R0]]]]]]]]]]]]]].
  assert (Wr : wrote E F s F' (Ok tt)) by (subst r; eapply wrote_chans; eauto).
  assert (Eb : tf_bytes F' = tf_bytes F ++ bs).
  { unfold write_channels_e in Ew. rewrite Est in Ew. destruct (add_segment E (tf_ix F) s). injection Ew as <- _. reflexivity. }
  destruct (Rm vs F' r Vf Ew) as [[A1 A2] _].
  assert (Fin : exists n, active_after (H ++ [s]) = chans /\ 0 < n /\ k mod n = 0
    /\ Forall (fun x => rm_n x = n /\ In (rm_type x) (stored_as t)) (active_formats (H ++ [s]))
    /\ (forall p, In p chans -> mentioned (all_objs (H ++ [s])) p)
    /\ (omit = true -> active_after H = chans
         /\ Forall (fun p => exists d, last_format (all_objs H) p = Some (mkRaw d n None) /\ In d (stored_as t)) chans)).
  { destruct omit.
    - assert (Co : continues (active_after H) chans) by now apply Ho.
      assert (Rm' : room E F t k chans).
      { destruct Vf as [_ Lv]. rewrite Eb in A1, A2. rewrite lenN_app, Lbs, Snext, Lv in A1, A2. split; lia. }
      destruct (C77_only_if E e H F t lay k chans vs F' r Se Fx Nd Ne Pk Sd Rm' Ls Co Vf Ew Sv) as [Eq [n [Pn [Dn Fm]]]].
      exists n. rewrite Ac0. split; [exact Eq|]. split; [exact Pn|]. split; [exact Dn|].
      assert (Ao : all_objs (H ++ [s]) = all_objs H) by (rewrite all_objs_snoc, So; apply app_nil_r).
      split; [|split; [|intros _; split; [exact Eq|exact Fm]]].
      + unfold active_formats. rewrite Ac0, Ao, Eq. apply Forall_forall. intros x Hx. apply in_map_iff in Hx.
        destruct Hx as [p [<- Hp]]. rewrite Forall_forall in Fm. destruct (Fm p Hp) as [d [-> Hd]]. cbn [rm_n rm_type]. auto.
      + intros p Hp. rewrite Ao. apply (active_good E H F Se). now rewrite Eq.
    - assert (Nc : ~ continues (active_after H) chans) by (intros X; apply Ho in X; discriminate).
      destruct (the_described E H F t chans vs lay Se Fx Ne Dv Nv (or_introl Nc) false s Ho So Ac0)
        as [Act [_ [LfN [_ [_ [_ Men]]]]]].
      exists k. split; [exact Act|]. split; [exact Pk|]. split; [apply N.mod_same; lia|].
      split; [|split; [exact Men|discriminate]].
      destruct (natural_size t Fx) as [_ [_ [_ Sa]]].
      unfold active_formats. rewrite Act. apply Forall_forall. intros x Hx. apply in_map_iff in Hx.
      destruct Hx as [p [<- Hp]]. rewrite (LfN Nc p Hp). unfold call_meta. cbn [rm_n rm_type]. auto. }
  destruct Fin as [n Fin].
  exists omit, s, bs, n. split; [subst r; eapply ss_write; eauto|]. split; [exact Eb|]. split; [exact Ho|].
  split; [unfold call_meta in Ebs; now rewrite Dk in Ebs|].
  do 6 (split; [assumption|]). exact Fin.
Qed.

(** Reading one sample of the new block. *)
Lemma read_new vs s (bs : list byte) n F' p i j d :
  values_for t k chans vs -> session E (H ++ [s]) F' ->
  toc_raw (sg_toc s) = true -> toc_inter (sg_toc s) = layout_eqb lay Interleaved ->
  toc_big (sg_toc s) = (match e with BigE => true | LittleE => false end) ->
  sg_next s = sg_raw s + lenN vs * size_bytes t ->
  active_after (H ++ [s]) = chans -> 0 < n -> k mod n = 0 ->
  Forall (fun x => rm_n x = n /\ In (rm_type x) (stored_as t)) (active_formats (H ++ [s])) ->
  mentioned (all_objs (H ++ [s])) p -> nth_error chans i = Some p -> j < k ->
  lenN bs = 28 + sg_next s -> offset H + lenN bs < 2 ^ 63 -> offset H + lenN bs <= seek_max E ->
  let f := tf_bytes F' in
  let q := (e, offset H + 28 + sg_raw s + place lay (lenN chans) n (N.of_nat i) j * size_bytes t) in
  exists rest, read_channel_from E F' t p (length_after H p + j) [d]
    = (overlay [d] (map (value_at f t) (while (present f t) [q])),
       if forallb (present f t) ([q] ++ rest) then Ok tt else Err (EIo UnexpectedEof)).
Proof.
  clear Se Sd Rm Ls.
  intros Vf Se' Traw Tint Tbig Snext Act Pn Dn Um Me Hi Hj Lbs Q1 Q2 f q.
  destruct (val_count vs Vf) as [Dv [Dk Nv]].
  assert (Dn' : (lenN vs / lenN chans) mod n = 0) by now rewrite Dk.
  destruct (uniform_sizes e H t chans vs lay Fx Ne Nv Dv s n Tint Snext Act Pn Dn' Um) as [Pc [Kc [Wc [Bl [_ [Sb [Ch [Nb Fa]]]]]]]].
  destruct (uniform_locs e H t chans vs lay Fx Nd Ne Nv Dv s n Traw Tint Snext Act Pn Dn' Um p) as [Lo _].
  specialize (Lo i Hi). rewrite Dk in *.
  set (nl := mkLoc (length (blocks_after H)) i k) in *.
  assert (Nbk : nth_error (blocks_after (H ++ [s])) (length (blocks_after H)) = Some (block_of H s)).
  { rewrite blocks_after_snoc, Traw, nth_error_app2 by lia. now rewrite Nat.sub_diag. }
  assert (Hil : (i < length chans)%nat) by (apply nth_error_Some; congruence).
  pose proof (uniform_len H chans s Act) as Lm.
  assert (St : length_after H p = fold_right (fun l a => l_n l + a) 0 (locs_after H p)).
  { unfold length_after. rewrite <- (locs_sum p H []). reflexivity. }
  assert (Tc : touched (locs_after (H ++ [s]) p) (length_after H p + j) (lenN [d]) = [nl]).
  { rewrite Lo, St. apply (touched_last nl). exact Hj. }
  assert (La : Forall (laid_out E t (H ++ [s])) [nl]).
  { constructor; [|constructor]. destruct (nth_error (active_formats (H ++ [s])) i) as [x|] eqn:Hx; [|apply nth_error_None in Hx; lia].
    exists (block_of H s), x. split; [exact Nbk|]. split; [|split; [exact Hx|]].
    - exists n, (k / n). do 5 (split; [assumption|]).
      change (b_chans (block_of H s)) with (active_formats (H ++ [s])). rewrite Sb, <- Bl.
      unfold block_of. cbn [b_start b_len]. rewrite Lbs, Snext in *. split; lia.
    - rewrite Forall_forall in Um. apply (Um x). eapply nth_error_In; eauto. }
  rewrite <- Tc in La.
  pose proof (C81_cut_reads E (H ++ [s]) F' t p (length_after H p + j) [d] Se' Fx Me La) as R. cbv zeta in R. rewrite R.
  assert (Wa : firstn (length [d]) (skipn (N.to_nat (length_after H p + j)) (places_after (H ++ [s]) p)) = [q]).
  { unfold places_after. rewrite Lo, map_app, concat_app. pose proof (locs_located (H ++ [s]) p) as Ll.
    rewrite Lo in Ll. apply Forall_app in Ll. destruct Ll as [Ll _].
    pose proof (places_length _ _ Ll) as Pl. rewrite <- St in Pl.
    rewrite skipn_app, skipn_all2 by lia. rewrite Pl. cbn [app map concat]. rewrite app_nil_r.
    replace (N.to_nat (length_after H p + j) - N.to_nat (length_after H p))%nat with (N.to_nat j) by lia.
    unfold loc_places. cbn [nl l_block l_chan l_n]. rewrite Nbk. rewrite skipn_map.
    assert (Sk : skipn (N.to_nat j) (seq 0 (N.to_nat k)) = N.to_nat j :: seq (S (N.to_nat j)) (N.to_nat k - N.to_nat j - 1)).
    { replace (N.to_nat k) with (N.to_nat j + S (N.to_nat k - N.to_nat j - 1))%nat at 1 by lia.
      rewrite seq_app, skipn_app, skipn_all2 by (rewrite seq_length; lia). rewrite seq_length, Nat.sub_diag. reflexivity. }
    rewrite Sk. cbn [map length firstn]. rewrite N2Nat.id. unfold q. f_equal. f_equal.
    - unfold block_of. cbn [b_order]. rewrite Tbig. destruct e; reflexivity.
    - pose proof (uniform_ms H t Fx s n Um) as U.
      rewrite (uniform_addr (block_of H s) n (size_bytes t) i j U) by (change (b_chans (block_of H s)) with (active_formats (H ++ [s])); lia).
      change (b_chans (block_of H s)) with (active_formats (H ++ [s])).
      replace (lenN (active_formats (H ++ [s]))) with (lenN chans) by (unfold lenN; now rewrite Lm).
      unfold block_of. cbn [b_start b_layout]. rewrite Tint. destruct lay; reflexivity. }
  rewrite Wa. eexists. reflexivity.
Qed.
End Append.

(** ** C82 *)
(** On a file that ends before the end of its last segment, no call is served:
    the last sample it wrote cannot be read. *)
Theorem C82_cut_short : forall E e H F t lay k chans vs F' r,
  session E H F -> fixed t -> NoDup chans -> chans <> [] -> 0 < k ->
  sized_now H -> roomy E e H F t lay k chans -> (forall q, length_after H q < 2 ^ 63) ->
  lenN (tf_bytes F) < offset H ->
  values_for t k chans vs -> write_channels_e E e t F chans vs lay = (F', r) ->
  ~ served E H F t lay chans vs F' r.
Proof.
  intros E e H F t lay k chans vs F' r Se Fx Nd Ne Pk Sd Rm Ls Sh Vf Ew Sv.
  destruct (appended E e H F t lay k chans Se Fx Nd Ne Pk Sd Rm Ls vs F' r Vf Ew Sv)
    as [omit [s [bs [n [Se' [Eb [_ [_ [Traw [Tint [Tbig [Snext [_ [Lbs [Act [Pn [Dn [Um [Men _]]]]]]]]]]]]]]]]]]].
  destruct (Rm vs F' r Vf Ew) as [_ [B1 B2]]. rewrite Eb, lenN_app in B1, B2.
  replace (lenN (tf_bytes F) + lenN bs - lenN (tf_bytes F)) with (lenN bs) in B1, B2 by lia.
  assert (Pc : (0 < length chans)%nat) by (destruct chans; [congruence|cbn; lia]).
  destruct (nth_error chans (length chans - 1)) as [p|] eqn:Hi; [|apply nth_error_None in Hi; lia].
  destruct (two_values t Fx) as [v0 _].
  destruct (read_new E e H t lay k chans Fx Nd Ne Pk vs s bs n F' p (length chans - 1)%nat (k - 1) v0
    Vf Se' Traw Tint Tbig Snext Act Pn Dn Um (Men p (nth_error_In _ _ Hi)) Hi ltac:(lia) Lbs B1 B2) as [rest R].
  destruct Sv as [_ [Sin _]]. destruct (Sin _ p Hi) as [_ Rd]. rewrite Rd in R. clear Rd.
  apply (f_equal snd) in R. cbn [snd app forallb] in R.
  assert (Ab : present (tf_bytes F') t
    (e, offset H + 28 + sg_raw s + place lay (lenN chans) n (N.of_nat (length chans - 1)) (k - 1) * size_bytes t) = false).
  { unfold present. cbn [snd]. rewrite Eb, lenN_app, Lbs, Snext. destruct Vf as [_ Lv]. rewrite Lv.
    assert (Pl : place lay (lenN chans) n (N.of_nat (length chans - 1)) (k - 1) + 1 = lenN chans * k).
    { assert (Nc : lenN chans = N.of_nat (length chans - 1) + 1) by (unfold lenN; lia). rewrite Nc. now apply last_place. }
    apply N.leb_gt. clear - Pl Sh. rewrite <- Pl. lia. }
  rewrite Ab in R. discriminate.
Qed.

(** On a file with bytes after its last segment, not every call is served: the
    values written are not the values at the place where they are looked for. *)
Theorem C82_trailing : forall E e H F t lay k chans,
  session E H F -> fixed t -> NoDup chans -> chans <> [] -> 0 < k ->
  sized_now H -> roomy E e H F t lay k chans -> (forall q, length_after H q < 2 ^ 63) ->
  offset H < lenN (tf_bytes F) -> ~ all_served E e H F t lay k chans.
Proof.
  intros E e H F t lay k chans Se Fx Nd Ne Pk Sd Rm Ls Tr As.
  assert (Pc : (0 < length chans)%nat) by (destruct chans; [congruence|cbn; lia]).
  destruct (nth_error chans 0) as [p|] eqn:Hi; [|apply nth_error_None in Hi; lia].
  destruct (natural_size t Fx) as [_ [_ [Pz _]]].
  destruct (first_byte t Fx) as [v0 [v1 [R0 [R1 Fb]]]].
  set (len := N.to_nat (lenN chans * k)).
  assert (V : forall v : carrier t, rust_value t v -> values_for t k chans (repeat v len)).
  { intros v Rv. split; [apply Forall_forall; intros x Hx; apply repeat_spec in Hx; now subst|].
    unfold lenN at 1. rewrite repeat_length. unfold len. lia. }
  assert (X : forall v : carrier t, rust_value t v -> exists omit s (hd data : list byte),
     (omit = true <-> continues (active_after H) chans)
     /\ sg_raw s = (match (if omit then None else Some (call_objs (tf_ix F) (mkRaw (natural t) k None) chans)) with
                    | Some m => metadata_size m | None => 0 end)
     /\ hd = fst (write_segment e (call_toc lay omit)
               (if omit then None else Some (call_objs (tf_ix F) (mkRaw (natural t) k None) chans))
               (Some (mkWB (N.of_nat len * size_bytes t) [])))
     /\ lenN hd = 28 + sg_raw s
     /\ elem e t (slice (tf_bytes F ++ hd ++ data) (offset H + 28 + sg_raw s) (size_bytes t)) = v
     /\ offset H + 28 + sg_raw s + size_bytes t <= lenN (tf_bytes F ++ hd ++ data)).
  { intros v Rv. pose proof (V v Rv) as Vf.
    destruct (write_channels_e E e t F chans (repeat v len) lay) as [F' r] eqn:Ew.
    pose proof (As _ _ _ Vf Ew) as Sv.
    destruct (appended E e H F t lay k chans Se Fx Nd Ne Pk Sd Rm Ls _ F' r Vf Ew Sv)
      as [omit [s [bs [n [Se' [Eb [Ho [Ebs [Traw [Tint [Tbig [Snext [Ebyt [Lbs [Act [Pn [Dn [Um [Men _]]]]]]]]]]]]]]]]]]].
    destruct (Rm _ F' r Vf Ew) as [_ [B1 B2]]. rewrite Eb, lenN_app in B1, B2.
  replace (lenN (tf_bytes F) + lenN bs - lenN (tf_bytes F)) with (lenN bs) in B1, B2 by lia.
    destruct (read_new E e H t lay k chans Fx Nd Ne Pk _ s bs n F' p 0 0 v0
      Vf Se' Traw Tint Tbig Snext Act Pn Dn Um (Men p (nth_error_In _ _ Hi)) Hi ltac:(lia) Lbs B1 B2) as [rest R].
    destruct Sv as [_ [Sin _]]. destruct (Sin _ p Hi) as [_ Rd]. rewrite Rd in R. clear Rd.
    set (hd := fst (write_segment e (call_toc lay omit)
               (if omit then None else Some (call_objs (tf_ix F) (mkRaw (natural t) k None) chans))
               (Some (mkWB (N.of_nat len * size_bytes t) [])))).
    assert (Eh : bs = hd ++ concat (map (enc e t) (repeat v len))).
    { apply (f_equal fst) in Ebs. cbn [fst] in Ebs. rewrite Ebs. unfold hd, write_segment, slice_block.
      cbn [fst wb_bytes wb_size]. unfold lenN. rewrite repeat_length. rewrite app_nil_r, !app_assoc. reflexivity. }
    exists omit, s, hd, (concat (map (enc e t) (repeat v len))).
    split; [exact Ho|]. split; [apply (f_equal snd) in Ebs; cbn [snd] in Ebs; rewrite Ebs; reflexivity|].
    split; [reflexivity|]. split.
    { rewrite Eh, lenN_app, (data_len e t _ Fx) in Lbs. lia. }
    rewrite <- Eh, <- Eb.
    assert (Pl : place lay (lenN chans) n (N.of_nat 0) 0 = 0).
    { unfold place. destruct lay; [lia|]. rewrite N.div_0_l, N.mod_0_l by lia. lia. }
    rewrite Pl, N.mul_0_l, !N.add_0_r in R.
    pose proof (f_equal snd R) as R2. cbn [snd app forallb] in R2.
    destruct (present (tf_bytes F') t (e, offset H + 28 + sg_raw s)) eqn:Pr; [|cbn [andb] in R2; discriminate R2].
    split; [|unfold present in Pr; cbn [snd] in Pr; lia].
    apply (f_equal fst) in R. cbn [fst while] in R. rewrite Pr in R. cbn [while map] in R.
    assert (D0 : nth_error (dealt lay (length chans) 0 (repeat v len)) 0 = Some v).
    { destruct (C48_positions _ (length chans) (N.to_nat k) 0 0 (repeat v len)) as [P1 P2]; [|exact Pc|lia|].
      - rewrite repeat_length. unfold len, lenN. lia.
      - assert (Pl' : (0 < len)%nat) by (unfold len; unfold lenN; lia).
        destruct lay; [rewrite P1|rewrite P2]; cbn [Nat.mul plus]; destruct len; try lia; reflexivity. }
    rewrite skipn_app, skipn_all2 in R by (rewrite <- (C36_samples_count (tf_bytes F) t); unfold lenN; lia).
    replace (N.to_nat (length_after H p) - length (samples_after (tf_bytes F) t H p))%nat with 0%nat in R
      by (rewrite <- (C36_samples_count (tf_bytes F) t); unfold lenN; lia).
    cbn [app skipn] in R.
    destruct (dealt lay (length chans) 0 (repeat v len)) as [|y l]; [discriminate|]. injection D0 as ->.
    cbn [length firstn] in R. unfold overlay in R. cbn [app length skipn] in R. injection R as R. symmetry. exact R. }
  destruct (X v0 R0) as [o0 [s0 [h0 [d0 [O0 [Q0 [H0 [L0 [E0 P0]]]]]]]]].
  destruct (X v1 R1) as [o1 [s1 [h1 [d1 [O1 [Q1 [H1 [L1 [E1 P1]]]]]]]]].
  assert (o1 = o0).
  { destruct o0, o1; try reflexivity; exfalso.
    - assert (true = true) as Z by reflexivity. apply O0 in Z. apply O1 in Z. discriminate.
    - assert (true = true) as Z by reflexivity. apply O1 in Z. apply O0 in Z. discriminate. }
  subst o1. rewrite <- H0 in H1. subst h1. rewrite <- Q0 in Q1. rewrite Q1 in *.
  assert (Sl : forall f pos, pos + size_bytes t <= lenN f -> lenN (slice f pos (size_bytes t)) = size_bytes t).
  { intros f pos Hp. unfold slice, lenN in *. rewrite firstn_length, skipn_length. lia. }
  apply (Fb e _ _ (Sl _ _ P0) (Sl _ _ P1) E0 E1).
  rewrite !hd_slice by exact Pz. rewrite !app_assoc.
  rewrite (nth_error_app1 _ d0), (nth_error_app1 _ d1) by (rewrite app_length; unfold lenN in *; lia). reflexivity.
Qed.

(** Both: calls are served whatever their values only on files that end where
    their last segment ends.  Nothing is assumed about what the file holds. *)
Theorem C82_needs_end : forall E e H F t lay k chans,
  session E H F -> fixed t -> NoDup chans -> chans <> [] -> 0 < k ->
  sized_now H -> roomy E e H F t lay k chans -> (forall q, length_after H q < 2 ^ 63) ->
  all_served E e H F t lay k chans -> exact_end H F.
Proof.
  intros E e H F t lay k chans Se Fx Nd Ne Pk Sd Rm Ls As. unfold exact_end.
  destruct (N.lt_trichotomy (offset H) (lenN (tf_bytes F))) as [Q|[Q|Q]]; [exfalso|exact Q|exfalso].
  - now apply (C82_trailing E e H F t lay k chans).
  - destruct (two_values t Fx) as [v0 [_ [R0 _]]].
    set (vs := repeat v0 (N.to_nat (lenN chans * k))).
    assert (Vf : values_for t k chans vs).
    { split; [apply Forall_forall; intros x Hx; apply repeat_spec in Hx; now subst|].
      unfold vs, lenN at 1. rewrite repeat_length. lia. }
    destruct (write_channels_e E e t F chans vs lay) as [F' r] eqn:Ew.
    apply (C82_cut_short E e H F t lay k chans vs F' r); auto.
Qed.

(** All conditions together. *)
Theorem C82_exactly : forall E e H F t lay k chans,
  session E H F -> fixed t -> NoDup chans -> chans <> [] -> 0 < k ->
  sized_now H -> roomy E e H F t lay k chans -> (forall q, length_after H q < 2 ^ 63) ->
  Forall (stored (tf_bytes F) t H) chans ->
  all_served E e H F t lay k chans <-> exact_end H F /\ described_call H t lay k chans.
Proof.
  intros E e H F t lay k chans Se Fx Nd Ne Pk Sd Rm Ls St.
  assert (Rm' : room E F t k chans).
  { destruct (two_values t Fx) as [v0 [_ [R0 _]]].
    set (vs := repeat v0 (N.to_nat (lenN chans * k))).
    assert (Vf : values_for t k chans vs).
    { split; [apply Forall_forall; intros x Hx; apply repeat_spec in Hx; now subst|].
      unfold vs, lenN at 1. rewrite repeat_length. lia. }
    destruct (write_channels_e E e t F chans vs lay) as [F' r] eqn:Ew.
    destruct (Rm vs F' r Vf Ew) as [[A1 A2] _].
    destruct (val_count t k chans Nd Ne Pk vs Vf) as [Dv _].
    destruct (the_segment E e H F t chans vs lay Se Fx Nd Ne Dv)
      as [omit [s [bs [Est [_ [_ [_ [_ [_ [Snext [_ [Lbs _]]]]]]]]]]]].
    assert (Eb : tf_bytes F' = tf_bytes F ++ bs).
    { unfold write_channels_e in Ew. rewrite Est in Ew. destruct (add_segment E (tf_ix F) s). injection Ew as <- _. reflexivity. }
    destruct Vf as [_ Lv]. rewrite Eb, lenN_app, Lbs, Snext, Lv in A1, A2. split; lia. }
  split.
  - intros As. assert (Ex : exact_end H F) by now apply (C82_needs_end E e H F t lay k chans).
    split; [exact Ex|]. apply (C77_exactly E e H F t lay k chans Se Ex Fx Nd Ne Pk Sd Rm' Ls St).
    intros vs F' r Vf Ew _. now apply As.
  - intros [Ex Ds] vs F' r Vf Ew.
    apply (proj2 (C77_exactly E e H F t lay k chans Se Ex Fx Nd Ne Pk Sd Rm' Ls St) Ds vs F' r Vf Ew).
    now apply (Rm vs F' r Vf Ew).
Qed.

(** ** Concrete files *)
Lemma roomy_bound E e H F t lay k chans : session E H F -> fixed t -> NoDup chans -> chans <> [] -> 0 < k ->
  let x := 28 + metadata_size (call_objs (tf_ix F) (mkRaw (natural t) k None) chans) + lenN chans * k * size_bytes t in
  lenN (tf_bytes F) + x < 2 ^ 63 -> lenN (tf_bytes F) + x <= seek_max E ->
  offset H + x < 2 ^ 63 -> offset H + x <= seek_max E -> roomy E e H F t lay k chans.
Proof.
  intros Se Fx Nd Ne Pk x X1 X2 X3 X4 vs F' r Vf Ew.
  destruct (val_count t k chans Nd Ne Pk vs Vf) as [Dv [Dk _]].
  destruct (the_segment E e H F t chans vs lay Se Fx Nd Ne Dv)
    as [omit [s [bs [Est [_ [Ebs [_ [_ [_ [Snext [_ [Lbs _]]]]]]]]]]]].
  assert (Eb : tf_bytes F' = tf_bytes F ++ bs).
  { unfold write_channels_e in Ew. rewrite Est in Ew. destruct (add_segment E (tf_ix F) s). injection Ew as <- _. reflexivity. }
  assert (Sr : sg_raw s <= metadata_size (call_objs (tf_ix F) (mkRaw (natural t) k None) chans)).
  { unfold call_meta in Ebs. rewrite Dk in Ebs. apply (f_equal snd) in Ebs. cbn [snd] in Ebs. rewrite Ebs. unfold write_segment.
    cbn [snd sg_raw]. destruct omit; lia. }
  destruct Vf as [_ Lv]. unfold addressable. rewrite Eb, lenN_app, Lbs, Snext, Lv. unfold x in *. repeat split; lia.
Qed.
(** The file of C77 with three more bytes, and without its last two. *)
Definition C82_more : list byte := tf_bytes C77_F ++ [x00; x00; x00].
Definition C82_less : list byte := firstn (length (tf_bytes C77_F) - 2) (tf_bytes C77_F).
Example C82_case : forall f, f = tf_bytes C77_F \/ f = C82_more \/ f = C82_less ->
  let H := [C77_s] in let F := open_bytes dbg f in
  session dbg H F /\ fixed SI32 /\ NoDup [a; b] /\ sized_now H
  /\ (forall q, length_after H q < 2 ^ 63)
  /\ roomy dbg LittleE H F SI32 Interleaved 4 [a; b] /\ roomy dbg BigE H F SI32 Contigious 2 [b; a]
  /\ described_call H SI32 Interleaved 4 [a; b] /\ described_call H SI32 Contigious 2 [b; a]
  /\ offset H = lenN (tf_bytes C77_F).
Proof.
  assert (S0 : session dbg [] empty_file).
  { apply (ss_open dbg [] empty_file []); [|vm_compute; reflexivity]. split; [intros [|i] s X; discriminate|left; reflexivity]. }
  intros f Hf H F.
  assert (Se : session dbg H F).
  { apply (ss_open dbg f).
    - split; [|left; destruct Hf as [->|[->| ->]]; vm_compute; reflexivity].
      intros [|i] s X; [|destruct i; discriminate]. injection X as <-.
      destruct Hf as [->|[->| ->]]; (split; [vm_compute; reflexivity|vm_compute; discriminate]).
    - unfold F. destruct Hf as [->|[->| ->]]; vm_compute; reflexivity. }
  assert (Fixed : fixed SI32) by (repeat split; discriminate).
  assert (Nd : NoDup [a; b]) by (repeat constructor; cbn; intuition discriminate).
  assert (Nd' : NoDup [b; a]) by (repeat constructor; cbn; intuition discriminate).
  split; [exact Se|]. split; [exact Fixed|]. split; [exact Nd|]. split; [repeat constructor|]. split.
  { intros q. change (length_after H q) with (((if str_eqb q a then 2 else 0) + ((if str_eqb q b then 2 else 0) + 0)) + 0).
    destruct (str_eqb q a), (str_eqb q b); reflexivity. }
  split.
  { apply roomy_bound; try assumption; try discriminate; try lia; unfold F, H; destruct Hf as [->|[->| ->]]; vm_compute; congruence || reflexivity. }
  split.
  { apply roomy_bound; try assumption; try discriminate; try lia; unfold F, H; destruct Hf as [->|[->| ->]]; vm_compute; congruence || reflexivity. }
  assert (Ac : active_after [C77_s] = [a; b]) by (vm_compute; reflexivity).
  split.
  { right. split; [exact Ac|]. exists 2. split; [split; [reflexivity|]; split; [reflexivity|now left]|].
    repeat constructor; exists I32; (split; [reflexivity|now left]). }
  split; [|vm_compute; reflexivity]. left. unfold H. rewrite Ac. intros [_ [[x X]|[x X]]]; discriminate.
Qed.
Example C82_stored : exists H, session dbg H (open_bytes dbg C82_more) /\ Forall (stored C82_more SI32 H) [a; b]
  /\ lenN (tf_bytes (open_bytes dbg C82_more)) = lenN (tf_bytes C77_F) + 3
  /\ lenN (tf_bytes (open_bytes dbg C82_less)) + 2 = lenN (tf_bytes C77_F)
  /\ values_for SI32 4 [a; b] [11; 12; 13; 14; 15; 16; 17; 18]%Z.
Proof.
  exists [C77_s].
  destruct (C82_case C82_more ltac:(auto)) as [Se _]. split; [exact Se|].
  assert (O1 : tdms_new dbg C82_more = Ok (open_bytes dbg C82_more)) by (vm_compute; reflexivity).
  split.
  { constructor; [|constructor; [|constructor]].
    - apply (session_stored dbg _ _ _ SI32 a [mkLoc 0 0 2] O1 Se); vm_compute; reflexivity.
    - apply (session_stored dbg _ _ _ SI32 b [mkLoc 0 1 2] O1 Se); vm_compute; reflexivity. }
  split; [vm_compute; reflexivity|]. split; [vm_compute; reflexivity|].
  split; [repeat (apply Forall_cons || apply Forall_nil); cbn; unfold in_signed; lia|reflexivity].
Qed.

Print Assumptions C82_cut_short.
Print Assumptions C82_trailing.
Print Assumptions C82_needs_end.
Print Assumptions C82_exactly.
