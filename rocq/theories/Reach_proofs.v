(** * The whole outcome of reading one channel: one block, then all *)
From Verif Require Import Base Lib DataTypes MetaData Maps DataBlock Index RawData ChannelReader TdmsFile
  SpecIndex SpecSession SpecRead SpecUneven SpecSeen SpecLocal SpecCutFile SpecReach Block_proofs Request_proofs Plan_proofs
  Read_proofs Session_proofs Uneven_proofs Seen_proofs Cut_proofs CutFile_proofs.

Section Cut.
Context (E : env) (f : list byte) (t : sty) (e : endian) (M : N).
Hypothesis (Sz : sized t) (M1 : M < 2 ^ 63) (M2 : M <= seek_max E).
Local Notation V := (carrier t).
Local Notation sz := (size_bytes t).
Local Notation av := (av f t).
Local Notation got := (CutFile_proofs.got f t e).
Local Notation fine := (CutFile_proofs.fine f t).
Local Notation got_app := (CutFile_proofs.got_app f t e).
Local Notation fine_app := (CutFile_proofs.fine_app f t).
Local Notation got_fine := (CutFile_proofs.got_fine f t e).

(** An entry of which more samples are to be passed over than it has. *)
Lemma entry_gen n o g room s pos : pos + n * sz <= M ->
  let s' := N.min s n in
  let ps := map (fun k => pos + s' * sz + k * sz) (rng 0 (N.min (N.of_nat room) (n - s'))) in
  read_entry E f t e (mkEntry n (PRead o g room s)) pos
  = (mkEntry n (PRead o (g ++ got ps) (room - length (got ps)) s),
     if fine ps then Ok (Some (N.min (N.of_nat room) (n - s')), pos + n * sz) else eof).
Proof.
  intros H s' ps. pose proof (read_entry_spec E f t e M Sz M1 M2 n o g room s' pos ltac:(lia) H) as X. cbv zeta in X. fold ps in X.
  unfold read_entry in *. cbn [en_plan en_len] in *. replace (N.min s' n) with s' in X by lia. fold s'.
  destruct (if 0 <? s' then _ else _) as [p|r|r|]; cbn [recast] in *.
  - destruct (read_seq _ _ _ _ _ _ _) as [vs r]. injection X as Xv Xs Xr. rewrite Xv, Xs, Xr. reflexivity.
  - injection X as Xv Xs Xr. rewrite <- Xv, <- Xs, <- Xr. reflexivity.
  - injection X as Xv Xs Xr. rewrite <- Xv, <- Xs, <- Xr. reflexivity.
  - injection X as Xv Xs Xr. rewrite <- Xv, <- Xs, <- Xr. reflexivity.
Qed.

Section Single.
Context (pre post : list (entry V)) (n : N) (o : nat).
Hypothesis (S1 : Forall (is_skip t) pre) (S2 : Forall (is_skip t) post) (G1 : Forall (good_entry t) pre) (G2 : Forall (good_entry t) post).
Local Notation one g room s := (single t pre post (mkEntry n (PRead o g room s))).
Local Notation T := (T t pre post n).
Local Notation R := (R t pre post).
Local Notation caddr := (caddr t pre post n).
Local Notation raddr := (raddr t pre post).

Lemma sub_block_gen g room s len pos : pos + T <= M ->
  let s' := N.min s n in
  let ps := map (fun k => pos + total t pre + s' * sz + k * sz) (rng 0 (N.min (N.of_nat room) (n - s'))) in
  read_sub_block E f t e (one g room s) len pos
  = (one (g ++ got ps) (room - length (got ps)) s,
     if fine ps then Ok (N.min (N.of_nat room) (n - s'), pos + T) else eof).
Proof.
  intros H. cbv zeta. unfold single, CutFile_proofs.T in *. revert len pos H G1. revert S1.
  induction pre as [|x l IH]; intros Sp len pos H G; cbn [app read_sub_block].
  - change (total t []) with 0 in *. rewrite N.add_0_r.
    pose proof (entry_gen n o g room s pos ltac:(lia)) as Q. cbv zeta in Q. rewrite Q. clear Q.
    destruct (fine _); [|reflexivity]. rewrite (skip_sub_block E f t e M) by (assumption || lia). do 3 f_equal. lia.
  - apply Forall_cons_iff in Sp. destruct Sp as [Sx Sl]. apply Forall_cons_iff in G. destruct G as [Gx Gl].
    unfold total in *. cbn [fold_right] in *. fold (total t l) (total t post) in *.
    rewrite (skip_entry_spec E f t e M) by (assumption || lia). rewrite IH by (assumption || lia).
    replace (pos + (esz t x + total t l)) with (pos + esz t x + total t l) by lia.
    f_equal. destruct (fine _); [|reflexivity]. do 2 f_equal. lia.
Qed.

Lemma seq_from z k0 : seq z k0 = map (fun j => z + j)%nat (seq 0 k0).
Proof.
  revert z. induction k0 as [|k0 IH]; intros z; [reflexivity|].
  cbn [seq map]. f_equal; [lia|]. rewrite IH, <- seq_shift, map_map. apply map_ext. intros j. lia.
Qed.

Lemma loop_gen step q rm P c : P + c * T <= M ->
  (forall idx g room s, step idx (one g room s)
     = if idx <? q then None else Some (one g room (if idx =? q then rm else 0))) -> T < 2 ^ 64 ->
  forall m idx g room s len, idx + N.of_nat m = c ->
  let ps := firstn room (map (caddr P) (rng (N.max (idx * n) (q * n + N.min rm n)) (c * n))) in
  exists room' s', contig_loop E f t e step m idx (one g room s) len (P + idx * T)
    = (one (g ++ got ps) room' s', if fine ps then Ok (len + lenN ps) else eof).
Proof.
  intros HP St Tb. induction m as [|m IH]; intros idx g room s len Hc ps; cbn [contig_loop].
  - subst ps. rewrite rng_nil by lia. cbn [map]. rewrite firstn_nil. exists room, s. unfold CutFile_proofs.got, CutFile_proofs.fine. cbn [while map forallb].
    rewrite app_nil_r, lenN_nil. do 3 f_equal. lia.
  - rewrite St. assert (Hi : (idx + 1) * T <= c * T) by (apply N.mul_le_mono_r; lia).
    destruct (idx <? q) eqn:Q.
    + assert (Bs : block_size E t (one g room s) = Ok T).
      { unfold block_size. rewrite (block_size_ok E t _ 0); [now rewrite (total_one E t M M1 M2 pre post n o)|now apply good_one|].
        rewrite (total_one E t M M1 M2 pre post n o). lia. }
      rewrite Bs. cbn [bind].
      assert (Sk : seek_rel E (P + idx * T) (as_i64 T) = Ok (P + (idx + 1) * T)).
      { rewrite as_i64_small by lia. rewrite (seek_inside E (pad M) (pad_ok E M M1 M2)); [f_equal; lia|lia|rewrite (pad_len E) by assumption; lia]. }
      rewrite Sk. destruct (IH (idx + 1) g room s len ltac:(lia)) as [r' [s' X]]. cbv zeta in X.
      exists r', s'. rewrite X.
      assert (Mx : N.max ((idx + 1) * n) (q * n + N.min rm n) = N.max (idx * n) (q * n + N.min rm n)).
      { assert ((idx + 1) * n <= q * n) by (apply N.mul_le_mono_r; lia). lia. }
      rewrite Mx. reflexivity.
    + set (sk := if idx =? q then rm else 0). set (sk' := N.min sk n). assert (Hsk : sk' <= n) by lia.
      pose proof (sub_block_gen g room sk 0 (P + idx * T) ltac:(lia)) as X. cbv zeta in X. fold sk' in X. rewrite X. clear X.
      set (p1 := map _ (rng 0 (N.min (N.of_nat room) (n - sk')))).
      assert (Mx : N.max (idx * n) (q * n + N.min rm n) = idx * n + sk').
      { unfold sk', sk. destruct (idx =? q) eqn:Q2; [replace q with idx by lia; lia|].
        assert ((q + 1) * n <= idx * n) by (apply N.mul_le_mono_r; lia). lia. }
      assert (Hcn : (idx + 1) * n <= c * n) by (apply N.mul_le_mono_r; lia).
      assert (Sp : ps = p1 ++ firstn (room - length p1) (map (caddr P) (rng ((idx + 1) * n) (c * n)))).
      { unfold ps. rewrite Mx. rewrite (rng_app (idx * n + sk') ((idx + 1) * n) (c * n)) by lia.
        rewrite map_app, firstn_app, map_length, rng_length.
        assert (P1 : firstn room (map (caddr P) (rng (idx * n + sk') ((idx + 1) * n))) = p1).
        { rewrite firstn_map', rng_firstn. unfold p1, rng. rewrite !map_map.
          replace (N.to_nat (N.min ((idx + 1) * n) (idx * n + sk' + N.of_nat room) - (idx * n + sk')))
            with (N.to_nat (N.min (N.of_nat room) (n - sk') - 0)) by lia.
          change (N.to_nat 0) with 0%nat. set (k0 := N.to_nat (N.min (N.of_nat room) (n - sk') - 0)).
          assert (Hk0 : (k0 <= N.to_nat (n - sk'))%nat) by lia. clearbody k0.
          rewrite (seq_from (N.to_nat (idx * n + sk'))), map_map. apply map_ext_in. intros j Hj. apply in_seq in Hj. unfold CutFile_proofs.caddr.
          replace (N.of_nat (N.to_nat (idx * n + sk') + j)) with (sk' + N.of_nat j + idx * n) by lia.
          assert (0 < n) by lia.
          rewrite N.div_add, N.mod_add by lia. rewrite N.div_small, N.mod_small by lia. lia. }
        rewrite P1. f_equal. f_equal. assert (Lp : length p1 = N.to_nat (N.min (N.of_nat room) (n - sk'))).
        { unfold p1. rewrite map_length, rng_length. lia. }
        rewrite Lp. lia. }
      destruct (fine p1) eqn:F1.
      * pose proof (got_fine p1 F1) as Gl. rewrite Gl.
        replace (P + idx * T + T) with (P + (idx + 1) * T) by lia.
        destruct (IH (idx + 1) (g ++ got p1) (room - length p1)%nat sk (0 + len + N.min (N.of_nat room) (n - sk')) ltac:(lia)) as [r' [s' X]].
        cbv zeta in X.
        assert (Mx2 : N.max ((idx + 1) * n) (q * n + N.min rm n) = (idx + 1) * n).
        { assert (q * n <= idx * n) by (apply N.mul_le_mono_r; lia). lia. }
        rewrite Mx2 in X. exists r', s'. replace (len + N.min (N.of_nat room) (n - sk')) with (0 + len + N.min (N.of_nat room) (n - sk')) by lia.
        rewrite X. rewrite Sp, got_app, fine_app, F1, app_assoc. cbn [andb]. f_equal.
        destruct (fine (firstn (room - length p1) _)); [|reflexivity]. f_equal. rewrite lenN_app.
        assert (Lp : lenN p1 = N.min (N.of_nat room) (n - sk')) by (unfold lenN, p1; rewrite map_length, rng_length; lia).
        rewrite Lp. lia.
      * exists (room - length (got p1))%nat, sk. rewrite Sp, got_app, fine_app, F1. reflexivity.
Qed.

(** A contiguous block whose first channel has [n0] values per chunk. *)
Lemma contig_gen P blen n0 s room : 0 < n0 -> T <> 0 -> T <= M ->
  (exists x r, (forall g room s, pre = [] -> one g room s = mkEntry n (PRead o g room s) :: r) /\ (pre = [] -> n = n0)
      /\ (pre <> [] -> exists l, pre = x :: l /\ en_len x = n0)) ->
  P + blen / T * T <= M ->
  let c := blen / T in
  let ps := firstn room (map (caddr P) (rng (eff n0 s n) (c * n))) in
  (s = 0 -> exists room' s', contig_read_from E f t e P blen (one [] room 0) 0
     = (one (got ps) room' s', if fine ps then Ok (lenN ps) else eof))
  /\ exists room' s', contig_read_skips E f t e P blen (one [] room 0) [s]
     = (one (got ps) room' s', if fine ps then Ok (lenN ps) else eof).
Proof.
  intros Pn Tp Tm Fl HP c ps.
  assert (Sk : seek_to E P = Ok P) by (unfold seek_to; replace (P <=? seek_max E) with true by lia; reflexivity).
  assert (Tb : T < 2 ^ 64) by lia.
  assert (F0 : exists x0 r0, one [] room 0 = x0 :: r0 /\ en_len x0 = n0).
  { destruct Fl as [x [r [A1 [A2 A3]]]]. destruct pre as [|y l] eqn:Ep.
    - eexists _, _. split; [apply A1; reflexivity|]. cbn [en_len]. now apply A2.
    - destruct (A3 ltac:(discriminate)) as [l' [Q L]]. injection Q as -> ->. eexists _, _. split; [reflexivity|exact L]. }
  destruct F0 as [x0 [r0 [E0 L0]]].
  assert (Bs : block_size E t (one [] room 0) = Ok T).
  { unfold block_size. rewrite (block_size_ok E t _ 0); [now rewrite (total_one E t M M1 M2 pre post n o)|now apply good_one|]. rewrite (total_one E t M M1 M2 pre post n o). lia. }
  split.
  - intros ->. unfold contig_read_from. rewrite Sk, Bs. cbn [bind]. unfold udiv.
    replace (T =? 0) with false by lia. cbn [bind]. rewrite E0, L0. rewrite <- E0. replace (n0 =? 0) with false by lia. cbn [bind].
    fold c. rewrite N.mod_0_l, N.div_0_l by lia.
    pose proof (loop_gen (fun idx es => if idx <? 0 then None else if idx =? 0 then Some (set_all_skips 0 es) else Some (set_all_skips 0 es))
      0 0 P c HP) as L.
    assert (St : forall idx g room s, (fun idx es => if idx <? 0 then None else if idx =? 0 then Some (set_all_skips 0 es) else Some (set_all_skips 0 es)) idx (one g room s)
       = if idx <? 0 then None else Some (one g room (if idx =? 0 then 0 else 0))).
    { intros idx g rm s. cbv beta. rewrite (set_skip_one t pre post n o S1 S2). destruct (idx <? 0), (idx =? 0); reflexivity. }
    destruct (L St Tb (N.to_nat c) 0 [] room 0 0 ltac:(lia)) as [r' [s' X]]. cbv zeta in X.
    exists r', s'. replace (P + 0 * T) with P in X by lia. rewrite X.
    assert (Ef : N.max (0 * n) (0 * n + N.min 0 n) = eff n0 0 n) by (unfold eff; rewrite N.div_0_l, N.mod_0_l by lia; lia).
    rewrite Ef. fold ps. reflexivity.
  - unfold contig_read_skips. rewrite Sk, Bs. cbn [bind]. unfold udiv at 1.
    replace (T =? 0) with false by lia. cbn [bind]. rewrite E0, L0. rewrite <- E0. cbn [div_skips]. unfold udiv.
    replace (n0 =? 0) with false by lia. cbn [bind]. fold c.
    match goal with |- context [contig_loop E f t e ?st] => set (step := st) end.
    pose proof (loop_gen step (s / n0) (s mod n0) P c HP) as L.
    assert (St : forall idx g room s1, step idx (one g room s1)
       = if idx <? s / n0 then None else Some (one g room (if idx =? s / n0 then s mod n0 else 0))).
    { intros idx g rm s1. unfold step. cbn [forallb map]. rewrite (zip_skip_one t pre post n o S1 S2). rewrite andb_true_r. unfold skip_for. cbn [fst snd].
      destruct (s / n0 <=? idx) eqn:A, (idx <? s / n0) eqn:B; try lia; reflexivity. }
    destruct (L St Tb (N.to_nat c) 0 [] room 0 0 ltac:(lia)) as [r' [s' X]]. cbv zeta in X.
    exists r', s'. replace (P + 0 * T) with P in X by lia. rewrite X.
    assert (Ef : N.max (0 * n) (s / n0 * n + N.min (s mod n0) n) = eff n0 s n)
      by (unfold eff; generalize (s / n0) (s mod n0); clear; intros; lia).
    rewrite Ef. fold ps. reflexivity.
Qed.

Lemma inter_gen P blen s room : R <= M -> P + N.max (blen / R) s * R <= M ->
  let ps := map (raddr P) (rng s (blen / R)) in
  exists room' s', inter_read E f t e P blen (one [] room s)
    = (one (got (firstn room ps)) room' s',
       if fine (firstn (S room) ps) then Ok (lenN (firstn room ps)) else eof).
Proof.
  intros Rm HP. set (w := blen / R) in *. intros ps. pose proof (size_bytes_pos t) as Hs.
  assert (Rp : 0 < R) by (unfold CutFile_proofs.R; lia).
  assert (Sr : s * R <= N.max w s * R) by (apply N.mul_le_mono_r; lia).
  assert (Wr : w * R <= N.max w s * R) by (apply N.mul_le_mono_r; lia).
  assert (Ws : s <= s * R) by nia.
  unfold inter_read. rewrite (block_skips_one t pre post n o S1 S2). cbn [min_or_0 fold_left].
  unfold seek_to. replace (P <=? seek_max E) with true by lia. cbn [bind].
  rewrite row_size_ok; [|now apply good_one|rewrite (rowtotal_one E t M M1 M2 pre post n o); lia]. rewrite (rowtotal_one E t M M1 M2 pre post n o). cbn [bind]. unfold udiv.
  replace (R =? 0) with false by lia. cbn [bind]. fold w.
  assert (Pos : (if 0 <? s then off <- imul E (as_i64 s) (as_i64 R) ;;
                   pos' <- seek_rel E P off ;; Ok (pos', w) else Ok (P, w)) = Ok (P + s * R, w)).
  { destruct (0 <? s) eqn:S0; [|do 2 f_equal; lia].
    pose proof (seek_prod E (pad M) (pad_ok E M M1 M2) P s R) as Q. rewrite (pad_len E) in Q by assumption. specialize (Q ltac:(lia) ltac:(lia) ltac:(lia)).
    destruct (imul E (as_i64 s) (as_i64 R)); cbn [bind] in *; try discriminate. rewrite Q. reflexivity. }
  rewrite Pos.
  assert (Em : forall l, Forall (is_skip t) l -> map (fun x : entry V => match en_plan x with
      | PSkip _ => x | PRead o g r s0 => mkEntry (en_len x) (PRead o g r (s0 - s)) end) l = l).
  { induction 1 as [|x es [b Q] F IH]; [reflexivity|]. cbn [map]. now rewrite Q, IH. }
  unfold single at 1. rewrite map_app. cbn [map en_plan en_len]. rewrite !Em by assumption. rewrite N.sub_diag.
  destruct (N.le_gt_cases s w) as [Le|Gt].
  - destruct (rows_one E f t e M Sz M1 M2 pre post n o S1 S2 G1 G2 P (N.to_nat (w - s)) 0 s [] room 0) as [r' X].
    { replace (s + N.of_nat (N.to_nat (w - s))) with w by lia. lia. }
    cbv zeta in X. replace (s + N.of_nat (N.to_nat (w - s))) with w in X by lia. fold ps in X.
    exists r', 0. unfold single in X |- *. rewrite X. reflexivity.
  - replace (N.to_nat (w - s)) with 0%nat by lia. cbn [inter_rows]. subst ps. rewrite rng_nil by lia. cbn [map]. rewrite !firstn_nil.
    exists room, 0. reflexivity.
Qed.
End Single.
End Cut.

Lemma firstn_skipn_nth {A} (l : list A) : forall i x, nth_error l i = Some x -> l = firstn i l ++ x :: skipn (S i) l.
Proof.
  induction l as [|y l IH]; intros i x H; [destruct i; discriminate|].
  destruct i as [|i]; [cbn [nth_error] in H; injection H as ->; reflexivity|].
  rewrite firstn_cons. cbn [app]. f_equal. apply (IH i x H).
Qed.

Lemma in_chunk_app a b : in_chunk (a ++ b) = in_chunk a + in_chunk b.
Proof. unfold in_chunk. induction a as [|x a IH]; cbn [app fold_right]; [lia|]. rewrite IH. lia. Qed.
Lemma in_row_app a b : in_row (a ++ b) = in_row a + in_row b.
Proof. unfold in_row. induction a as [|x a IH]; cbn [app fold_right]; [lia|]. rewrite IH. lia. Qed.

Section Block.
Context (E : env) (f : list byte) (t : sty).
Hypothesis (Sz : sized t).
Local Notation V := (carrier t).
Local Notation sz := (size_bytes t).

Definition addrs (b : dblock) (i : nat) (s : N) : list N :=
  let ws := seen_widths t i (b_chans b) in map (addr_with b ws i) (rng (passed_over b i s) (count_with b ws i)).
Lemma rng_skipn' a b : skipn (N.to_nat a) (rng 0 b) = rng a b.
Proof. rewrite rng_skipn. now rewrite N2Nat.id. Qed.
Lemma sought_addrs b i s : sought_in t b i s = map (pair (b_order b)) (addrs b i s).
Proof.
  unfold sought_in, addrs. cbv zeta. set (ws := seen_widths t i (b_chans b)).
  rewrite <- (rng_skipn' (passed_over b i s) (count_with b ws i)).
  rewrite <- !skipn_map. f_equal. unfold rng. rewrite N.sub_0_r, !map_map. reflexivity.
Qed.

Definition looked (b : dblock) (i : nat) (room : nat) (s : N) : list N :=
  firstn (match b_layout b with Interleaved => S room | Contigious => room end) (addrs b i s).

Lemma block_reach b i m room s : reach_block E t b i m -> s < rm_n m * whole_chunks b ->
  let ps := firstn room (addrs b i s) in
  let out := ([CutFile_proofs.got f t (b_order b) ps], if CutFile_proofs.fine f t (looked b i room s) then Ok (lenN ps) else eof) in
  (s = 0 -> block_read E f t b [mkReq i room s] = out) /\ block_read_skips E f t b [mkReq i room s] = out.
Proof.
  intros [Hi [Ht [Hw Rb]]] Hs ps out.
  set (ws := seen_widths t i (b_chans b)) in *.
  set (M := N.min (2 ^ 63 - 1) (seek_max E)) in *.
  assert (M1 : M < 2 ^ 63) by lia. assert (M2 : M <= seek_max E) by lia.
  set (pre := base_record (firstn i (b_chans b)) : list (entry V)).
  set (post := base_record (skipn (S i) (b_chans b)) : list (entry V)).
  pose proof (firstn_skipn_nth _ _ _ Hi) as Spl.
  assert (Hf : Forall (fun m => 0 < reckoned (rm_type m)) (firstn i (b_chans b))
     /\ Forall (fun m => 0 < reckoned (rm_type m)) (skipn (S i) (b_chans b))).
  { pose proof Hw as B. rewrite Spl in B. apply Forall_app in B. destruct B as [B1 B2]. apply Forall_cons_iff in B2. tauto. }
  destruct Hf as [Hw1 Hw2].
  pose proof (base_rel2 t _ Hw1) as R1. pose proof (base_rel2 t _ Hw2) as R2. fold pre in R1. fold post in R2.
  pose proof (base_skips t (firstn i (b_chans b))) as S1. pose proof (base_skips t (skipn (S i) (b_chans b))) as S2.
  fold pre in S1. fold post in S2.
  pose proof (rel2_good t _ _ R1) as G1. pose proof (rel2_good t _ _ R2) as G2.
  assert (Ws : ws = map plain (firstn i (b_chans b)) ++ [(rm_n m, own_width t)] ++ map plain (skipn (S i) (b_chans b))).
  { unfold ws, seen_widths. rewrite Hi, firstn_map', skipn_map. reflexivity. }
  assert (Fw : firstn i ws = map plain (firstn i (b_chans b))).
  { unfold ws. rewrite (seen_firstn t i _ m Hi). apply firstn_map'. }
  assert (Nth : nth_error ws i = Some (rm_n m, own_width t)) by (now apply seen_nth).
  assert (Tt : T t pre post (rm_n m) = in_chunk ws).
  { unfold T. rewrite (rel2_total t _ _ R1), (rel2_total t _ _ R2), Ws, (own_size t Sz), !in_chunk_app.
    change (in_chunk [(rm_n m, own_width t)]) with (rm_n m * own_width t + 0). lia. }
  assert (Rt : R t pre post = in_row ws).
  { unfold R. rewrite (rel2_row t _ _ R1), (rel2_row t _ _ R2), Ws, (own_size t Sz), !in_row_app.
    change (in_row [(rm_n m, own_width t)]) with (own_width t + 0). lia. }
  assert (Bp : build_record_plan t (b_chans b) [mkReq i room s] = Ok (single t pre post (mkEntry (rm_n m) (PRead 0 [] room 0)))).
  { unfold build_record_plan. rewrite (validate_ok t); [|repeat constructor; exists m; split; [assumption|now apply stored_as_supports]].
    cbn [bind set_readable rq_chan rq_room]. rewrite (CutFile_proofs.set_plan_split t _ _ _ _ Hi). reflexivity. }
  unfold block_read, block_read_skips. rewrite Bp. cbn [map rq_skip]. unfold outputs. cbn [length seq map].
  destruct (b_layout b) eqn:Lay.
  - destruct Rb as [Rm Rc].
    assert (Ea : forall k, raddr t pre post (b_start b) k = addr_with b ws i k).
    { intros k. unfold raddr, addr_with. rewrite Lay, Rt, Fw, (rel2_row t _ _ R1). reflexivity. }
    rewrite (zip_skip_one t pre post (rm_n m) 0%nat S1 S2).
    assert (Sm : s * in_row ws <= rm_n m * whole_chunks b * in_row ws) by (apply N.mul_le_mono_r; lia).
    destruct (inter_gen E f t (b_order b) M Sz M1 M2 pre post (rm_n m) 0%nat S1 S2 G1 G2 (b_start b) (b_len b) s room) as [r' [s' X]];
      [rewrite Rt; exact Rm| |].
    { rewrite Rt. assert (N.max (b_len b / in_row ws) s * in_row ws
         <= N.max (b_len b / in_row ws) (rm_n m * whole_chunks b) * in_row ws) by (apply N.mul_le_mono_r; lia). lia. }
    cbv zeta in X. rewrite Rt in X.
    assert (Em : map (raddr t pre post (b_start b)) (rng s (b_len b / in_row ws)) = addrs b i s).
    { unfold addrs, passed_over, count_with. fold ws. rewrite Lay, Nth. apply map_ext. exact Ea. }
    rewrite Em in X. fold ps in X.
    assert (F1 : firstn (S room) (addrs b i s) = looked b i room s) by (unfold looked; now rewrite Lay).
    rewrite F1 in X. split.
    + intros ->. rewrite X, (harvest_one t pre post (rm_n m) 0%nat S1). reflexivity.
    + rewrite X, (harvest_one t pre post (rm_n m) 0%nat S1). reflexivity.
  - destruct Rb as [Tm [Rc [m0 [ms [Eb Pm]]]]].
    assert (Ea : forall k, caddr t pre post (rm_n m) (b_start b) k = addr_with b ws i k).
    { intros k. unfold caddr, addr_with. rewrite Lay, Nth, Tt, Fw, (rel2_total t _ _ R1), (own_size t Sz). reflexivity. }
    assert (Tn : in_chunk ws <> 0).
    { pose proof (size_bytes_pos t) as Hz. rewrite (own_size t Sz) in Hz. rewrite Ws. rewrite Eb in Hi, Hw |- *. apply Forall_cons_iff in Hw. destruct Hw as [Hw0 _].
      destruct i as [|i]; cbn [nth_error firstn map app] in *.
      - injection Hi as ->. unfold in_chunk. cbn [fold_right fst snd]. nia.
      - unfold in_chunk, plain at 1. cbn [fold_right fst snd]. nia. }
    destruct (contig_gen E f t (b_order b) M Sz M1 M2 pre post (rm_n m) 0%nat S1 S2 G1 G2 (b_start b) (b_len b) (rm_n m0) s room Pm) as [X1 [r2 [s2 X2]]];
      [now rewrite Tt|rewrite Tt; lia| |rewrite Tt; exact Rc|].
    { exists (mkEntry (rm_n m0) (PSkip (as_i64 (dtype_size (rm_type m0))))), post. split; [intros g rm z ->; reflexivity|].
      unfold pre. rewrite Eb in Hi |- *. destruct i as [|i]; cbn [nth_error firstn base_record map] in *.
      - injection Hi as ->. split; [reflexivity|congruence].
      - split; [discriminate|]. intros _. eexists. split; reflexivity. }
    rewrite Tt in X1, X2.
    assert (Em : map (caddr t pre post (rm_n m) (b_start b)) (rng (eff (rm_n m0) s (rm_n m)) (b_len b / in_chunk ws * rm_n m)) = addrs b i s).
    { unfold addrs, passed_over, count_with. fold ws. rewrite Lay, Nth, Eb, <- Eb, Hi. unfold eff.
      rewrite (N.mul_comm (b_len b / in_chunk ws)). apply map_ext. exact Ea. }
    rewrite Em in X1, X2. fold ps in X1, X2.
    assert (F1 : CutFile_proofs.fine f t ps = CutFile_proofs.fine f t (looked b i room s)) by (unfold looked; now rewrite Lay).
    rewrite F1 in X1, X2. split.
    + intros Z. destruct (X1 Z) as [r1 [s1 Y]]. rewrite Y, (harvest_one t pre post (rm_n m) 0%nat S1). reflexivity.
    + rewrite X2, (harvest_one t pre post (rm_n m) 0%nat S1). reflexivity.
Qed.
End Block.

Section Exec.
Context (E : env) (f : list byte) (t : sty) (ix : index).
Hypothesis (Sz : sized t).
Local Notation V := (carrier t).
Local Notation bs := (ix_blocks ix).

Lemma got_at e ps : CutFile_proofs.got f t e ps = map (value_at f t) (while (present f t) (map (pair e) ps)).
Proof. unfold CutFile_proofs.got. rewrite while_map, map_map. reflexivity. Qed.
Lemma fine_at e ps : CutFile_proofs.fine f t ps = forallb (present f t) (map (pair e) ps).
Proof. unfold CutFile_proofs.fine. rewrite forallb_map. reflexivity. Qed.

Definition reach_plan (plan : list blockread) : Prop :=
  Forall (fun br => exists b ci s m, br_chans br = [Some (ci, s)] /\ nth_error bs (br_block br) = Some b
     /\ reach_block E t b ci m /\ s < rm_n m * whole_chunks b) plan.

Lemma execute_reach : forall plan pr (o : list V), reach_plan plan ->
  pr_target pr = lenN o -> pr_read pr < lenN o ->
  let n := N.to_nat (pr_target pr - pr_read pr) in
  let nd := SpecRead.planned 0 plan in
  let want := firstn n (concat (map (sought_at t bs) nd)) in
  execute E f t ix plan [pr] [o]
  = ([splice o (pr_read pr) (map (value_at f t) (while (present f t) want))],
     if forallb (present f t) (want ++ peeked t bs nd n) then Ok tt else Err (EIo UnexpectedEof)).
Proof.
  induction plan as [|br plan IH]; intros pr o Lp Tg Rd n nd want.
  - subst want nd. cbn [SpecRead.planned flat_map map concat peeked execute]. rewrite firstn_nil. cbn [while map app forallb].
    now rewrite splice_nil.
  - inversion Lp as [|y l [b [ci [s [m [Ec [Hb [Lb Hle]]]]]]] Lp']; subst y l.
    assert (End : nd = (br_block br, ci, s) :: SpecRead.planned 0 plan).
    { unfold nd, SpecRead.planned. cbn [flat_map]. rewrite Ec. reflexivity. }
    subst want. rewrite End. cbn [map concat peeked sought_at]. rewrite Hb.
    cbn [execute]. unfold get_data_block. rewrite Hb, Ec. cbn [block_requests any_skip existsb store advance].
    assert (Cp : complete pr = false) by (unfold complete; lia). rewrite Cp. fold n.
    destruct (block_reach E f t Sz b ci m n s Lb Hle) as [A B].
    set (ps := firstn n (addrs t b ci s)) in *. set (fe := looked t b ci n s) in *.
    assert (Rr : (if (0 <? s) || false then block_read_skips E f t b [mkReq ci n s] else block_read E f t b [mkReq ci n s])
                 = ([CutFile_proofs.got f t (b_order b) ps], if CutFile_proofs.fine f t fe then Ok (lenN ps) else eof)).
    { destruct (0 <? s) eqn:S0; cbn [orb]; [exact B|apply A; lia]. }
    rewrite Rr. clear A B Rr. cbn [store advance forallb]. rewrite ?Cp. rewrite got_at.
    rewrite sought_addrs. set (q := map (pair (b_order b)) (addrs t b ci s)).
    assert (Lq : length q = length (addrs t b ci s)) by (unfold q; now rewrite map_length).
    set (w1 := map (pair (b_order b)) ps).
    assert (W1 : w1 = firstn n q) by (unfold w1, ps, q; now rewrite firstn_map').
    assert (Lp1 : lenN ps = N.min (N.of_nat n) (lenN q)) by (unfold lenN, ps; rewrite firstn_length; lia).
    rewrite firstn_app, <- W1.
    destruct (Nat.leb n (length q)) eqn:Q2.
    + apply Nat.leb_le in Q2. replace (n - length q)%nat with 0%nat by lia. rewrite firstn_O, app_nil_r.
      set (bh := match b_layout b with Interleaved => firstn 1 (skipn n q) | Contigious => [] end).
      assert (Fe : map (pair (b_order b)) fe = w1 ++ bh).
      { unfold fe, looked, bh. rewrite <- firstn_map'. fold q. rewrite W1. destruct (b_layout b); [|now rewrite app_nil_r].
        rewrite <- (firstn_skipn n q) at 1. rewrite firstn_app, firstn_length. rewrite firstn_firstn.
        replace (S n - Nat.min n (length q))%nat with 1%nat by lia. replace (Nat.min (S n) n) with n by lia. reflexivity. }
      rewrite (fine_at (b_order b) fe), Fe. destruct (forallb (present f t) (w1 ++ bh)); [|reflexivity].
      replace (complete (mkPr (pr_read pr + lenN ps) (pr_target pr))) with true
        by (unfold complete; cbn [pr_read pr_target]; unfold n, lenN in *; lia). reflexivity.
    + apply Nat.leb_gt in Q2.
      assert (Fe : fe = ps).
      { unfold fe, looked, ps. destruct (b_layout b); [|reflexivity]. rewrite !firstn_all2; [reflexivity| |]; lia. }
      rewrite Fe, (fine_at (b_order b) ps). fold w1.
      rewrite while_app, <- app_assoc, forallb_app. destruct (forallb (present f t) w1) eqn:F1; [|reflexivity]. cbn [andb].
      replace (complete (mkPr (pr_read pr + lenN ps) (pr_target pr))) with false
        by (unfold complete; cbn [pr_read pr_target]; unfold n, lenN in *; lia).
      cbn [andb]. rewrite (while_all _ w1 F1). set (v1 := map (value_at f t) w1).
      assert (Lv : lenN v1 = lenN ps) by (unfold lenN, v1, w1; now rewrite !map_length).
      assert (Fit : pr_read pr + lenN v1 <= lenN o) by (unfold n, lenN in *; lia).
      pose proof (splice_len _ _ _ _ Fit) as Sl.
      assert (Sn : lenN (splice o (pr_read pr) v1) = lenN o) by (unfold lenN; now rewrite Sl).
      rewrite IH; [|exact Lp'|cbn [pr_target]; congruence|cbn [pr_read]; rewrite Sn; unfold n, lenN in *; lia].
      cbn [pr_read pr_target].
      replace (N.to_nat (pr_target pr - (pr_read pr + lenN ps))) with (n - length q)%nat by (unfold n, lenN in *; lia).
      rewrite <- Lv, splice_splice by exact Fit. rewrite map_app. fold v1. reflexivity.
Qed.
End Exec.
