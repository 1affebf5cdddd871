(** * Reading one channel of a file whose data may end early *)
From Verif Require Import Base Lib DataTypes MetaData Maps DataBlock Index RawData ChannelReader TdmsFile
  SpecIndex SpecSession SpecRead SpecLocal SpecCutFile Block_proofs Request_proofs Plan_proofs Read_proofs Session_proofs
  Cut_proofs.

Lemma while_app {A} (P : A -> bool) l m :
  while P (l ++ m) = if forallb P l then l ++ while P m else while P l.
Proof.
  induction l as [|x l IH]; [reflexivity|]. cbn [app while forallb]. destruct (P x); [|reflexivity].
  cbn [andb]. rewrite IH. now destruct (forallb P l).
Qed.
Lemma while_all {A} (P : A -> bool) l : forallb P l = true -> while P l = l.
Proof. induction l as [|x l IH]; [reflexivity|]. cbn. destruct (P x); [|discriminate]. intros H. f_equal. auto. Qed.
Lemma while_le {A} (P : A -> bool) l : (length (while P l) <= length l)%nat.
Proof. induction l as [|x l IH]; cbn [while length]; [lia|]. destruct (P x); cbn [length]; lia. Qed.
Lemma while_map {A B} (g : A -> B) (P : B -> bool) l : while P (map g l) = map g (while (fun x => P (g x)) l).
Proof. induction l as [|x l IH]; [reflexivity|]. cbn [map while]. destruct (P (g x)); [cbn [map]; now rewrite IH|reflexivity]. Qed.
Lemma firstn_map' {A B} (g : A -> B) l : forall n, firstn n (map g l) = map g (firstn n l).
Proof. induction l as [|x l IH]; intros [|n]; [reflexivity..|]. cbn [map firstn]. now rewrite IH. Qed.
Lemma forallb_map {A B} (g : A -> B) (P : B -> bool) l : forallb P (map g l) = forallb (fun x => P (g x)) l.
Proof. induction l as [|x l IH]; [reflexivity|]. cbn [map forallb]. now rewrite IH. Qed.

(** Numbers from [a] up to but not including [b]. *)
Definition rng (a b : N) : list N := map N.of_nat (seq (N.to_nat a) (N.to_nat (b - a))).
Lemma rng_app a m b : a <= m -> m <= b -> rng a b = rng a m ++ rng m b.
Proof.
  intros H1 H2. unfold rng. rewrite <- map_app. f_equal.
  replace (N.to_nat (b - a)) with (N.to_nat (m - a) + N.to_nat (b - m))%nat by lia.
  rewrite seq_app. do 2 f_equal. lia.
Qed.
Lemma rng_nil a b : b <= a -> rng a b = [].
Proof. intros H. unfold rng. replace (N.to_nat (b - a)) with 0%nat by lia. reflexivity. Qed.
Lemma rng_cons a b : a < b -> rng a b = a :: rng (a + 1) b.
Proof.
  intros H. unfold rng. replace (N.to_nat (b - a)) with (S (N.to_nat (b - (a + 1)))) by lia.
  cbn [seq map]. rewrite N2Nat.id. do 3 f_equal. lia.
Qed.
Lemma rng_length a b : length (rng a b) = N.to_nat (b - a).
Proof. unfold rng. now rewrite map_length, seq_length. Qed.
Lemma rng_firstn k a b : firstn k (rng a b) = rng a (N.min b (a + N.of_nat k)).
Proof.
  unfold rng. rewrite firstn_map'. f_equal. generalize (N.to_nat a) as x. intros x.
  destruct (Nat.le_gt_cases k (N.to_nat (b - a))) as [L|L].
  - replace (N.to_nat (b - a)) with (k + (N.to_nat (b - a) - k))%nat by lia. rewrite seq_app, firstn_app, seq_length, Nat.sub_diag.
    cbn [firstn]. rewrite app_nil_r. rewrite firstn_all2 by (rewrite seq_length; lia). f_equal. lia.
  - rewrite firstn_all2 by (rewrite seq_length; lia). f_equal. lia.
Qed.
Lemma rng_skipn k b : skipn k (rng 0 b) = rng (N.of_nat k) b.
Proof.
  destruct (N.le_gt_cases (N.of_nat k) b) as [L|L].
  - rewrite (rng_app 0 (N.of_nat k) b) by lia. rewrite skipn_app, rng_length.
    rewrite skipn_all2 by (rewrite rng_length; lia). replace (k - N.to_nat (N.of_nat k - 0))%nat with 0%nat by lia. reflexivity.
  - rewrite (rng_nil (N.of_nat k)) by lia. rewrite skipn_all2; [reflexivity|]. rewrite rng_length. lia.
Qed.

Section Cut.
Context (E : env) (f : list byte) (t : sty) (e : endian) (M : N).
Hypothesis (Fx : sized t) (M1 : M < 2 ^ 63) (M2 : M <= seek_max E).
Local Notation V := (carrier t).
Local Notation sz := (size_bytes t).
Local Notation at_ := (at_ f t e).

(** Movements do not look at the file; any file of [M] bytes shows that they
    succeed. *)
Definition pad : list byte := repeat x00 (N.to_nat M).
Lemma pad_len : lenN pad = M.
Proof. unfold pad, lenN. rewrite repeat_length. lia. Qed.
Lemma pad_ok : addressable E pad.
Proof. unfold addressable. rewrite pad_len. auto. Qed.

Definition av (pos : N) : bool := pos + sz <=? lenN f.
Definition eof {A} : res A := Err (EIo UnexpectedEof).

Lemma read_exact_short n pos : lenN f < pos + n -> 0 < n -> read_exact n (dropN pos f) = Err (EIo UnexpectedEof).
Proof. intros H P. unfold read_exact. rewrite lenN_dropN. replace (n <=? lenN f - pos) with false by lia. reflexivity. Qed.
Lemma dec_uint_short w pos : (0 < w)%nat -> lenN f < pos + N.of_nat w -> dec_uint e w (dropN pos f) = Err (EIo UnexpectedEof).
Proof. intros P H. unfold dec_uint. now rewrite read_exact_short by lia. Qed.
Lemma dec_complex_short w pos : (0 < w)%nat -> lenN f < pos + 2 * N.of_nat w -> dec_complex e w (dropN pos f) = Err (EIo UnexpectedEof).
Proof.
  intros P H. unfold dec_complex. destruct (N.le_gt_cases (pos + N.of_nat w) (lenN f)) as [L|L].
  - rewrite dec_uint_slice by exact L. cbn [bind]. now rewrite dec_uint_short by lia.
  - now rewrite dec_uint_short.
Qed.
Lemma read_at_spec pos : read_at E f t e pos = if av pos then Ok (at_ pos, pos + sz) else eof.
Proof.
  unfold av. destruct (pos + sz <=? lenN f) eqn:A; [apply read_at_ok; [exact Fx|lia]|].
  unfold read_at, eof. destruct Fx as [X1 X2].
  destruct t; try (exfalso; congruence); cbn [dec size_bytes] in *.
  1-4: unfold dec_sint; rewrite dec_uint_short by (cbn; lia); reflexivity.
  1-6: rewrite dec_uint_short by (cbn; lia); reflexivity.
  - unfold dec_bool. now rewrite read_exact_short by lia.
  - now rewrite (dec_complex_short 4) by (cbn; lia).
  - now rewrite (dec_complex_short 8) by (cbn; lia).
  - now rewrite dec_uint_short by (cbn; lia).
Qed.

(** What is read of the samples at the addresses [ps]. *)
Definition got (ps : list N) : list V := map at_ (while av ps).
Definition fine (ps : list N) : bool := forallb av ps.
Lemma got_app p q : got (p ++ q) = if fine p then got p ++ got q else got p.
Proof.
  unfold got, fine. rewrite while_app. destruct (forallb av p) eqn:A; [|reflexivity].
  now rewrite map_app, (while_all av p A).
Qed.
Lemma got_fine p : fine p = true -> length (got p) = length p.
Proof. intros H. unfold got. now rewrite (while_all av p H), map_length. Qed.
Lemma fine_app p q : fine (p ++ q) = fine p && fine q.
Proof. apply forallb_app. Qed.

Lemma read_vals_spec n : forall pos,
  read_vals E f t e n pos =
  (got (map (fun k => pos + k * sz) (rng 0 (N.of_nat n))),
   if fine (map (fun k => pos + k * sz) (rng 0 (N.of_nat n))) then Ok (pos + N.of_nat n * sz) else eof).
Proof.
  induction n as [|n IH]; intros pos; cbn [read_vals].
  - rewrite rng_nil by lia. cbn [map]. unfold got, fine. cbn [while map forallb]. do 2 f_equal. lia.
  - rewrite read_at_spec. rewrite rng_cons by lia. cbn [map].
    assert (Sh : map (fun k => pos + k * sz) (rng (0 + 1) (N.of_nat (S n))) = map (fun k => pos + sz + k * sz) (rng 0 (N.of_nat n))).
    { unfold rng. replace (N.to_nat (0 + 1)) with 1%nat by lia. replace (N.to_nat (N.of_nat (S n) - (0 + 1))) with n by lia.
      replace (N.to_nat (N.of_nat n - 0)) with n by lia. change (N.to_nat 0) with 0%nat.
      rewrite <- seq_shift, !map_map. apply map_ext. intros k. lia. }
    rewrite Sh. unfold got, fine. cbn [while map forallb]. replace (pos + 0 * sz) with pos by lia.
    destruct (av pos) eqn:A; [|reflexivity]. cbn [map andb]. rewrite IH. f_equal.
    unfold fine. destruct (forallb av _); [|reflexivity]. f_equal. lia.
Qed.

Lemma read_seq_spec room samples pos : pos + samples * sz <= M ->
  let ps := map (fun k => pos + k * sz) (rng 0 (N.min (N.of_nat room) samples)) in
  read_seq E f t e room samples pos
  = (got ps, if fine ps then Ok (N.min (N.of_nat room) samples, pos + samples * sz) else eof).
Proof.
  intros H ps. unfold read_seq. pose proof (size_bytes_pos t) as Hs.
  set (k := N.min (N.of_nat room) samples) in *.
  assert (Hk : k <= samples) by lia.
  assert (Hks : k * sz <= samples * sz) by (apply N.mul_le_mono_r; exact Hk).
  rewrite read_vals_spec. rewrite N2Nat.id. fold ps. f_equal. destruct (fine ps); [|reflexivity]. cbn [bind].
  destruct (0 <? samples - k) eqn:U.
  - assert (B : (samples - k) * sz = samples * sz - k * sz) by apply N.mul_sub_distr_r.
    assert (P : (samples - k) <= (samples - k) * sz) by nia.
    pose proof (seek_prod E pad pad_ok (pos + k * sz) (samples - k) sz) as Q. rewrite pad_len in Q.
    assert (Q' := Q ltac:(lia) ltac:(lia) ltac:(lia)). clear Q.
    destruct (imul E (as_i64 (samples - k)) (as_i64 sz)); cbn [bind] in *; try discriminate.
    rewrite Q'. cbn [bind]. do 2 f_equal. lia.
  - do 2 f_equal. replace k with samples by lia. reflexivity.
Qed.

(** One entry that is read, and one that is not. *)
Lemma read_entry_spec n o g room s pos : s <= n -> pos + n * sz <= M ->
  let ps := map (fun k => pos + s * sz + k * sz) (rng 0 (N.min (N.of_nat room) (n - s))) in
  read_entry E f t e (mkEntry n (PRead o g room s)) pos
  = (mkEntry n (PRead o (g ++ got ps) (room - length (got ps)) s),
     if fine ps then Ok (Some (N.min (N.of_nat room) (n - s)), pos + n * sz) else eof).
Proof.
  intros L H ps. unfold read_entry. cbn [en_plan en_len]. pose proof (size_bytes_pos t) as Hs.
  replace (N.min s n) with s by lia.
  assert (Hm : s * sz <= n * sz) by (apply N.mul_le_mono_r; exact L).
  assert (Hm2 : (n - s) * sz = n * sz - s * sz) by apply N.mul_sub_distr_r.
  assert (Sk : (if 0 <? s then off <- imul E (as_i64 s) (as_i64 sz) ;; seek_rel E pos off else Ok pos) = Ok (pos + s * sz)).
  { destruct (0 <? s) eqn:K; [|do 2 f_equal; lia].
    assert (P1 : s <= s * sz) by nia. apply (seek_prod E pad pad_ok); rewrite ?pad_len; lia. }
  rewrite Sk. pose proof (read_seq_spec room (n - s) (pos + s * sz) ltac:(lia)) as R. cbv zeta in R. rewrite R. clear R.
  fold ps. f_equal. destruct (fine ps); [|reflexivity]. cbn [bind]. do 2 f_equal. lia.
Qed.
Definition is_skip (x : entry V) : Prop := exists b, en_plan x = PSkip b.
Lemma skip_entry_spec x pos : is_skip x -> good_entry t x -> pos + esz t x <= M ->
  read_entry E f t e x pos = (x, Ok (None, pos + esz t x)).
Proof.
  intros [b P] G H. unfold read_entry, esz, wd, good_entry in *. rewrite P in *. f_equal.
  assert (Hl : en_len x <= en_len x * Z.to_N b) by nia.
  pose proof (seek_prod E pad pad_ok pos (Z.to_N b) (en_len x)) as Q. rewrite pad_len in Q.
  rewrite <- (as_i64_id b) in Q by lia.
  assert (Q' := Q ltac:(lia) ltac:(lia) ltac:(lia)). clear Q.
  destruct (imul E b (as_i64 (en_len x))); cbn [bind] in *; try discriminate.
  rewrite Q'. cbn [bind]. do 2 f_equal. lia.
Qed.

(** A sub-block with only entries that are not read. *)
Lemma skip_sub_block es : forall len pos, Forall is_skip es -> Forall (good_entry t) es -> pos + total t es <= M ->
  read_sub_block E f t e es len pos = (es, Ok (len, pos + total t es)).
Proof.
  induction es as [|x es IH]; intros len pos S G H; cbn [read_sub_block].
  - do 2 f_equal. unfold total. cbn [fold_right]. f_equal. lia.
  - apply Forall_cons_iff in S. apply Forall_cons_iff in G. destruct S as [S1 S], G as [G1 G].
    unfold total in *. cbn [fold_right] in *. fold (total t es) in *.
    rewrite skip_entry_spec by (assumption || lia). rewrite IH by (assumption || lia). do 3 f_equal. lia.
Qed.

(** The entries of a block of which one channel is read. *)
Definition single (pre post : list (entry V)) (x : entry V) : list (entry V) := pre ++ x :: post.
Lemma total_app a b : total t (a ++ b) = total t a + total t b.
Proof. unfold total. induction a as [|x a IH]; [reflexivity|]. cbn [app fold_right]. rewrite IH. lia. Qed.
Lemma rowtotal_app a b : rowtotal t (a ++ b) = rowtotal t a + rowtotal t b.
Proof. unfold rowtotal. induction a as [|x a IH]; [reflexivity|]. cbn [app fold_right]. rewrite IH. lia. Qed.
Lemma set_skip_skips s es : Forall is_skip es -> set_all_skips s es = es.
Proof.
  unfold set_all_skips. induction 1 as [|x es [b P] F IH]; [reflexivity|]. cbn [map]. rewrite IH.
  f_equal. unfold set_skip. now rewrite P.
Qed.
Lemma zip_skips_none ss es : Forall is_skip es -> zip_skips ss es = es.
Proof. induction 1 as [|x es [b P] F IH]; [reflexivity|]. cbn [zip_skips]. now rewrite P, IH. Qed.

Section Single.
Context (pre post : list (entry V)) (n : N) (o : nat).
Hypothesis (S1 : Forall is_skip pre) (S2 : Forall is_skip post) (G1 : Forall (good_entry t) pre) (G2 : Forall (good_entry t) post).
Local Notation one g room s := (single pre post (mkEntry n (PRead o g room s))).
Definition T : N := total t pre + n * sz + total t post.
Definition R : N := rowtotal t pre + sz + rowtotal t post.
Lemma total_one g room s : total t (one g room s) = T.
Proof.
  unfold single, T. rewrite total_app. unfold total at 2. cbn [fold_right]. fold (total t post).
  unfold esz at 1, wd. cbn [en_len en_plan]. lia.
Qed.
Lemma good_one g room s : Forall (good_entry t) (one g room s).
Proof. unfold single. apply Forall_app. split; [exact G1|]. constructor; [exact Logic.I|exact G2]. Qed.
Lemma set_skip_one g room s s' : set_all_skips s' (one g room s) = one g room s'.
Proof.
  unfold single. unfold set_all_skips. rewrite map_app. cbn [map].
  change (map (set_skip s') pre) with (set_all_skips s' pre). change (map (set_skip s') post) with (set_all_skips s' post).
  rewrite !set_skip_skips by assumption. reflexivity.
Qed.
Lemma zip_skip_one g room s s' : zip_skips [s'] (one g room s) = one g room s'.
Proof.
  unfold single. clear G1. induction pre as [|x l IH]; cbn [app zip_skips en_plan].
  - rewrite zip_skips_none by assumption. reflexivity.
  - apply Forall_cons_iff in S1. destruct S1 as [[b P] S]. rewrite P. rewrite IH by assumption. reflexivity.
Qed.

Lemma sub_block_one g room s len pos : s <= n -> pos + T <= M ->
  let ps := map (fun k => pos + total t pre + s * sz + k * sz) (rng 0 (N.min (N.of_nat room) (n - s))) in
  read_sub_block E f t e (one g room s) len pos
  = (one (g ++ got ps) (room - length (got ps)) s,
     if fine ps then Ok (N.min (N.of_nat room) (n - s), pos + T) else eof).
Proof.
  intros L H. cbv zeta. unfold single, T in *. revert len pos H G1. revert S1.
  induction pre as [|x l IH]; intros Sp len pos H G; cbn [app read_sub_block].
  - change (total t []) with 0 in *. rewrite N.add_0_r.
    pose proof (read_entry_spec n o g room s pos L ltac:(lia)) as Q. cbv zeta in Q. rewrite Q. clear Q.
    destruct (fine _); [|reflexivity]. rewrite skip_sub_block by (assumption || lia). do 3 f_equal. lia.
  - apply Forall_cons_iff in Sp. destruct Sp as [Sx Sl]. apply Forall_cons_iff in G. destruct G as [Gx Gl].
    unfold total in *. cbn [fold_right] in *. fold (total t l) (total t post) in *.
    rewrite skip_entry_spec by (assumption || lia). rewrite IH by (assumption || lia).
    replace (pos + (esz t x + total t l)) with (pos + esz t x + total t l) by lia.
    f_equal. destruct (fine _); [|reflexivity]. do 2 f_equal. lia.
Qed.

(** Address of sample [k] of the channel, contiguous and interleaved. *)
Definition caddr (P k : N) : N := P + (k / n) * T + total t pre + (k mod n) * sz.
Definition raddr (P k : N) : N := P + k * R + rowtotal t pre.

Lemma loop_one step q rm P c : 0 < n -> rm < n -> P + c * T <= M ->
  (forall idx g room s, step idx (one g room s)
     = if idx <? q then None else Some (one g room (if idx =? q then rm else 0))) ->
  forall m idx g room s len, idx + N.of_nat m = c ->
  let ps := firstn room (map (caddr P) (rng (N.max (idx * n) (q * n + rm)) (c * n))) in
  exists room' s', contig_loop E f t e step m idx (one g room s) len (P + idx * T)
    = (one (g ++ got ps) room' s', if fine ps then Ok (len + lenN ps) else eof).
Proof.
  intros Pn Rm HP St. induction m as [|m IH]; intros idx g room s len Hc ps; cbn [contig_loop].
  - subst ps. rewrite rng_nil by lia. cbn [map]. rewrite firstn_nil. exists room, s. unfold got, fine. cbn [while map forallb].
    rewrite app_nil_r, lenN_nil. do 3 f_equal. lia.
  - rewrite St. assert (Hi : (idx + 1) * T <= c * T) by (apply N.mul_le_mono_r; lia).
    destruct (idx <? q) eqn:Q.
    + assert (Bs : block_size E t (one g room s) = Ok T).
      { unfold block_size. rewrite (block_size_ok E t _ 0); [now rewrite total_one|apply good_one|].
        rewrite total_one. lia. }
      rewrite Bs. cbn [bind].
      assert (Sk : seek_rel E (P + idx * T) (as_i64 T) = Ok (P + (idx + 1) * T)).
      { rewrite as_i64_small by lia. rewrite (seek_inside E pad pad_ok); [f_equal; lia|lia|rewrite pad_len; lia]. }
      rewrite Sk. destruct (IH (idx + 1) g room s len ltac:(lia)) as [r' [s' X]]. cbv zeta in X.
      exists r', s'. rewrite X.
      assert (Mx : N.max ((idx + 1) * n) (q * n + rm) = N.max (idx * n) (q * n + rm)).
      { assert ((idx + 1) * n <= q * n) by (apply N.mul_le_mono_r; lia). lia. }
      rewrite Mx. reflexivity.
    + set (sk := if idx =? q then rm else 0). assert (Hsk : sk < n) by (unfold sk; destruct (idx =? q); lia).
      pose proof (sub_block_one g room sk 0 (P + idx * T) ltac:(lia) ltac:(lia)) as X. cbv zeta in X. rewrite X. clear X.
      set (p1 := map _ (rng 0 (N.min (N.of_nat room) (n - sk)))).
      assert (Mx : N.max (idx * n) (q * n + rm) = idx * n + sk).
      { unfold sk. destruct (idx =? q) eqn:Q2; [replace q with idx by lia; lia|].
        assert ((q + 1) * n <= idx * n) by (apply N.mul_le_mono_r; lia). lia. }
      assert (Hcn : (idx + 1) * n <= c * n) by (apply N.mul_le_mono_r; lia).
      assert (Sp : ps = p1 ++ firstn (room - length p1) (map (caddr P) (rng ((idx + 1) * n) (c * n)))).
      { unfold ps. rewrite Mx. rewrite (rng_app (idx * n + sk) ((idx + 1) * n) (c * n)) by lia.
        rewrite map_app, firstn_app, map_length, rng_length.
        assert (P1 : firstn room (map (caddr P) (rng (idx * n + sk) ((idx + 1) * n))) = p1).
        { rewrite firstn_map', rng_firstn. unfold p1, rng. rewrite !map_map.
          replace (N.to_nat (N.min ((idx + 1) * n) (idx * n + sk + N.of_nat room) - (idx * n + sk)))
            with (N.to_nat (N.min (N.of_nat room) (n - sk) - 0)) by lia.
          change (N.to_nat 0) with 0%nat. set (k0 := N.to_nat (N.min (N.of_nat room) (n - sk) - 0)).
          assert (Hk0 : (k0 <= N.to_nat (n - sk))%nat) by lia. clearbody k0.
          assert (Sf : seq (N.to_nat (idx * n + sk)) k0 = map (fun j => N.to_nat (idx * n + sk) + j)%nat (seq 0 k0)).
          { generalize (N.to_nat (idx * n + sk)) as z. intros z. revert z. clear. induction k0 as [|k0 IH]; intros z; [reflexivity|].
            cbn [seq map]. f_equal; [lia|]. rewrite IH, <- seq_shift, map_map. apply map_ext. intros j. lia. }
          rewrite Sf, map_map. apply map_ext_in. intros j Hj. apply in_seq in Hj. unfold caddr.
          replace (N.of_nat (N.to_nat (idx * n + sk) + j)) with (sk + N.of_nat j + idx * n) by lia.
          rewrite N.div_add, N.mod_add by lia. rewrite N.div_small, N.mod_small by lia. lia. }
        rewrite P1. f_equal. f_equal. assert (Lp : length p1 = N.to_nat (N.min (N.of_nat room) (n - sk))).
        { unfold p1. rewrite map_length, rng_length. lia. }
        rewrite Lp. lia. }
      destruct (fine p1) eqn:F1.
      * pose proof (got_fine p1 F1) as Gl. rewrite Gl.
        replace (P + idx * T + T) with (P + (idx + 1) * T) by lia.
        destruct (IH (idx + 1) (g ++ got p1) (room - length p1)%nat sk (0 + len + N.min (N.of_nat room) (n - sk)) ltac:(lia)) as [r' [s' X]].
        cbv zeta in X.
        assert (Mx2 : N.max ((idx + 1) * n) (q * n + rm) = (idx + 1) * n).
        { assert (q * n <= idx * n) by (apply N.mul_le_mono_r; lia). lia. }
        rewrite Mx2 in X. exists r', s'. replace (len + N.min (N.of_nat room) (n - sk)) with (0 + len + N.min (N.of_nat room) (n - sk)) by lia.
        rewrite X. rewrite Sp, got_app, fine_app, F1, app_assoc. cbn [andb]. f_equal.
        destruct (fine (firstn (room - length p1) _)); [|reflexivity]. f_equal. rewrite lenN_app.
        assert (Lp : lenN p1 = N.min (N.of_nat room) (n - sk)) by (unfold lenN, p1; rewrite map_length, rng_length; lia).
        rewrite Lp. lia.
      * exists (room - length (got p1))%nat, sk. rewrite Sp, got_app, fine_app, F1. reflexivity.
Qed.

Lemma first_len_one g room s : Forall (fun x => en_len x = n) pre -> exists x r, one g room s = x :: r /\ en_len x = n.
Proof.
  unfold single. intros F. destruct pre as [|y l]; cbn [app]; [eexists _, _; split; [reflexivity|reflexivity]|].
  exists y. eexists. split; [reflexivity|]. now apply Forall_cons_iff in F.
Qed.

(** A contiguous block, with either reader. *)
Lemma contig_one P blen c s room : 0 < n -> 0 < c -> Forall (fun x => en_len x = n) pre ->
  blen / T = c -> P + c * T <= M ->
  let ps := firstn room (map (caddr P) (rng s (c * n))) in
  (s = 0 -> exists room' s', contig_read_from E f t e P blen (one [] room 0) 0
     = (one (got ps) room' s', if fine ps then Ok (lenN ps) else eof))
  /\ exists room' s', contig_read_skips E f t e P blen (one [] room 0) [s]
     = (one (got ps) room' s', if fine ps then Ok (lenN ps) else eof).
Proof.
  intros Pn Pc Fl Hc HP ps.
  pose proof (size_bytes_pos t) as Hs. assert (Tp : T <> 0) by (unfold T; nia).
  assert (Sk : seek_to E P = Ok P) by (unfold seek_to; replace (P <=? seek_max E) with true by lia; reflexivity).
  assert (Tb : T < 2 ^ 64) by (assert (1 * T <= c * T) by (apply N.mul_le_mono_r; lia); lia).
  destruct (first_len_one [] room 0 Fl) as [x0 [r0 [E0 L0]]].
  assert (Bs : block_size E t (one [] room 0) = Ok T).
  { unfold block_size. rewrite (block_size_ok E t _ 0); [now rewrite total_one|apply good_one|]. rewrite total_one. lia. }
  split.
  - intros ->. unfold contig_read_from. rewrite Sk, Bs. cbn [bind]. unfold udiv.
    replace (T =? 0) with false by lia. cbn [bind]. rewrite E0, L0. rewrite <- E0. replace (n =? 0) with false by lia. cbn [bind].
    rewrite Hc. rewrite N.mod_0_l, N.div_0_l by lia.
    pose proof (loop_one (fun idx es => if idx <? 0 then None else if idx =? 0 then Some (set_all_skips 0 es) else Some (set_all_skips 0 es))
      0 0 P c Pn Pn HP) as L.
    assert (St : forall idx g room s, (fun idx es => if idx <? 0 then None else if idx =? 0 then Some (set_all_skips 0 es) else Some (set_all_skips 0 es)) idx (one g room s)
       = if idx <? 0 then None else Some (one g room (if idx =? 0 then 0 else 0))).
    { intros idx g rm s. cbv beta. rewrite set_skip_one. destruct (idx <? 0), (idx =? 0); reflexivity. }
    destruct (L St (N.to_nat c) 0 [] room 0 0 ltac:(lia)) as [r' [s' X]]. cbv zeta in X.
    exists r', s'. replace (P + 0 * T) with P in X by lia. rewrite X. replace (N.max (0 * n) (0 * n + 0)) with 0 by lia. fold ps.
    reflexivity.
  - unfold contig_read_skips. rewrite Sk, Bs. cbn [bind]. unfold udiv at 1.
    replace (T =? 0) with false by lia. cbn [bind]. rewrite E0, L0. rewrite <- E0. cbn [div_skips]. unfold udiv.
    replace (n =? 0) with false by lia. cbn [bind]. rewrite Hc.
    match goal with |- context [contig_loop E f t e ?st] => set (step := st) end.
    pose proof (loop_one step (s / n) (s mod n) P c Pn (N.mod_lt s n ltac:(lia)) HP) as L.
    assert (St : forall idx g room s0, step idx (one g room s0)
       = if idx <? s / n then None else Some (one g room (if idx =? s / n then s mod n else 0))).
    { intros idx g rm s0. unfold step. cbn [forallb map]. rewrite zip_skip_one. rewrite andb_true_r. unfold skip_for. cbn [fst snd].
      destruct (s / n <=? idx) eqn:A, (idx <? s / n) eqn:B; try lia; reflexivity. }
    destruct (L St (N.to_nat c) 0 [] room 0 0 ltac:(lia)) as [r' [s' X]]. cbv zeta in X.
    exists r', s'. replace (P + 0 * T) with P in X by lia. rewrite X.
    assert (Sd : s / n * n + s mod n = s) by (rewrite (N.mul_comm _ n); symmetry; apply N.div_mod; lia).
    rewrite Sd. replace (N.max (0 * n) s) with s by lia. fold ps. reflexivity.
Qed.

(** Rows of an interleaved block. *)
Lemma skip_row row es : forall any pos, Forall is_skip es -> Forall (good_entry t) es -> pos + rowtotal t es <= M ->
  inter_row E f t e row es any pos = (es, Ok (any, pos + rowtotal t es)).
Proof.
  induction es as [|x es IH]; intros any pos S G H; cbn [inter_row].
  - unfold rowtotal. cbn [fold_right]. do 3 f_equal. lia.
  - apply Forall_cons_iff in S. apply Forall_cons_iff in G. destruct S as [[b P] S], G as [Gx G].
    unfold rowtotal in *. cbn [fold_right] in *. fold (rowtotal t es) in *.
    unfold wd, good_entry in *. rewrite P in *.
    rewrite (seek_inside E pad pad_ok) by (rewrite ?pad_len; lia). rewrite IH by (assumption || lia). do 3 f_equal. lia.
Qed.
Lemma row_one row g room any pos : pos + R <= M ->
  inter_row E f t e row (one g room 0) any pos
  = if av (pos + rowtotal t pre)
    then match room with
         | S r => (one (g ++ [at_ (pos + rowtotal t pre)]) r 0, Ok (true, pos + R))
         | O => (one g 0 0, Ok (any, pos + R))
         end
    else (one g room 0, eof).
Proof.
  intros H. unfold single, R in *. revert pos H G1. revert S1.
  induction pre as [|x l IH]; intros Sp pos H G; cbn [app inter_row en_plan].
  - change (rowtotal t []) with 0 in *. rewrite N.add_0_r. rewrite read_at_spec.
    destruct (av pos); [|reflexivity]. replace (0 <=? row) with true by lia.
    destruct room; rewrite skip_row by (assumption || lia); do 3 f_equal; lia.
  - apply Forall_cons_iff in Sp. destruct Sp as [[b P] Sl]. apply Forall_cons_iff in G. destruct G as [Gx Gl].
    unfold rowtotal in *. cbn [fold_right] in *. fold (rowtotal t l) (rowtotal t post) in *.
    unfold wd, good_entry in Gx, H |- *. fold (wd t) in *. rewrite P in *.
    rewrite (seek_inside E pad pad_ok) by (rewrite ?pad_len; lia). rewrite IH by (assumption || lia).
    replace (pos + (Z.to_N b + rowtotal t l)) with (pos + Z.to_N b + rowtotal t l) by lia.
    destruct (av _); [|reflexivity]. destruct room; do 3 f_equal; lia.
Qed.
Lemma rows_one P m : forall row k g room read, P + (k + N.of_nat m) * R <= M ->
  let ps := map (raddr P) (rng k (k + N.of_nat m)) in
  exists room', inter_rows E f t e m row (one g room 0) read (P + k * R)
    = (one (g ++ got (firstn room ps)) room' 0,
       if fine (firstn (S room) ps) then Ok (read + lenN (firstn room ps)) else eof).
Proof.
  induction m as [|m IH]; intros row k g room read H ps; cbn [inter_rows].
  - subst ps. rewrite rng_nil by lia. cbn [map]. rewrite !firstn_nil. exists room. unfold got, fine. cbn [while map forallb].
    rewrite app_nil_r. unfold lenN. cbn [length]. do 2 f_equal. lia.
  - rewrite row_one by lia. subst ps. rewrite rng_cons by lia. cbn [map]. change (P + k * R + rowtotal t pre) with (raddr P k).
    destruct (av (raddr P k)) eqn:A.
    + destruct room as [|room].
      * exists 0%nat. rewrite firstn_O. unfold got, fine. cbn [while map forallb firstn]. rewrite A, app_nil_r. unfold lenN.
        cbn [andb length]. do 2 f_equal. lia.
      * replace (P + k * R + R) with (P + (k + 1) * R) by lia.
        destruct (IH (row + 1) (k + 1) (g ++ [at_ (raddr P k)]) room (read + 1) ltac:(lia)) as [r' X]. cbv zeta in X.
        exists r'. rewrite X. replace (k + 1 + N.of_nat m) with (k + N.of_nat (S m)) by lia.
        cbn [firstn]. unfold got, fine. cbn [while map forallb]. rewrite A. cbn [map andb]. rewrite <- app_assoc. cbn [app].
        f_equal. destruct (forallb av _); [|reflexivity]. f_equal. rewrite lenN_cons. lia.
    + exists room. unfold fine. cbn [forallb firstn]. rewrite A. cbn [andb]. f_equal.
      destruct room; unfold got; cbn [firstn while map]; rewrite ?A; cbn [map]; now rewrite app_nil_r.
Qed.
Lemma block_skips_one g room s : block_skips (one g room s) = [s].
Proof.
  unfold block_skips, single. rewrite map_app, concat_app. cbn [map concat en_plan app].
  assert (Z : forall es, Forall is_skip es -> concat (map (fun x : entry V => match en_plan x with PSkip _ => [] | PRead _ _ _ s => [s] end) es) = []).
  { induction 1 as [|x es [b P] F IH]; [reflexivity|]. cbn [map concat]. now rewrite P, IH. }
  rewrite !Z by assumption. reflexivity.
Qed.
Lemma rowtotal_one g room s : rowtotal t (one g room s) = R.
Proof.
  unfold single, R. rewrite rowtotal_app. unfold rowtotal at 2. cbn [fold_right]. fold (rowtotal t post).
  unfold wd. cbn [en_plan]. fold (wd t). lia.
Qed.
Lemma inter_one P blen w s room : 0 < w -> s <= w -> blen = w * R -> P + w * R <= M ->
  let ps := map (raddr P) (rng s w) in
  exists room' s', inter_read E f t e P blen (one [] room s)
    = (one (got (firstn room ps)) room' s',
       if fine (firstn (S room) ps) then Ok (lenN (firstn room ps)) else eof).
Proof.
  intros Pw Sw Hb HP ps. pose proof (size_bytes_pos t) as Hs.
  assert (Rp : 0 < R) by (unfold R; lia).
  assert (Sr : s * R <= w * R) by (apply N.mul_le_mono_r; exact Sw).
  assert (Rw : 1 * R <= w * R) by (apply N.mul_le_mono_r; lia).
  assert (Ws : s <= s * R) by nia.
  unfold inter_read. rewrite block_skips_one. cbn [min_or_0 fold_left].
  unfold seek_to. replace (P <=? seek_max E) with true by lia. cbn [bind].
  rewrite row_size_ok; [|apply good_one|rewrite rowtotal_one; lia]. rewrite rowtotal_one. cbn [bind]. unfold udiv.
  replace (R =? 0) with false by lia. cbn [bind]. rewrite Hb, N.div_mul by lia.
  assert (Pos : (if 0 <? s then off <- imul E (as_i64 s) (as_i64 R) ;;
                   pos' <- seek_rel E P off ;; Ok (pos', w) else Ok (P, w)) = Ok (P + s * R, w)).
  { destruct (0 <? s) eqn:S0; [|do 2 f_equal; lia].
    pose proof (seek_prod E pad pad_ok P s R) as Q. rewrite pad_len in Q. specialize (Q ltac:(lia) ltac:(lia) ltac:(lia)).
    destruct (imul E (as_i64 s) (as_i64 R)); cbn [bind] in *; try discriminate. rewrite Q. reflexivity. }
  rewrite Pos.
  assert (Em : forall l, Forall is_skip l -> map (fun x : entry V => match en_plan x with
      | PSkip _ => x | PRead o g r s0 => mkEntry (en_len x) (PRead o g r (s0 - s)) end) l = l).
  { induction 1 as [|x es [b Q] F IH]; [reflexivity|]. cbn [map]. now rewrite Q, IH. }
  unfold single at 1. rewrite map_app. cbn [map en_plan en_len]. rewrite !Em by assumption. rewrite N.sub_diag.
  destruct (rows_one P (N.to_nat (w - s)) 0 s [] room 0) as [r' X].
  { replace (s + N.of_nat (N.to_nat (w - s))) with w by lia. exact HP. }
  cbv zeta in X. replace (s + N.of_nat (N.to_nat (w - s))) with w in X by lia. fold ps in X.
  exists r', 0. unfold single in X |- *. rewrite X. reflexivity.
Qed.
Lemma harvest_one g room s : harvest o (one g room s) = g.
Proof.
  unfold single. clear G1. induction pre as [|x l IH]; cbn [app harvest en_plan]; [now rewrite Nat.eqb_refl|].
  apply Forall_cons_iff in S1. destruct S1 as [[b P] S]. rewrite P. now apply IH.
Qed.
End Single.

Lemma base_skips chans : Forall is_skip (base_record chans : list (entry V)).
Proof. unfold base_record. induction chans as [|m l IH]; cbn [map]; constructor; [eexists; reflexivity|exact IH]. Qed.
Lemma set_plan_split p : forall chans i m, nth_error chans i = Some m ->
  set_plan i p (base_record chans) = single (base_record (firstn i chans)) (base_record (skipn (S i) chans)) (mkEntry (rm_n m) p).
Proof.
  unfold base_record, single. induction chans as [|x l IH]; intros i m H; [destruct i; discriminate|].
  destruct i as [|i]; cbn [nth_error] in H; [injection H as ->; reflexivity|].
  rewrite firstn_cons. cbn [map set_plan app]. f_equal. now apply IH.
Qed.
End Cut.

(** One channel of one block. *)
Section Blocks.
Context (E : env) (f : list byte) (t : sty).
Hypothesis (Fx : fixed t).
Local Notation V := (carrier t).
Local Notation sz := (size_bytes t).

(** The addresses read for [room] values of the samples [s, w) of a block. *)
Definition fetched (b : dblock) (i : nat) (room : nat) (s w : N) : list N :=
  firstn (match b_layout b with Interleaved => S room | Contigious => room end) (map (sample_addr b i) (rng s w)).

Lemma sub_bytes_split a m l : sub_bytes (a ++ m :: l) = sub_bytes a + rm_n m * width (rm_type m) + sub_bytes l.
Proof. unfold sub_bytes. induction a as [|x a IH]; cbn [app fold_right]; [lia|]. rewrite IH. lia. Qed.
Lemma row_bytes_split a m l : row_bytes (a ++ m :: l) = row_bytes a + width (rm_type m) + row_bytes l.
Proof. unfold row_bytes. induction a as [|x a IH]; cbn [app fold_right]; [lia|]. rewrite IH. lia. Qed.

Lemma block_one b n c i m room s : 0 < n -> 0 < c ->
  Forall (fun m => rm_n m = n /\ 0 < width (rm_type m)) (b_chans b) -> chunks b c ->
  b_start b + c * sub_bytes (b_chans b) < 2 ^ 63 -> b_start b + c * sub_bytes (b_chans b) <= seek_max E ->
  nth_error (b_chans b) i = Some m -> supports t (rm_type m) = true -> s <= c * n ->
  let ps := firstn room (map (sample_addr b i) (rng s (c * n))) in
  let out := ([got f t (b_order b) ps],
     if fine f t (fetched b i room s (c * n)) then Ok (lenN ps) else eof) in
  (s = 0 -> block_read E f t b [mkReq i room s] = out) /\ block_read_skips E f t b [mkReq i room s] = out.
Proof.
  intros Pn Pc Hu Hb M1 M2 Hi Ht Hs ps out.
  assert (Hun : Forall (fun m => rm_n m = n) (b_chans b)) by (eapply Forall_impl; [|exact Hu]; cbv beta; tauto).
  assert (Hw : Forall (fun m => 0 < width (rm_type m)) (b_chans b)) by (eapply Forall_impl; [|exact Hu]; cbv beta; tauto).
  assert (Nm : rm_n m = n) by (rewrite Forall_forall in Hun; exact (Hun m (nth_error_In _ _ Hi))).
  destruct (width_sty t (rm_type m) Fx Ht) as [Wm _].
  set (pre := base_record (firstn i (b_chans b)) : list (entry V)).
  set (post := base_record (skipn (S i) (b_chans b)) : list (entry V)).
  assert (Spl : b_chans b = firstn i (b_chans b) ++ m :: skipn (S i) (b_chans b)).
  { clear -Hi. revert i Hi. induction (b_chans b) as [|x l IH]; intros i Hi; [destruct i; discriminate|].
    destruct i as [|i]; [cbn [nth_error] in Hi; injection Hi as ->; reflexivity|].
    rewrite firstn_cons. cbn [app]. f_equal. apply (IH i Hi). }
  assert (Hf : Forall (fun m => rm_n m = n) (firstn i (b_chans b)) /\ Forall (fun m => 0 < width (rm_type m)) (firstn i (b_chans b))
     /\ Forall (fun m => 0 < width (rm_type m)) (skipn (S i) (b_chans b))).
  { pose proof Hun as A. pose proof Hw as B. rewrite Spl in A, B. apply Forall_app in A. apply Forall_app in B.
    destruct A as [A1 A2], B as [B1 B2]. apply Forall_cons_iff in B2. tauto. }
  destruct Hf as [Hn1 [Hw1 Hw2]].
  pose proof (base_rel t _ Hw1) as R1. pose proof (base_rel t _ Hw2) as R2. fold pre in R1. fold post in R2.
  pose proof (base_skips t (firstn i (b_chans b))) as S1. pose proof (base_skips t (skipn (S i) (b_chans b))) as S2.
  fold pre in S1. fold post in S2.
  pose proof (rel_good t _ _ R1) as G1. pose proof (rel_good t _ _ R2) as G2.
  pose proof (rel_len t n _ _ R1 Hn1) as L1.
  set (MM := b_start b + c * sub_bytes (b_chans b)) in *.
  assert (Tt : T t pre post n = sub_bytes (b_chans b)).
  { rewrite Spl at 1. unfold T. rewrite (rel_total t _ _ R1), (rel_total t _ _ R2), sub_bytes_split, Nm, <- Wm. lia. }
  assert (Rt : R t pre post = row_bytes (b_chans b)).
  { rewrite Spl at 1. unfold R. rewrite (rel_row t _ _ R1), (rel_row t _ _ R2), row_bytes_split, <- Wm. lia. }
  assert (Bp : build_record_plan t (b_chans b) [mkReq i room s] = Ok (single t pre post (mkEntry n (PRead 0 [] room 0)))).
  { unfold build_record_plan. rewrite (validate_ok t); [|repeat constructor; exists m; auto]. cbn [bind set_readable rq_chan rq_room].
    rewrite (set_plan_split t _ _ _ _ Hi), Nm. reflexivity. }
  unfold block_read, block_read_skips. rewrite Bp. cbn [map rq_skip]. unfold outputs. cbn [length seq map].
  unfold chunks in Hb. destruct (b_layout b) eqn:Lay.
  - assert (Sr : sub_bytes (b_chans b) = n * row_bytes (b_chans b)) by now apply sub_row.
    assert (Ea : forall k, raddr t pre post (b_start b) k = sample_addr b i k).
    { intros k. unfold raddr, sample_addr. rewrite Lay, Rt, (rel_row t _ _ R1). reflexivity. }
    rewrite (zip_skip_one t pre post n 0%nat S1 S2).
    destruct (inter_one E f t (b_order b) MM Fx M1 M2 pre post n 0%nat S1 S2 G1 G2 (b_start b) (b_len b) (c * n) s room) as [r' [s' X]];
      [nia|exact Hs|rewrite Hb, Rt, Sr; lia|unfold MM; rewrite Rt, Sr; lia|]. cbv zeta in X.
    assert (Em : map (raddr t pre post (b_start b)) (rng s (c * n)) = map (sample_addr b i) (rng s (c * n))) by (apply map_ext; exact Ea).
    rewrite Em in X. fold ps in X.
    assert (F1 : fine f t (firstn (S room) (map (sample_addr b i) (rng s (c * n)))) = fine f t (fetched b i room s (c * n))).
    { unfold fetched. now rewrite Lay. }
    rewrite F1 in X. split.
    + intros ->. rewrite X, (harvest_one t pre post n 0%nat S1). reflexivity.
    + rewrite X, (harvest_one t pre post n 0%nat S1). reflexivity.
  - assert (Ea : forall k, caddr t pre post n (b_start b) k = sample_addr b i k).
    { intros k. unfold caddr, sample_addr. rewrite Lay, Hi, Tt, (rel_total t _ _ R1), Nm, Wm. reflexivity. }
    destruct (contig_one E f t (b_order b) MM Fx M1 M2 pre post n 0%nat S1 S2 G1 G2 (b_start b) (b_len b) c s room Pn Pc L1) as [X1 [r2 [s2 X2]]];
      [now rewrite Tt|unfold MM; rewrite Tt; lia|].
    assert (Em : map (caddr t pre post n (b_start b)) (rng s (c * n)) = map (sample_addr b i) (rng s (c * n))) by (apply map_ext; exact Ea).
    rewrite Em in X1, X2. fold ps in X1, X2.
    assert (F1 : fine f t ps = fine f t (fetched b i room s (c * n))) by (unfold fetched; now rewrite Lay).
    rewrite F1 in X1, X2. split.
    + intros Z. destruct (X1 Z) as [r1 [s1 Y]]. rewrite Y, (harvest_one t pre post n 0%nat S1). reflexivity.
    + rewrite X2, (harvest_one t pre post n 0%nat S1). reflexivity.
Qed.

(** Without a request the file is not looked at. *)
Lemma sub_none g e es : forall len pos, Forall (is_skip t) es ->
  read_sub_block E f t e es len pos = read_sub_block E g t e es len pos
  /\ fst (read_sub_block E f t e es len pos) = es.
Proof.
  induction es as [|x es IH]; intros len pos S; cbn [read_sub_block]; [split; reflexivity|].
  apply Forall_cons_iff in S. destruct S as [[b P] S].
  assert (X : read_entry E f t e x pos = read_entry E g t e x pos /\ fst (read_entry E f t e x pos) = x) by (unfold read_entry; rewrite P; split; reflexivity).
  destruct X as [X1 X2]. rewrite <- X1. destruct (read_entry E f t e x pos) as [x' r]. cbn [fst] in X2. subst x'.
  destruct r as [[l pos']|r|r|]; try (split; reflexivity).
  destruct (IH (match l with Some l => l | None => len end) pos' S) as [Y1 Y2]. rewrite <- Y1.
  destruct (read_sub_block E f t e es _ _) as [es' r']. cbn [fst] in *. subst es'. split; reflexivity.
Qed.
Lemma loop_none g e step es : Forall (is_skip t) es -> (forall idx es', step idx es = Some es' -> es' = es) ->
  forall n idx len pos, contig_loop E f t e step n idx es len pos = contig_loop E g t e step n idx es len pos.
Proof.
  intros S St. induction n as [|n IH]; intros idx len pos; cbn [contig_loop]; [reflexivity|].
  destruct (step idx es) as [es1|] eqn:Q.
  - rewrite (St _ _ Q). destruct (sub_none g e es 0 pos S) as [Y1 Y2]. rewrite <- Y1.
    destruct (read_sub_block E f t e es 0 pos) as [es' r']. cbn [fst] in Y2. subst es'. destruct r' as [[l p]|r|r|]; try reflexivity. apply IH.
  - destruct (bs <- block_size E t es ;; seek_rel E pos (as_i64 bs)); try reflexivity. apply IH.
Qed.
Lemma row_none g e row es : forall any pos, Forall (is_skip t) es ->
  inter_row E f t e row es any pos = inter_row E g t e row es any pos
  /\ fst (inter_row E f t e row es any pos) = es.
Proof.
  induction es as [|x es IH]; intros any pos S; cbn [inter_row]; [split; reflexivity|].
  apply Forall_cons_iff in S. destruct S as [[b P] S]. rewrite P.
  destruct (seek_rel E pos b) as [p|r|r|]; try (split; reflexivity).
  destruct (IH any p S) as [Y1 Y2]. rewrite <- Y1. destruct (inter_row E f t e row es any p) as [es' r']. cbn [fst] in *. subst es'. split; reflexivity.
Qed.
Lemma rows_none g e es : Forall (is_skip t) es ->
  forall n row read pos, inter_rows E f t e n row es read pos = inter_rows E g t e n row es read pos.
Proof.
  intros S. induction n as [|n IH]; intros row read pos; cbn [inter_rows]; [reflexivity|].
  destruct (row_none g e row es false pos S) as [Y1 Y2]. rewrite <- Y1.
  destruct (inter_row E f t e row es false pos) as [es' r']. cbn [fst] in Y2. subst es'. destruct r' as [[[] p]|r|r|]; try reflexivity. apply IH.
Qed.
Lemma inter_none g e P blen es : Forall (is_skip t) es -> inter_read E f t e P blen es = inter_read E g t e P blen es.
Proof.
  intros S. unfold inter_read.
  destruct (pos <- seek_to E P ;; _) as [[pos total]|r|r|]; try reflexivity.
  rewrite (rows_none g); [reflexivity|]. apply Forall_forall. intros y Hy. apply in_map_iff in Hy. destruct Hy as [x [<- Hx]].
  rewrite Forall_forall in S. destruct (S x Hx) as [b Q]. rewrite Q. now exists b.
Qed.
Lemma block_none g b : block_read E f t b [] = block_read E g t b [] /\ block_read_skips E f t b [] = block_read_skips E g t b [].
Proof.
  unfold block_read, block_read_skips, build_record_plan. cbn [validate bind set_readable map].
  pose proof (base_skips t (b_chans b)) as S. set (es := base_record (b_chans b) : list (entry V)) in *.
  rewrite (zip_skips_none t [] es S). rewrite (inter_none g _ _ _ es S). destruct (b_layout b); [split; reflexivity|].
  unfold contig_read_from, contig_read_skips. split.
  - destruct (pos <- seek_to E (b_start b) ;; _) as [[[[pos total] q] rm]|r|r|]; try reflexivity.
    rewrite (loop_none g); [reflexivity|exact S|]. intros idx es' Q. rewrite !set_skip_skips in Q by exact S.
    destruct (idx <? q); [discriminate|]. destruct (idx =? q); now injection Q.
  - destruct (pos <- seek_to E (b_start b) ;; _) as [[[pos total] l]|r|r|]; try reflexivity.
    rewrite (loop_none g); [reflexivity|exact S|]. intros idx es' Q. rewrite zip_skips_none in Q by exact S.
    destruct (forallb _ l); [now injection Q|discriminate].
Qed.
Lemma block_no_request b n c s : 0 < n -> 0 < c -> b_chans b <> [] ->
  Forall (fun m => rm_n m = n /\ 0 < width (rm_type m)) (b_chans b) -> chunks b c ->
  b_start b + c * sub_bytes (b_chans b) < 2 ^ 63 -> b_start b + c * sub_bytes (b_chans b) <= seek_max E ->
  exists k, (s = 0 -> block_read E f t b [] = ([], Ok k)) /\ block_read_skips E f t b [] = ([], Ok k).
Proof.
  intros Pn Pc Hne Hu Hb M1 M2.
  set (g := pad (b_start b + c * sub_bytes (b_chans b))).
  assert (Ad : addressable E g) by (unfold g, addressable; rewrite (pad_len E) by assumption; auto).
  destruct (block_none g b) as [-> ->].
  destruct (block_ok E g t b [] 0 n c Fx Ad Pn Pc Hne Hu Hb) as [k [_ [_ [A B]]]]; [unfold g; rewrite pad_len with (E := E); lia|constructor|constructor|lia|].
  cbn [map] in A, B. exists k. split; [intros _; apply A; reflexivity|apply B; constructor].
Qed.
End Blocks.
