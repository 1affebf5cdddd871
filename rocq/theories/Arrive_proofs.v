(** * Reading several channels of a block of which only a beginning is in the file *)
From Verif Require Import Base Lib DataTypes MetaData DataBlock Index RawData ChannelReader
  SpecIndex SpecRead SpecCutFile Block_proofs CutFile_proofs Request_proofs Plan_proofs.

Section Arrive.
Context (E : env) (f x : list byte) (t : sty) (e : endian).
Hypothesis (Sz : sized t) (Ad : addressable E (f ++ x)).
Local Notation V := (carrier t).
Local Notation sz := (size_bytes t).
Local Notation W := (f ++ x).
Local Notation at_ := (at_ W t e).
Local Notation av := (av f t).
Local Notation exts := (exts t).
Local Notation esz := (esz t).
Local Notation wd := (wd t).
Local Notation total := (total t).
Local Notation rowtotal := (rowtotal t).
Local Notation good_entry := (good_entry t).
Local Notation nreads := (nreads t).

Lemma slice_inside a n : a + n <= lenN f -> slice W a n = slice f a n.
Proof.
  intros H. unfold slice, lenN in *. rewrite skipn_app, firstn_app, skipn_length.
  replace (N.to_nat n - (length f - N.to_nat a))%nat with 0%nat by lia. now rewrite firstn_O, app_nil_r.
Qed.
Lemma read_at_cut pos : read_at E f t e pos = if av pos then Ok (at_ pos, pos + sz) else eof.
Proof.
  rewrite (read_at_spec E f t e 0 Sz) by lia. destruct (av pos) eqn:A; [|reflexivity].
  unfold Block_proofs.at_. unfold CutFile_proofs.av in A. now rewrite slice_inside by lia.
Qed.

(** Addresses of [n] values in a row, and the values at those addresses that are in the file. *)
Definition ra (pos : N) (n : nat) : list N := map (fun k => pos + N.of_nat k * sz) (seq 0 n).
Definition gv (L : list N) : list V := map at_ (filter av L).
Lemma gv_app a b : gv (a ++ b) = gv a ++ gv b.
Proof. unfold gv. now rewrite filter_app, map_app. Qed.
Lemma gv_late L : (forall a, In a L -> lenN f < a + sz) -> gv L = [].
Proof.
  unfold gv. induction L as [|a L IH]; intros H; [reflexivity|]. cbn [filter]. unfold CutFile_proofs.av at 1.
  pose proof (H a (or_introl eq_refl)). replace (a + sz <=? lenN f) with false by lia. apply IH. intros b Hb. apply H. now right.
Qed.
Lemma ra_S pos n : ra pos (S n) = pos :: ra (pos + sz) n.
Proof.
  unfold ra. cbn [seq map]. f_equal; [lia|]. rewrite <- seq_shift, map_map. apply map_ext. intros k. lia.
Qed.
Lemma ra_length pos n : length (ra pos n) = n.
Proof. unfold ra. now rewrite map_length, seq_length. Qed.
Lemma ra_in pos n a : In a (ra pos n) -> pos <= a.
Proof. unfold ra. rewrite in_map_iff. intros [k [<- _]]. lia. Qed.
Lemma ra_skipn k : forall pos n, skipn k (ra pos n) = ra (pos + N.of_nat k * sz) (n - k).
Proof.
  induction k as [|k IH]; intros pos n.
  - cbn [skipn]. rewrite Nat.sub_0_r. f_equal. lia.
  - destruct n as [|n]; [reflexivity|]. rewrite ra_S. cbn [skipn]. rewrite IH. f_equal; lia.
Qed.
Lemma late_skip k pos n : lenN f < pos -> gv (skipn k (ra pos n)) = [].
Proof. intros H. apply gv_late. intros a Ha. rewrite ra_skipn in Ha. apply ra_in in Ha. lia. Qed.
Lemma gv_firstn k : forall pos n, gv (ra pos (Nat.min k n)) = firstn k (gv (ra pos n)).
Proof.
  induction k as [|k IH]; intros pos n; [reflexivity|]. destruct n as [|n]; [reflexivity|]. cbn [Nat.min]. rewrite !ra_S.
  change (pos :: ra (pos + sz) (Nat.min k n)) with ([pos] ++ ra (pos + sz) (Nat.min k n)).
  change (pos :: ra (pos + sz) n) with ([pos] ++ ra (pos + sz) n). rewrite !gv_app, IH.
  unfold gv at 1 3. cbn [filter]. destruct (av pos) eqn:A; cbn [map app firstn]; [reflexivity|].
  unfold CutFile_proofs.av in A. pose proof (size_bytes_pos t).
  rewrite (gv_late (ra (pos + sz) n)); [now rewrite !firstn_nil|]. intros a Ha. apply ra_in in Ha. lia.
Qed.

(** All addresses are in the file; for every entry that is read, the first [lim] addresses of those it is offered are. *)
Definition avs (L : list N) : Prop := Forall (fun a => av a = true) L.
Fixpoint allin (step : entry V -> N) (lim : nat -> nat) (D : N -> entry V -> list N) (off : N) (es : list (entry V)) : Prop :=
  match es with
  | [] => True
  | y :: r => match en_plan y with PRead _ _ rm _ => avs (firstn (lim rm) (D off y)) | PSkip _ => True end
              /\ allin step lim D (off + step y) r
  end.
Definition okr {A} (r : res A) : Prop := match r with Ok _ => True | _ => False end.
Lemma avs_app a b : avs (a ++ b) <-> avs a /\ avs b.
Proof. unfold avs. apply Forall_app. Qed.
Lemma avs_nil : avs [] <-> True.
Proof. split; [trivial|]. intros _. constructor. Qed.
Lemma avs_cons a b : avs (a :: b) <-> av a = true /\ avs b.
Proof. apply Forall_cons_iff. Qed.
Lemma gv_all L : avs L -> length (gv L) = length L.
Proof. intros H. unfold gv. rewrite map_length. f_equal. induction H as [|a L Ha H IH]; cbn [filter]; [reflexivity|]. now rewrite Ha, IH. Qed.
Lemma gv_enough k L : avs (firstn k L) -> (k - length (gv L) = k - length L)%nat.
Proof.
  intros H. rewrite <- (firstn_skipn k L) at 1 2. rewrite gv_app, !app_length, (gv_all _ H), firstn_length, skipn_length.
  destruct (Nat.le_gt_cases k (length L)); [lia|]. rewrite (skipn_all2 L) by lia. cbn [gv filter map length]. unfold gv. cbn [filter map length]. lia.
Qed.
Lemma ra_firstn k : forall pos n, firstn k (ra pos n) = ra pos (Nat.min k n).
Proof.
  induction k as [|k IH]; intros pos n; [reflexivity|]. destruct n as [|n]; [reflexivity|]. cbn [Nat.min]. rewrite !ra_S. cbn [firstn]. now rewrite IH.
Qed.
Lemma allin_ext step lim lim' D D' es : (forall o y rm, In y es -> firstn (lim rm) (D o y) = firstn (lim' rm) (D' o y)) ->
  forall off, allin step lim D off es <-> allin step lim' D' off es.
Proof.
  induction es as [|y es IH]; intros H off; cbn [allin]; [tauto|]. rewrite <- IH by (intros; apply H; now right).
  destruct (en_plan y) as [b|o g rm s'] eqn:P; [tauto|]. rewrite H by (now left). tauto.
Qed.
Lemma allin_none step lim D es : (forall o y, In y es -> D o y = []) -> forall off, allin step lim D off es.
Proof.
  induction es as [|y es IH]; intros H off; cbn [allin]; [exact Logic.I|]. split; [|apply IH; intros; apply H; now right].
  destruct (en_plan y); [exact Logic.I|]. rewrite H by (now left). rewrite firstn_nil. now apply avs_nil.
Qed.
(** Entries that have taken what they could of a first list, offered a second one. *)
Lemma allin_step step D1 D2 es : stable t step -> forall off es2, exts step (fun o _ => gv (D1 o)) off es es2 ->
  allin step (fun r => r) (fun o _ => D1 o) off es ->
  (allin step (fun r => r) (fun o _ => D2 o) off es2 <-> allin step (fun r => r) (fun o _ => D1 o ++ D2 o) off es).
Proof.
  intros St. induction es as [|y es IH]; intros off [|y2 es2] X A; try contradiction; cbn [allin]; [tauto|].
  destruct X as [X1 X2], A as [A1 A2]. rewrite (St _ _ _ X1), (IH _ _ X2 A2). destruct X1 as [_ X1].
  destruct (en_plan y) as [b|o g rm s'] eqn:P; [rewrite X1; tauto|]. destruct X1 as [s2 ->].
  rewrite firstn_app, avs_app, (gv_enough rm (D1 off) A1). tauto.
Qed.
Lemma allin_first step D1 D2 es : forall off, allin step (fun r => r) (fun o _ => D1 o ++ D2 o) off es -> allin step (fun r => r) (fun o _ => D1 o) off es.
Proof.
  induction es as [|y es IH]; intros off; cbn [allin]; [tauto|]. intros [A B]. split; [|now apply IH].
  destruct (en_plan y); [exact A|]. rewrite firstn_app, avs_app in A. tauto.
Qed.
Lemma allin_same step lim D es : stable t step -> (forall r, lim r = lim 0%nat) -> forall off F es2, exts step F off es es2 ->
  (allin step lim (fun o _ => D o) off es2 <-> allin step lim (fun o _ => D o) off es).
Proof.
  intros St Lm. induction es as [|y es IH]; intros off F [|y2 es2] X; try contradiction; cbn [allin]; [tauto|].
  destruct X as [X1 X2]. rewrite (St _ _ _ X1), (IH _ _ _ X2). destruct X1 as [_ X1].
  destruct (en_plan y) as [b|o g rm s'] eqn:P; [rewrite X1; tauto|]. destruct X1 as [s2 ->]. rewrite (Lm (rm - _)%nat), (Lm rm). tauto.
Qed.
Lemma allin_and step m D1 D2 es : forall off,
  allin step (fun _ => S m) (fun o _ => D1 o :: D2 o) off es <->
  allin step (fun _ => 1%nat) (fun o _ => [D1 o]) off es /\ allin step (fun _ => m) (fun o _ => D2 o) off es.
Proof.
  induction es as [|y es IH]; intros off; cbn [allin]; [tauto|]. rewrite IH. destruct (en_plan y); [tauto|].
  cbn [firstn]. rewrite !avs_cons, avs_nil. tauto.
Qed.
Lemma allin_0 step lim D es : nreads es = 0%nat -> forall off, allin step lim D off es.
Proof.
  unfold Block_proofs.nreads. induction es as [|y es IH]; intros H off; cbn [allin]; [exact Logic.I|]. cbn [filter] in H. unfold is_read at 1 in H.
  destruct (en_plan y); [|discriminate]. split; [exact Logic.I|now apply IH].
Qed.

Lemma read_vals_cut n : forall pos, exists r, read_vals E f t e n pos = (gv (ra pos n), r)
  /\ (r = Ok (pos + N.of_nat n * sz) \/ (r = eof /\ lenN f < pos + N.of_nat n * sz)) /\ (okr r <-> avs (ra pos n)).
Proof.
  induction n as [|n IH]; intros pos; cbn [read_vals].
  - eexists. split; [reflexivity|]. split; [left; f_equal; lia|]. cbn [okr]. symmetry. apply avs_nil.
  - rewrite read_at_cut, ra_S. change (pos :: ra (pos + sz) n) with ([pos] ++ ra (pos + sz) n). rewrite gv_app.
    unfold gv at 1. cbn [filter]. destruct (av pos) eqn:A; cbn [map app].
    + destruct (IH (pos + sz)) as [r [R [K B]]]. rewrite R. exists r. split; [reflexivity|].
      split; [|rewrite avs_cons, B; tauto].
      destruct K as [->|[-> K]]; [left; f_equal; lia|right; split; [reflexivity|lia]].
    + unfold CutFile_proofs.av in A. pose proof (size_bytes_pos t).
      rewrite gv_late by (intros a Ha; apply ra_in in Ha; lia). eexists. split; [reflexivity|].
      split; [right; split; [reflexivity|nia]|]. cbn [okr recast eof]. rewrite avs_cons. unfold CutFile_proofs.av at 1. rewrite A. split; [tauto|intros [X _]; discriminate].
Qed.
Lemma read_seq_cut room samples pos : pos + samples * sz <= lenN W ->
  exists r, read_seq E f t e room samples pos = (firstn room (gv (ra pos (N.to_nat samples))), r)
  /\ ((exists l, r = Ok (l, pos + samples * sz)) \/ (r = eof /\ lenN f < pos + samples * sz))
  /\ (okr r <-> avs (firstn room (ra pos (N.to_nat samples)))).
Proof.
  intros H. pose proof (size_bytes_pos t) as P. destruct Ad as [A1 A2]. unfold read_seq. set (k := N.min (N.of_nat room) samples).
  destruct (read_vals_cut (N.to_nat k) pos) as [r [R [K B]]]. rewrite R.
  assert (Km : k * sz <= samples * sz) by (apply N.mul_le_mono_r; lia).
  rewrite <- gv_firstn. replace (Nat.min room (N.to_nat samples)) with (N.to_nat k) by lia.
  rewrite N2Nat.id in K. eexists. split; [reflexivity|].
  rewrite ra_firstn. replace (Nat.min room (N.to_nat samples)) with (N.to_nat k) by lia. rewrite <- B.
  destruct K as [->|[-> K]]; cbn [bind eof]; [|split; [right; split; [reflexivity|lia]|cbn [okr]; tauto]].
  match goal with |- (exists l, ?r = _) \/ _ /\ _ => cut (exists l, r = Ok (l, pos + samples * sz)); [intros [l ->]; split; [left; eauto|cbn [okr]; tauto]|] | |- ((exists l, ?r = _) \/ _) /\ _ => cut (exists l, r = Ok (l, pos + samples * sz)); [intros [l ->]; split; [left; eauto|cbn [okr]; tauto]|] end.
  destruct (0 <? samples - k) eqn:U; [|exists k; do 2 f_equal; replace samples with k by lia; reflexivity].
  assert (Q : (off <- imul E (as_i64 (samples - k)) (as_i64 sz) ;; seek_rel E (pos + k * sz) off) = Ok (pos + k * sz + (samples - k) * sz)).
  { rewrite (seek_prod E W Ad); [reflexivity|rewrite N.mul_sub_distr_r; lia| |lia].
    assert (samples - k <= samples * sz) by nia. lia. }
  destruct (imul E (as_i64 (samples - k)) (as_i64 sz)); cbn [bind] in *; try discriminate. rewrite Q. cbn [bind].
  exists k. do 2 f_equal. rewrite N.mul_sub_distr_r. lia.
Qed.

Lemma entry_cut y pos : good_entry y -> pos + esz y <= lenN W ->
  exists y' r, read_entry E f t e y pos = (y', r)
    /\ match en_plan y with
       | PSkip _ => y' = y
       | PRead o g rm s => ext t (gv (skipn (N.to_nat s) (ra pos (N.to_nat (en_len y))))) y y'
       end
    /\ ((exists l, r = Ok (l, pos + esz y)) \/ (r = eof /\ lenN f < pos + esz y))
    /\ (okr r <-> match en_plan y with
                   | PRead _ _ rm s => avs (firstn rm (skipn (N.to_nat s) (ra pos (N.to_nat (en_len y)))))
                   | PSkip _ => True end).
Proof.
  intros G H. pose proof (size_bytes_pos t) as Hs. destruct (en_plan y) as [b|o g r s] eqn:P.
  - destruct (read_entry_ok E W t e Sz Ad y pos G H) as [y' [l [R K]]]. rewrite P in K. destruct K as [-> ->].
    exists y, (Ok (None, pos + esz y)). split; [|split; [reflexivity|split; [left; eauto|cbn [okr]; tauto]]].
    rewrite <- R. unfold read_entry. now rewrite P.
  - unfold Block_proofs.esz, Block_proofs.wd in H |- *. rewrite P in H |- *. unfold read_entry. rewrite P. destruct Ad as [A _].
    set (sk := N.min s (en_len y)).
    assert (Hsk : sk <= en_len y) by lia.
    assert (Hm : sk * sz <= en_len y * sz) by (apply N.mul_le_mono_r; exact Hsk).
    assert (Hm2 : (en_len y - sk) * sz = en_len y * sz - sk * sz) by apply N.mul_sub_distr_r.
    assert (Sk : (if 0 <? sk then off <- imul E (as_i64 sk) (as_i64 sz) ;; seek_rel E pos off else Ok pos)
                 = Ok (pos + sk * sz)).
    { destruct (0 <? sk) eqn:K; [|do 2 f_equal; lia].
      assert (P1 : sk <= sk * sz) by nia. apply (seek_prod E W Ad); lia. }
    rewrite Sk. destruct (read_seq_cut r (en_len y - sk) (pos + sk * sz)) as [q [R [K B]]]; [lia|]. rewrite R.
    assert (Ra : skipn (N.to_nat s) (ra pos (N.to_nat (en_len y))) = ra (pos + sk * sz) (N.to_nat (en_len y - sk))).
    { rewrite ra_skipn. destruct (N.le_gt_cases s (en_len y)).
      - replace (N.of_nat (N.to_nat s)) with sk by lia. f_equal. lia.
      - replace (N.to_nat (en_len y) - N.to_nat s)%nat with 0%nat by lia.
        replace (N.to_nat (en_len y - sk)) with 0%nat by lia. reflexivity. }
    eexists _, _. split; [reflexivity|]. split; [|split; [|rewrite Ra, <- B; destruct q as [[? ?]| | |]; cbn [bind okr]; tauto]].
    + split; [reflexivity|]. rewrite P. cbn [en_plan]. exists s.
      rewrite Ra. f_equal. rewrite firstn_length. lia.
    + destruct K as [[l ->]|[-> K]]; cbn [bind eof]; [left; exists (Some l); do 2 f_equal; lia|right; split; [reflexivity|lia]].
Qed.

(** Entries that are offered nothing. *)
Lemma exts_none step D es : forall off, (forall o y, off <= o -> In y es -> D o y = []) -> exts step D off es es.
Proof.
  induction es as [|y es IH]; intros off H; cbn [Block_proofs.exts]; [exact Logic.I|]. split.
  - rewrite H; [apply ext_nil|lia|now left].
  - apply IH. intros o z Ho Hz. apply H; [lia|now right].
Qed.
Definition sub_gv (base off : N) (y : entry V) : list V :=
  match en_plan y with PRead _ _ _ s => gv (skipn (N.to_nat s) (ra (base + off) (N.to_nat (en_len y)))) | PSkip _ => [] end.
Definition sub_ad (base off : N) (y : entry V) : list N :=
  match en_plan y with PRead _ _ _ s => skipn (N.to_nat s) (ra (base + off) (N.to_nat (en_len y))) | PSkip _ => [] end.
Lemma sub_cut base es : forall off len pos, pos = base + off -> Forall good_entry es -> pos + total es <= lenN W ->
  exists es' r, read_sub_block E f t e es len pos = (es', r)
    /\ exts esz (sub_gv base) off es es'
    /\ ((exists l, r = Ok (l, pos + total es)) \/ (r = eof /\ lenN f < pos + total es))
    /\ (okr r <-> allin esz (fun r => r) (sub_ad base) off es).
Proof.
  induction es as [|y es IH]; intros off len pos Hp G H; cbn [read_sub_block].
  - exists [], (Ok (len, pos)). split; [reflexivity|]. split; [exact Logic.I|].
    split; [left; exists len; do 2 f_equal; cbn; lia|cbn [okr allin]; tauto].
  - unfold Block_proofs.total in H |- *. cbn [fold_right] in H |- *. fold (total es) in H |- *.
    inversion G as [|z l G1 G2]; subst z l.
    destruct (entry_cut y pos G1) as [y' [r [R [K [Q B]]]]]; [lia|]. rewrite R. cbn [allin].
    assert (B' : okr r <-> match en_plan y with PRead _ _ rm _ => avs (firstn rm (sub_ad base off y)) | PSkip _ => True end).
    { rewrite B. unfold sub_ad. destruct (en_plan y); [tauto|]. rewrite <- Hp. tauto. }
    assert (K' : ext t (sub_gv base off y) y y').
    { unfold sub_gv. destruct (en_plan y); [subst y'; apply ext_nil|]. rewrite <- Hp. exact K. }
    destruct Q as [[l ->]|[-> Q]].
    + destruct (IH (off + esz y) (match l with Some l => l | None => len end) (pos + esz y)) as [es' [r [R' [X [Q B2]]]]]; [lia|exact G2|lia|].
      rewrite R'. exists (y' :: es'), r. split; [reflexivity|]. split; [cbn [Block_proofs.exts]; split; assumption|].
      split; [|rewrite B2, <- B'; cbn [okr]; tauto].
      destruct Q as [[l' ->]|[-> Q]]; [left; exists l'; do 2 f_equal; lia|right; split; [reflexivity|lia]].
    + cbn [recast eof]. exists (y' :: es), eof. split; [reflexivity|]. split; [cbn [Block_proofs.exts]; split; [exact K'|]|split; [right; split; [reflexivity|lia]|rewrite <- B'; cbn [okr eof]; tauto]].
      apply exts_none. intros o z Ho _. unfold sub_gv. destruct (en_plan z); [reflexivity|]. apply late_skip. lia.
Qed.

(** ** The loop over sub-blocks *)
Definition ca (pos c n : N) (m : nat) (off : N) : list N := concat (map (fun j => ra (pos + N.of_nat j * c + off) (N.to_nat n)) (seq 0 m)).
Lemma ca_S pos c n m off : ca pos c n (S m) off = ra (pos + off) (N.to_nat n) ++ ca (pos + c) c n m off.
Proof.
  unfold ca. cbn [seq map concat]. f_equal; [f_equal; lia|]. rewrite <- seq_shift, map_map. f_equal.
  apply map_ext. intros j. f_equal. lia.
Qed.
Lemma ca_in pos c n m off a : In a (ca pos c n m off) -> pos <= a.
Proof.
  unfold ca. rewrite in_concat. intros [l [Hl Ha]]. apply in_map_iff in Hl. destruct Hl as [j [<- _]]. apply ra_in in Ha. lia.
Qed.

Lemma loop_cut step n c q rm nr : 0 < n -> rm < n ->
  (forall idx es, nreads es = nr -> step idx es =
     if idx <? q then None else Some (set_all_skips (if idx =? q then rm else 0) es)) ->
  forall m idx es len pos,
  nreads es = nr -> Forall good_entry es -> Forall (fun y => en_len y = n) es -> total es = c -> c < 2 ^ 63 ->
  pos + N.of_nat m * c <= lenN W ->
  let s := if idx <=? q then (q - idx) * n + rm else 0 in
  exists es' r, contig_loop E f t e step m idx es len pos = (es', r)
    /\ exts esz (fun off _ => gv (skipn (N.to_nat s) (ca pos c n m off))) 0 es es'
    /\ ((exists l, r = Ok l) \/ (r = eof /\ lenN f < pos + N.of_nat m * c))
    /\ (okr r <-> allin esz (fun r => r) (fun off _ => skipn (N.to_nat s) (ca pos c n m off)) 0 es).
Proof.
  intros Hn Hrm Hst. induction m as [|m IH]; intros idx es len pos Hnr G Hl Ht Hc H s; cbn [contig_loop].
  - exists es, (Ok len). split; [reflexivity|]. split; [|split; [left; eauto|]].
    + apply exts_none. intros o y _ _. unfold ca. cbn [seq map concat]. now rewrite skipn_nil.
    + cbn [okr]. split; [|tauto]. intros _. apply allin_none. intros o y _. unfold ca. cbn [seq map concat]. apply skipn_nil.
  - rewrite Hst by exact Hnr. destruct (idx <? q) eqn:Q.
    + unfold block_size. rewrite (block_size_ok E t) by (auto; lia). cbn [bind].
      replace (0 + total es) with c by lia. rewrite as_i64_small by lia.
      rewrite (seek_inside E W Ad) by lia. rewrite N2Z.id.
      destruct (IH (idx + 1) es len (pos + c) Hnr G Hl Ht Hc ltac:(lia)) as [es' [r [R [X [K B]]]]].
      exists es', r. split; [exact R|].
      set (s' := if idx + 1 <=? q then (q - (idx + 1)) * n + rm else 0) in *.
      assert (Es : s = n + s').
      { unfold s, s'. replace (idx <=? q) with true by lia. replace (idx + 1 <=? q) with true by lia.
        replace (q - idx) with (1 + (q - (idx + 1))) by lia. lia. }
      assert (Sa : forall o, skipn (N.to_nat s') (ca (pos + c) c n m o) = skipn (N.to_nat s) (ca pos c n (S m) o)).
      { intros o. rewrite ca_S, skipn_app. rewrite (skipn_all2 (ra _ _)) by (rewrite ra_length; lia). rewrite ra_length. cbn [app]. f_equal. lia. }
      split; [|split; [destruct K as [K|[-> K]]; [left; exact K|right; split; [reflexivity|lia]]|]].
      * eapply exts_ext; [|exact X]. intros o y _. cbv beta. now rewrite Sa.
      * rewrite B. apply allin_ext. intros o y r' _. now rewrite Sa.
    + set (sk := if idx =? q then rm else 0).
      assert (Es : s = sk).
      { unfold s, sk. destruct (idx =? q) eqn:K.
        - replace (idx <=? q) with true by lia. replace (q - idx) with 0 by lia. lia.
        - replace (idx <=? q) with false by lia. reflexivity. }
      assert (Hsk : sk < n) by (unfold sk; destruct (idx =? q); lia).
      set (es1 := set_all_skips sk es).
      pose proof (exts_skip t esz sk es 0) as X1. fold es1 in X1.
      assert (G1 : Forall good_entry es1) by (eapply exts_forall; [|exact X1|exact G]; intros vs y y' A; apply ext_wd in A; tauto).
      assert (L1 : Forall (fun y => en_len y = n) es1).
      { eapply exts_forall; [|exact X1|exact Hl]. intros vs y y' [A _] B. congruence. }
      assert (T1 : total es1 = c) by (rewrite (exts_total _ _ _ _ _ X1); exact Ht).
      destruct (sub_cut pos es1 0 0 pos ltac:(lia) G1 ltac:(lia)) as [es2 [r2 [R2 [X2 [K2 B2]]]]].
      rewrite R2. rewrite T1 in K2.
      assert (Hnr2 : nreads es2 = nr).
      { rewrite (exts_nreads _ _ _ _ _ _ X2), (exts_nreads _ _ _ _ _ _ X1). exact Hnr. }
      assert (G2 : Forall good_entry es2) by (eapply exts_forall; [|exact X2|exact G1]; intros vs y y' A; apply ext_wd in A; tauto).
      assert (L2 : Forall (fun y => en_len y = n) es2).
      { eapply exts_forall; [|exact X2|exact L1]. intros vs y y' [A _] B. congruence. }
      assert (T2 : total es2 = c) by (rewrite (exts_total _ _ _ _ _ X2); exact T1).
      assert (X2' : exts esz (fun o _ => gv (skipn (N.to_nat sk) (ra (pos + o) (N.to_nat n)))) 0 es1 es2).
      { eapply exts_ext_read; [|exact X2]. intros o y Hy Hr. unfold sub_gv, is_read in *.
        destruct (en_plan y) as [b|o' g r s0] eqn:P; [discriminate|].
        rewrite (set_all_entry t sk es y Hy _ _ _ _ P). rewrite Forall_forall in L1. now rewrite (L1 y Hy). }
      assert (X12 : exts esz (fun o y => [] ++ gv (skipn (N.to_nat sk) (ra (pos + o) (N.to_nat n)))) 0 es es2).
      { eapply exts_app; [apply ext_len_stable| |exact X1|exact X2']. intros vs y y' off A. reflexivity. }
      assert (Split : forall o, gv (skipn (N.to_nat s) (ca pos c n (S m) o))
                = gv (skipn (N.to_nat sk) (ra (pos + o) (N.to_nat n))) ++ gv (ca (pos + c) c n m o)).
      { intros o. rewrite ca_S, Es, skipn_app, ra_length. replace (N.to_nat sk - N.to_nat n)%nat with 0%nat by lia. cbn [skipn]. apply gv_app. }
      assert (SplitA : forall o, skipn (N.to_nat s) (ca pos c n (S m) o) = skipn (N.to_nat sk) (ra (pos + o) (N.to_nat n)) ++ ca (pos + c) c n m o).
      { intros o. rewrite ca_S, Es, skipn_app, ra_length. replace (N.to_nat sk - N.to_nat n)%nat with 0%nat by lia. reflexivity. }
      assert (B1 : okr r2 <-> allin esz (fun r => r) (fun o _ => skipn (N.to_nat sk) (ra (pos + o) (N.to_nat n))) 0 es).
      { rewrite B2. unfold es1, set_all_skips. clear -Hl. generalize 0 as off. induction Hl as [|y es Hy Hl IH]; intros off; cbn [map allin]; [tauto|].
        assert (Ey : esz (set_skip sk y) = esz y) by (unfold Block_proofs.esz, Block_proofs.wd, set_skip; destruct (en_plan y) eqn:P; cbn [en_plan en_len]; rewrite ?P; reflexivity).
        rewrite Ey, IH. unfold set_skip, sub_ad. destruct (en_plan y) as [b|o g r s0] eqn:P; cbn [en_plan en_len]; [rewrite P; tauto|]. rewrite Hy. tauto. }
      destruct K2 as [[l ->]|[-> K2]].
      * destruct (IH (idx + 1) es2 (len + l) (pos + c) Hnr2 G2 L2 T2 Hc ltac:(lia)) as [es' [r [R [X [K B]]]]].
        exists es', r. split; [exact R|]. split; [|split; [destruct K as [K|[-> K]]; [left; exact K|right; split; [reflexivity|lia]]|]].
        2:{ rewrite B. replace (if idx + 1 <=? q then (q - (idx + 1)) * n + rm else 0) with 0 by (replace (idx + 1 <=? q) with false by lia; reflexivity).
            change (N.to_nat 0) with 0%nat. cbn [skipn].
            rewrite (allin_step esz (fun o => skipn (N.to_nat sk) (ra (pos + o) (N.to_nat n))) (fun o => ca (pos + c) c n m o) es (ext_len_stable t) 0 es2 X12 (proj1 B1 Logic.I)).
            apply allin_ext. intros o y r' _. now rewrite SplitA. }
        set (s' := if idx + 1 <=? q then (q - (idx + 1)) * n + rm else 0) in *.
        assert (Es' : s' = 0) by (unfold s'; replace (idx + 1 <=? q) with false by lia; reflexivity).
        clearbody s'. subst s'.
        eapply exts_ext. 2:{ eapply exts_app; [apply ext_len_stable| |exact X12|exact X]. intros vs y y' off A. reflexivity. }
        intros o y Hy. cbv beta. rewrite Split. reflexivity.
      * cbn [recast eof]. exists es2, eof. split; [reflexivity|]. split; [|split; [right; split; [reflexivity|nia]|]].
        2:{ cbn [okr eof]. split; [tauto|]. intros A. apply B1. apply (allin_first esz _ (fun o => ca (pos + c) c n m o)).
            revert A. apply allin_ext. intros o y r' _. now rewrite SplitA. }
        eapply exts_ext; [|exact X12]. intros o y _. cbv beta. rewrite Split.
        rewrite (gv_late (ca (pos + c) c n m o)); [now rewrite app_nil_r|]. intros a Ha. apply ca_in in Ha. lia.
Qed.
Lemma from_cut start blen es s n m : es <> [] -> 0 < n -> Forall good_entry es ->
  Forall (fun y => en_len y = n) es -> blen / total es = N.of_nat m -> 0 < N.of_nat m -> start + N.of_nat m * total es <= lenN W ->
  exists es' r, contig_read_from E f t e start blen es s = (es', r)
    /\ exts esz (fun off _ => gv (skipn (N.to_nat s) (ca start (total es) n m off))) 0 es es'
    /\ ((exists l, r = Ok l) \/ (r = eof /\ lenN f < start + N.of_nat m * total es))
    /\ (okr r <-> allin esz (fun r => r) (fun off _ => skipn (N.to_nat s) (ca start (total es) n m off)) 0 es).
Proof.
  intros Hne Hn G L Hb Hm H. destruct Ad as [A1 A2]. pose proof (total_pos t es n Hne Hn G L) as Tp.
  assert (Tl : total es <= N.of_nat m * total es) by nia.
  unfold contig_read_from, seek_to. replace (start <=? seek_max E) with true by lia. cbn [bind].
  unfold block_size. rewrite (block_size_ok E t) by (auto; lia). cbn [bind].
  unfold udiv at 1. replace (0 + total es =? 0) with false by lia. cbn [bind].
  destruct es as [|x0 es0] eqn:Ees; [congruence|]. rewrite <- Ees in *.
  assert (Hx : en_len x0 = n) by (rewrite Ees in L; now inversion L). rewrite Hx.
  unfold udiv. replace (n =? 0) with false by lia. cbn [bind].
  replace (blen / (0 + total es)) with (N.of_nat m) by (rewrite N.add_0_l; symmetry; exact Hb).
  rewrite Nat2N.id.
  destruct (loop_cut (fun idx es => if idx <? s / n then None
      else if idx =? s / n then Some (set_all_skips (s mod n) es) else Some (set_all_skips 0 es))
      n (total es) (s / n) (s mod n) (nreads es) Hn ltac:(apply N.mod_lt; lia)
      ltac:(intros idx ys _; cbv beta; destruct (idx <? s / n); [reflexivity|]; destruct (idx =? s / n); reflexivity)
      m 0 es 0 start eq_refl G L eq_refl ltac:(lia) ltac:(lia)) as [es' [r [R [X [K B]]]]].
  assert (Es : (s / n - 0) * n + s mod n = s) by (rewrite N.sub_0_r; pose proof (N.div_mod s n ltac:(lia)); lia).
  assert (Q0 : (0 <=? s / n) = true) by (apply N.leb_le, N.le_0_l). rewrite Q0, Es in X, B.
  exists es', r. split; [exact R|]. split; [exact X|]. split; [exact K|exact B].
Qed.
Lemma skips_cut start blen es s n m : es <> [] -> 0 < n -> Forall good_entry es ->
  Forall (fun y => en_len y = n) es -> blen / total es = N.of_nat m -> 0 < N.of_nat m -> start + N.of_nat m * total es <= lenN W ->
  exists es' r, contig_read_skips E f t e start blen es (repeat s (nreads es)) = (es', r)
    /\ exts esz (fun off _ => gv (skipn (N.to_nat s) (ca start (total es) n m off))) 0 es es'
    /\ ((exists l, r = Ok l) \/ (r = eof /\ lenN f < start + N.of_nat m * total es))
    /\ (okr r <-> allin esz (fun r => r) (fun off _ => skipn (N.to_nat s) (ca start (total es) n m off)) 0 es).
Proof.
  intros Hne Hn G L Hb Hm H. destruct Ad as [A1 A2]. pose proof (total_pos t es n Hne Hn G L) as Tp.
  assert (Tl : total es <= N.of_nat m * total es) by nia.
  unfold contig_read_skips, seek_to. replace (start <=? seek_max E) with true by lia. cbn [bind].
  unfold block_size. rewrite (block_size_ok E t) by (auto; lia). cbn [bind].
  unfold udiv at 1. replace (0 + total es =? 0) with false by lia. cbn [bind].
  destruct es as [|x0 es0] eqn:Ees; [congruence|]. rewrite <- Ees in *.
  assert (Hx : en_len x0 = n) by (rewrite Ees in L; now inversion L). rewrite Hx.
  rewrite div_skips_repeat by exact Hn. cbn [bind].
  replace (blen / (0 + total es)) with (N.of_nat m) by (rewrite N.add_0_l; symmetry; exact Hb).
  rewrite Nat2N.id. set (k := nreads es) in *.
  destruct (Nat.eq_dec k 0) as [K0|K0].
  - rewrite K0. cbn [repeat].
    destruct (loop_cut (fun idx es => if forallb (fun p => fst p <=? idx) ([] : list (N * N))
        then Some (zip_skips (map (skip_for idx) []) es) else None)
        n (total es) 0 0 0%nat Hn Hn
        ltac:(intros idx ys Hy; cbv beta; cbn [forallb map]; replace (idx <? 0) with false by lia;
              change (@nil N) with (repeat (if idx =? 0 then 0 else 0) 0); rewrite <- Hy, (zip_repeat t); reflexivity)
        m 0 es 0 start K0 G L eq_refl ltac:(lia) ltac:(lia)) as [es' [r [R [X [K B]]]]].
    exists es', r. split; [exact R|]. split; [|split; [exact K|]]. { eapply nreads_0; [exact K0|exact X]. }
    rewrite B. split; intros _; now apply allin_0.
  - destruct (loop_cut (fun idx es => if forallb (fun p => fst p <=? idx) (repeat (s / n, s mod n) k)
        then Some (zip_skips (map (skip_for idx) (repeat (s / n, s mod n) k)) es) else None)
        n (total es) (s / n) (s mod n) k Hn ltac:(apply N.mod_lt; lia)) with (m := m) (idx := 0) (es := es) (len := 0) (pos := start)
        as [es' [r [R [X [K B]]]]]; auto; try lia.
    + intros idx ys Hy. cbv beta. rewrite map_repeat'. unfold skip_for. cbn [fst snd].
      assert (Zr : forall v, zip_skips (repeat v k) ys = set_all_skips v ys) by (intros v; rewrite <- Hy; apply (zip_repeat t)).
      rewrite Zr.
      assert (Fb : forallb (fun p : N * N => fst p <=? idx) (repeat (s / n, s mod n) k) = (s / n <=? idx)).
      { destruct k as [|k']; [congruence|]. clear. induction k' as [|k' IH].
        - cbn [repeat forallb fst]. apply andb_true_r.
        - cbn [repeat forallb fst] in *. rewrite IH. apply andb_diag. }
      rewrite Fb. destruct (idx <? s / n) eqn:Q.
      * now replace (s / n <=? idx) with false by lia.
      * now replace (s / n <=? idx) with true by lia.
    + assert (Es : (s / n - 0) * n + s mod n = s) by (rewrite N.sub_0_r; pose proof (N.div_mod s n ltac:(lia)); lia).
      assert (Q0 : (0 <=? s / n) = true) by (apply N.leb_le, N.le_0_l). rewrite Q0, Es in X, B.
      exists es', r. split; [exact R|]. split; [exact X|]. split; [exact K|exact B].
Qed.

(** ** Interleaved *)
Local Notation is_skip0 := (is_skip0 t).
Local Notation max_room := (max_room t).
Lemma row_cut base row es : forall off any pos, pos = base + off ->
  Forall good_entry es -> Forall is_skip0 es -> pos + rowtotal es <= lenN W ->
  exists es' r, inter_row E f t e row es any pos = (es', r)
    /\ exts wd (fun o _ => gv [base + o]) off es es' /\ Forall is_skip0 es'
    /\ (max_room es = 0%nat -> es' = es)
    /\ (r = Ok (any || Nat.ltb 0 (max_room es), pos + rowtotal es) \/ (r = eof /\ lenN f < pos + rowtotal es))
    /\ (okr r <-> allin wd (fun _ => 1%nat) (fun o _ => [base + o]) off es).
Proof.
  pose proof (size_bytes_pos t) as Hs.
  induction es as [|y es IH]; intros off any pos Hp G Z H; cbn [inter_row Block_proofs.max_room].
  - exists [], (Ok (any, pos)). split; [reflexivity|]. split; [exact Logic.I|]. do 2 (split; [auto|]). split; [left|cbn [okr allin]; tauto].
    change (Nat.ltb 0 0) with false. rewrite orb_false_r. do 3 f_equal. cbn. lia.
  - unfold Block_proofs.rowtotal in H |- *. cbn [fold_right] in H |- *. fold (rowtotal es) in H |- *.
    inversion G as [|z l G1 G2]; inversion Z as [|z' l' Z1 Z2]; subst z l z' l'.
    unfold Block_proofs.wd, Block_proofs.good_entry, Block_proofs.is_skip0 in G1, Z1. destruct (en_plan y) as [b|o g r s] eqn:P.
    + assert (Ew : wd y = Z.to_N b) by (unfold Block_proofs.wd; now rewrite P). rewrite Ew in H |- *.
      rewrite (seek_inside E W Ad) by lia.
      destruct (IH (off + wd y) any (pos + Z.to_N b)) as [es' [r [R [X [Z' [M [K B]]]]]]]; auto; try lia.
      rewrite R. exists (y :: es'), r. split; [reflexivity|]. split.
      { cbn [Block_proofs.exts]. split; [|exact X]. split; [reflexivity|]. now rewrite P. }
      split; [constructor; [unfold Block_proofs.is_skip0; now rewrite P|exact Z']|]. cbn [Nat.max]. split; [intros Q; f_equal; auto|].
      split; [|rewrite B; cbn [allin]; rewrite P; tauto].
      destruct K as [->|[-> K]]; [left; do 2 f_equal; lia|right; split; [reflexivity|lia]].
    + subst s. assert (Ew : wd y = sz) by (unfold Block_proofs.wd; now rewrite P). rewrite Ew in H |- *.
      rewrite read_at_cut. replace (0 <=? row) with true by lia.
      destruct (av pos) eqn:A.
      * assert (Gp : gv [base + off] = [at_ pos]) by (unfold gv; cbn [filter]; rewrite <- Hp, A; reflexivity).
        destruct r as [|r].
        -- destruct (IH (off + wd y) any (pos + sz)) as [es' [r [R [X [Z' [M [K B]]]]]]]; auto; try lia.
           rewrite R. exists (y :: es'), r. split; [reflexivity|]. split.
           { cbn [Block_proofs.exts]. split; [|exact X]. split; [reflexivity|]. rewrite P. exists 0. cbn [firstn]. now rewrite app_nil_r. }
           split; [constructor; [unfold Block_proofs.is_skip0; now rewrite P|exact Z']|]. cbn [Nat.max]. split; [intros Q; f_equal; auto|].
           split; [|rewrite B; cbn [allin firstn]; rewrite P, avs_cons, avs_nil, <- Hp; tauto].
           destruct K as [->|[-> K]]; [left; do 2 f_equal; lia|right; split; [reflexivity|lia]].
        -- destruct (IH (off + wd y) true (pos + sz)) as [es' [q [R [X [Z' [M [K B]]]]]]]; auto; try lia.
           rewrite R. eexists (_ :: es'), q. split; [reflexivity|]. split.
           { cbn [Block_proofs.exts]. split; [|exact X]. split; [reflexivity|]. rewrite P. cbn [en_plan]. exists 0. rewrite Gp. cbn [firstn length].
             rewrite firstn_nil. f_equal. lia. }
           split; [constructor; [reflexivity|exact Z']|]. split; [intros Q; exfalso; lia|].
           split; [|rewrite B; cbn [allin firstn]; rewrite P, avs_cons, avs_nil, <- Hp; tauto].
           destruct K as [->|[-> K]]; [left|right; split; [reflexivity|lia]]. f_equal. f_equal; [|lia].
           cbn [orb]. symmetry. apply orb_true_iff. right. apply Nat.ltb_lt. lia.
      * unfold CutFile_proofs.av in A. cbn [recast eof]. exists (y :: es), eof. split; [reflexivity|]. split.
        { apply exts_none. intros o' z Ho _. apply gv_late. intros a [<-|[]]. lia. }
        split; [exact Z|]. split; [reflexivity|]. split; [right; split; [reflexivity|lia]|].
        cbn [okr eof allin firstn]. rewrite P, avs_cons, <- Hp. unfold CutFile_proofs.av at 1. rewrite A. split; [tauto|intros [[X _] _]; discriminate].
Qed.

Definition ia (pos row : N) (m : nat) (off : N) : list N := map (fun k => pos + N.of_nat k * row + off) (seq 0 m).
Lemma ia_S pos row m off : ia pos row (S m) off = (pos + off) :: ia (pos + row) row m off.
Proof.
  unfold ia. cbn [seq map]. f_equal; [lia|]. rewrite <- seq_shift, map_map. apply map_ext. intros k. lia.
Qed.
Lemma ia_skipn k : forall pos row m off, skipn k (ia pos row m off) = ia (pos + N.of_nat k * row) row (m - k) off.
Proof.
  induction k as [|k IH]; intros pos row m off.
  - cbn [skipn]. rewrite Nat.sub_0_r. f_equal. lia.
  - destruct m as [|m]; [reflexivity|]. rewrite ia_S. cbn [skipn]. rewrite IH. f_equal; lia.
Qed.
Lemma ia_in pos row m off a : In a (ia pos row m off) -> pos <= a.
Proof. unfold ia. rewrite in_map_iff. intros [k [<- _]]. lia. Qed.

Lemma allin_room0 step D es : forall off, allin step (fun _ => 0%nat) D off es.
Proof.
  induction es as [|y es IH]; intros off; cbn [allin]; [exact Logic.I|]. split; [|apply IH]. destruct (en_plan y); [exact Logic.I|]. rewrite firstn_O. now apply avs_nil.
Qed.
Lemma max_left base es : forall off es1, allin wd (fun _ => 1%nat) (fun o _ => [base + o]) off es ->
  exts wd (fun o _ => gv [base + o]) off es es1 -> max_room es1 = (max_room es - 1)%nat.
Proof.
  induction es as [|y es IH]; intros off [|y1 es1] A X; try contradiction; [reflexivity|]. cbn [allin] in A. destruct A as [A1 A2], X as [X1 X2].
  cbn [Block_proofs.max_room]. rewrite (IH _ _ A2 X2). destruct X1 as [_ X1]. destruct (en_plan y) as [b|o g rm s'] eqn:P; [rewrite X1; lia|].
  destruct X1 as [s2 ->]. cbn [firstn] in A1. rewrite (gv_all _ A1). cbn [length]. lia.
Qed.

Lemma rows_cut m : forall row es read pos R, Forall good_entry es -> Forall is_skip0 es ->
  rowtotal es = R -> pos + N.of_nat m * R <= lenN W ->
  exists es' r, inter_rows E f t e m row es read pos = (es', r)
    /\ exts wd (fun o _ => gv (ia pos R m o)) 0 es es'
    /\ ((exists l, r = Ok l) \/ (r = eof /\ lenN f < pos + N.of_nat m * R))
    /\ (okr r <-> allin wd (fun _ => S (max_room es)) (fun o _ => ia pos R m o) 0 es).
Proof.
  induction m as [|m IH]; intros row es read pos R G Z Hr H; cbn [inter_rows].
  - exists es, (Ok read). split; [reflexivity|]. split; [|split; [left; eauto|]].
    { eapply exts_ext; [|apply exts_nil]. reflexivity. }
    cbn [okr]. split; [|tauto]. intros _. now apply allin_none.
  - destruct (row_cut pos row es 0 false pos ltac:(lia) G Z ltac:(lia)) as [es1 [r1 [Q [X [Z1 [M [K B]]]]]]]. rewrite Q.
    assert (Sa : forall mr, allin wd (fun _ => S mr) (fun o _ => ia pos R (S m) o) 0 es <-> okr r1 /\ allin wd (fun _ => mr) (fun o _ => ia (pos + R) R m o) 0 es).
    { intros mr. rewrite B, <- allin_and. apply allin_ext. intros o y r' _. now rewrite ia_S. }

    assert (Split : forall o, gv (ia pos R (S m) o) = gv [pos + o] ++ gv (ia (pos + R) R m o)).
    { intros o. rewrite ia_S. apply (gv_app [pos + o]). }
    destruct K as [->|[-> K]].
    + cbn [orb]. destruct (Nat.ltb 0 (max_room es)) eqn:K.
      * rewrite Hr.
        assert (G1 : Forall good_entry es1) by (eapply exts_forall; [|exact X|exact G]; intros vs y y' A; apply ext_wd in A; tauto).
        assert (R1 : rowtotal es1 = R) by (rewrite <- Hr; eapply exts_rowtotal; exact X).
        destruct (IH (row + 1) es1 (read + 1) (pos + R) R G1 Z1 R1 ltac:(lia)) as [es' [r [Q' [X' [K' B']]]]].
        exists es', r. split; [exact Q'|]. split; [|split; [destruct K' as [K'|[-> K']]; [left; exact K'|right; split; [reflexivity|lia]]|]].
        2:{ rewrite Sa, B', (allin_same wd (fun _ => S (max_room es1)) (fun o => ia (pos + R) R m o) es (wd_stable t) ltac:(reflexivity) 0 _ es1 X).
            assert (Mr : S (max_room es1) = max_room es).
            { apply Nat.ltb_lt in K. rewrite (max_left pos es 0 es1 (proj1 B Logic.I) X). lia. }
            rewrite Mr. cbn [okr]. tauto. }
        eapply exts_ext. 2:{ eapply exts_app; [apply wd_stable| |exact X|exact X']. intros vs y y' o A. reflexivity. }
        intros o y _. cbv beta. now rewrite Split.
      * apply Nat.ltb_ge in K. assert (K0 : max_room es = 0%nat) by lia. rewrite (M K0). eexists es, _. split; [reflexivity|].
        split; [now apply exts_full|]. split; [left; eauto|]. rewrite Sa. cbn [okr]. split; [intros _|tauto]. split; [exact Logic.I|].
        rewrite K0. apply allin_room0.
    + cbn [recast eof]. exists es1, eof. split; [reflexivity|]. split; [|split; [right; split; [reflexivity|rewrite Hr in K; nia]|rewrite Sa; cbn [okr eof]; tauto]].
      eapply exts_ext; [|exact X]. intros o y _. cbv beta. rewrite Split, (gv_late (ia (pos + R) R m o)); [now rewrite app_nil_r|].
      intros a Ha. apply ia_in in Ha. lia.
Qed.

Lemma inter_cut start blen es s m : es <> [] -> Forall good_entry es -> common_skip t s es ->
  blen = N.of_nat m * rowtotal es -> 0 < N.of_nat m -> s <= N.of_nat m -> start + blen <= lenN W ->
  exists es' r, inter_read E f t e start blen es = (es', r)
    /\ exts wd (fun o _ => gv (skipn (N.to_nat s) (ia start (rowtotal es) m o))) 0 es es'
    /\ ((exists l, r = Ok l) \/ (r = eof /\ lenN f < start + blen))
    /\ (okr r <-> allin wd (fun _ => S (max_room es)) (fun o _ => skipn (N.to_nat s) (ia start (rowtotal es) m o)) 0 es).
Proof.
  intros Hne G C Hb Hm Hs H. destruct Ad as [A1 A2]. pose proof (rowtotal_pos t es Hne G) as Rp.
  assert (Rl : rowtotal es <= N.of_nat m * rowtotal es) by nia.
  assert (Sl : s * rowtotal es <= N.of_nat m * rowtotal es) by (apply N.mul_le_mono_r; exact Hs).
  assert (Ms : N.of_nat m <= N.of_nat m * rowtotal es) by nia.
  unfold inter_read. rewrite (block_skips_common t s es C), min_repeat.
  unfold seek_to. replace (start <=? seek_max E) with true by lia. cbn [bind].
  rewrite (row_size_ok E t) by (auto; lia). cbn [bind].
  unfold udiv. replace (rowtotal es =? 0) with false by lia. cbn [bind].
  replace (blen / rowtotal es) with (N.of_nat m) by (rewrite Hb, N.div_mul by lia; reflexivity).
  destruct (Block_proofs.nreads t es) as [|k] eqn:K.
  - replace (0 <? 0) with false by lia. rewrite N.sub_0_r, Nat2N.id.
    set (es1 := map _ es).
    assert (E1 : es1 = es).
    { unfold es1. rewrite <- (map_id es) at 2. apply map_ext_in. intros y Hy.
      destruct (en_plan y) as [b|o g r s'] eqn:P; [reflexivity|]. exfalso.
      unfold Block_proofs.nreads in K. assert (Q : In y (filter (is_read t) es)) by (apply filter_In; split; [exact Hy|unfold is_read; now rewrite P]).
      destruct (filter (is_read t) es); [contradiction|discriminate]. }
    rewrite E1.
    assert (Z : Forall is_skip0 es).
    { clear -K. unfold Block_proofs.nreads in K. induction es as [|y es IH]; [constructor|].
      cbn [filter] in *. destruct (is_read t y) eqn:Q; [discriminate|]. unfold is_read in Q.
      destruct (en_plan y) eqn:P; [|discriminate]. constructor; [unfold Block_proofs.is_skip0; now rewrite P|auto]. }
    destruct (rows_cut m 0 es 0 start (rowtotal es) G Z eq_refl ltac:(lia)) as [es' [r [Q [X [K' B]]]]].
    exists es', r. split; [exact Q|]. split; [eapply nreads_0; [exact K|exact X]|]. split; [|rewrite B; split; intros _; now apply allin_0]. destruct K' as [K'|[-> K']]; [left; exact K'|right; split; [reflexivity|lia]].
  - set (es1 := map _ es).
    assert (Pos : (if 0 <? s then off <- imul E (as_i64 s) (as_i64 (rowtotal es)) ;;
                     pos' <- seek_rel E start off ;; Ok (pos', N.of_nat m) else Ok (start, N.of_nat m))
                  = Ok (start + s * rowtotal es, N.of_nat m)).
    { destruct (0 <? s) eqn:S0; [|do 2 f_equal; lia].
      pose proof (seek_prod E W Ad start s (rowtotal es) ltac:(lia) ltac:(lia) ltac:(lia)) as Q.
      destruct (imul E (as_i64 s) (as_i64 (rowtotal es))); cbn [bind] in *; try discriminate.
      rewrite Q. reflexivity. }
    rewrite Pos.
    assert (X1 : exts wd (fun _ _ => []) 0 es es1).
    { unfold es1. clear. generalize 0. induction es as [|y es IH]; intros o; cbn [map Block_proofs.exts]; [exact Logic.I|].
      split; [|apply IH]. unfold ext. destruct (en_plan y) as [b|o' g r s'] eqn:P; cbn [en_len en_plan].
      - split; [reflexivity|exact P].
      - split; [reflexivity|]. exists (s' - s). now rewrite firstn_nil, app_nil_r, Nat.sub_0_r. }
    assert (Z1 : Forall is_skip0 es1).
    { unfold es1. apply Forall_forall. intros z Hz. apply in_map_iff in Hz. destruct Hz as [y [<- Hy]].
      unfold Block_proofs.is_skip0. destruct (en_plan y) as [b|o' g r s'] eqn:P; cbn [en_plan]; [now rewrite P|].
      rewrite (C y Hy _ _ _ _ P). lia. }
    assert (G1 : Forall good_entry es1) by (eapply exts_forall; [|exact X1|exact G]; intros vs y y' A; apply ext_wd in A; tauto).
    assert (R1 : rowtotal es1 = rowtotal es) by (eapply exts_rowtotal; exact X1).
    destruct (rows_cut (N.to_nat (N.of_nat m - s)) 0 es1 0 (start + s * rowtotal es) (rowtotal es) G1 Z1 R1) as [es' [r [Q [X [K' B]]]]].
    { rewrite N2Nat.id, N.mul_sub_distr_r. lia. }
    exists es', r. split; [exact Q|].
    split; [|split; [destruct K' as [K'|[-> K']]; [left; exact K'|right; split; [reflexivity|rewrite N2Nat.id, N.mul_sub_distr_r in K'; lia]]|]].
    2:{ rewrite B, (allin_same wd (fun _ => S (max_room es1)) _ es (wd_stable t) ltac:(reflexivity) 0 _ es1 X1).
        rewrite (max_room_exts t wd (fun _ _ => []) 0%nat es 0 es1 (fun _ _ _ => eq_refl) X1), Nat.sub_0_r. apply allin_ext.
        intros o y r' _. rewrite ia_skipn. f_equal. f_equal; lia. }
    eapply exts_ext. 2:{ eapply exts_app; [apply wd_stable| |exact X1|exact X]. intros vs y y' o A. reflexivity. }
    intros o y _. cbv beta. cbn [app]. rewrite ia_skipn. f_equal. f_equal; lia.
Qed.
End Arrive.
