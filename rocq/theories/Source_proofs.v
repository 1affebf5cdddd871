(** * Reads of several channels by the numbers of their samples *)
From Coq Require Import Sorting.Sorted Permutation.
From Verif Require Import Base Lib DataTypes MetaData DataBlock Index RawData ChannelReader TdmsFile
  SpecIndex SpecSession SpecRead SpecMulti SpecSource
  Block_proofs Request_proofs Plan_proofs Read_proofs Session_proofs History_proofs SkipReq_proofs Serve_proofs Deliver_proofs.

(** ** Values by number *)
Definition named_by {V} (xs col : list V) (nums : list N) : Prop :=
  length col = length nums /\ forall a i, nth_error nums a = Some i -> nth_error col a = nth_error xs (N.to_nat i).

Lemma nth_firstn_lt {A} (l : list A) : forall n a, (a < n)%nat -> nth_error (firstn n l) a = nth_error l a.
Proof. induction l as [|x l IH]; intros [|n] [|a] L; cbn [firstn nth_error]; try lia; auto. apply IH. lia. Qed.
Lemma nth_some_lt {A} (l : list A) a x : nth_error l a = Some x -> (a < length l)%nat.
Proof. intros X. apply nth_error_Some. congruence. Qed.

Lemma named_firstn V (xs col : list V) nums n : named_by xs col nums -> named_by xs (firstn n col) (firstn n nums).
Proof.
  intros [L X]. split; [rewrite !firstn_length; lia|]. intros a i Ha. pose proof (nth_some_lt _ _ _ Ha) as La.
  rewrite firstn_length in La. rewrite nth_firstn_lt in Ha by lia. rewrite nth_firstn_lt by lia. auto.
Qed.
Lemma named_skipn V (xs col : list V) nums n : named_by xs col nums -> named_by xs (skipn n col) (skipn n nums).
Proof.
  intros [L X]. split; [rewrite !skipn_length; lia|]. intros a i Ha. rewrite skipn_at in Ha. rewrite skipn_at. now apply X.
Qed.
Lemma named_got V (xs col : list V) nums lay n total reqs q : named_by xs col nums ->
  named_by xs (got_of lay n total reqs q col) (got_of lay n total reqs q nums).
Proof. intros X. unfold got_of. destruct lay; auto using named_firstn, named_skipn. Qed.

Lemma filled_put V (xs o buf vs : list V) src nums c : filled_by src o xs buf -> named_by xs vs nums ->
  (N.to_nat c + length vs <= length buf)%nat ->
  filled_by (place_at src c (map Some nums)) o xs (firstn (N.to_nat c) buf ++ vs ++ skipn (N.to_nat c + length vs) buf).
Proof.
  intros [Lo [Lb X]] [Ln Y] Fit. unfold place_at. set (m := N.to_nat c) in *. rewrite map_length.
  assert (Ls : length (firstn m src ++ map Some nums ++ skipn (m + length nums) src) = length src).
  { rewrite !app_length, map_length, firstn_length, skipn_length. lia. }
  split; [congruence|]. split.
  { rewrite Ls, !app_length, firstn_length, skipn_length. lia. }
  intros a s Ha. destruct (le_lt_dec m a) as [Hi|Hi].
  - rewrite nth_error_app2 in Ha by (rewrite firstn_length; lia). rewrite nth_error_app2 by (rewrite firstn_length; lia).
    rewrite firstn_length, Nat.min_l in * by lia. destruct (le_lt_dec (length nums) (a - m)) as [Hj|Hj].
    + rewrite nth_error_app2 in Ha by (rewrite map_length; lia). rewrite nth_error_app2 by lia.
      rewrite map_length in Ha. rewrite skipn_at in Ha. rewrite skipn_at.
      replace (m + length nums + (a - m - length nums))%nat with a in Ha by lia.
      replace (m + length vs + (a - m - length vs))%nat with a by lia. now apply X.
    + rewrite nth_error_app1 in Ha by (rewrite map_length; lia). rewrite nth_error_app1 by lia.
      rewrite nth_error_map in Ha. destruct (nth_error nums (a - m)) as [i|] eqn:Q; [|discriminate].
      cbn [option_map] in Ha. injection Ha as <-. now apply Y.
  - rewrite nth_error_app1 in Ha by (rewrite firstn_length; lia). rewrite nth_error_app1 by (rewrite firstn_length; lia).
    rewrite nth_firstn_lt in Ha by lia. rewrite nth_firstn_lt by lia. now apply X.
Qed.

(** ** The column of a block within the samples of the channel *)
Lemma first_in_over ls j : Forall (fun l => (j <= l_block l)%nat) ls -> first_in ls j = 0.
Proof.
  induction 1 as [|l ls Hl _ IH]; [reflexivity|]. unfold first_in in *. cbn [fold_right]. rewrite IH.
  replace (Nat.ltb (l_block l) j) with false by lia. reflexivity.
Qed.
Lemma samples_within f t bs ls l : Forall (located bs) ls -> ascending ls -> In l ls ->
  exists pre post, samples_at f t bs ls = pre ++ loc_samples f t bs l ++ post
    /\ length pre = N.to_nat (first_in ls (l_block l)).
Proof.
  unfold ascending, samples_at. induction ls as [|x ls IH]; intros Lo Asc Hin; [destruct Hin|].
  inversion Lo as [|y z Lx Lo']; subst y z. cbn [map] in Asc. inversion Asc as [|y z Asc' Hx]; subst y z.
  rewrite Forall_map in Hx. cbn [map concat].
  destruct Hin as [->|Hin].
  - exists [], (concat (map (loc_samples f t bs) ls)). split; [reflexivity|].
    rewrite first_in_over; [reflexivity|]. constructor; [lia|]. eapply Forall_impl; [|exact Hx]. cbv beta. intros; lia.
  - destruct (IH Lo' Asc' Hin) as [pre [post [E1 L1]]]. exists (loc_samples f t bs x ++ pre), post. split.
    + rewrite E1, <- app_assoc. reflexivity.
    + rewrite app_length, L1. destruct (located_samples f t bs x Lx) as [_ ->]. unfold first_in at 2. cbn [fold_right].
      rewrite Forall_forall in Hx. specialize (Hx l Hin). replace (Nat.ltb (l_block x) (l_block l)) with true by lia.
      fold (first_in ls (l_block l)). lia.
Qed.

Section Follow.
Context (f : list byte) (t : sty) (H : list segment).
Local Notation V := (carrier t).
Local Notation bs := (blocks_after H).
Definition good_chan (p : str) : Prop := stored f t H p /\ ascending (locs_after H p).

Lemma column_named p j c s b start : good_chan p -> In (j, c, s) (needed (locs_after H p) start) -> nth_error bs j = Some b ->
  named_by (samples_after f t H p) (block_samples f t b c (per_block b)) (numbers (first_in (locs_after H p) j) (per_block b)).
Proof.
  intros [St Asc] Hin Hb. apply needed_in in Hin. destruct Hin as [l [Hl [Lb [Lc _]]]].
  unfold stored in St. rewrite Forall_forall in St. destruct (St l Hl) as [b1 [m [Hb1 [Hw [Hm _]]]]].
  pose proof (locs_located H p) as Ll. rewrite Forall_forall in Ll. destruct (Ll l Hl) as [b' [m' [Hb2 [Hm2 Hl2]]]].
  rewrite Lb, Hb in Hb1, Hb2. injection Hb1 as <-. injection Hb2 as <-. rewrite Hm in Hm2. injection Hm2 as <-.
  destruct Hw as [n [ck [_ [_ [_ [Fu _]]]]]]. rewrite Forall_forall in Fu.
  assert (Pb : per_block b = l_n l).
  { unfold per_block, per_chunk. rewrite Hl2, (proj1 (Fu m (nth_error_In _ _ Hm))).
    destruct (b_chans b) as [|m0 ms]; [now destruct (l_chan l)|]. rewrite (proj1 (Fu m0 (or_introl eq_refl))). lia. }
  destruct (samples_within f t bs (locs_after H p) l (locs_located H p) Asc Hl) as [pre [post [E1 L1]]].
  unfold samples_after. rewrite E1. rewrite Lb in L1. rewrite <- Lc, Pb.
  assert (Es : loc_samples f t bs l = block_samples f t b (l_chan l) (l_n l)) by (unfold loc_samples; now rewrite Lb, Hb).
  rewrite Es. set (col := block_samples f t b (l_chan l) (l_n l)).
  assert (Lcol : length col = N.to_nat (l_n l)) by apply block_samples_length.
  split; [unfold numbers; now rewrite map_length, seq_length|].
  intros a i Ha. unfold numbers in Ha. rewrite nth_error_map in Ha.
  destruct (nth_error (seq 0 (N.to_nat (l_n l))) a) as [k|] eqn:Q; [|discriminate]. cbn [option_map] in Ha. injection Ha as <-.
  pose proof (nth_some_lt _ _ _ Q) as La. rewrite seq_length in La.
  rewrite (nth_error_nth' _ 0%nat) in Q by (rewrite seq_length; lia). rewrite seq_nth in Q by lia. injection Q as <-.
  rewrite nth_error_app2 by lia. rewrite nth_error_app1 by lia. f_equal. lia.
Qed.

Definition follows (po : str * list V) (k : taker t) (kp : picker) : Prop :=
  tk_needs t k = needed (pk_locs kp) (pk_start kp) /\ pk_locs kp = locs_after H (fst po) /\ tk_count t k = pk_count kp
  /\ filled_by (pk_from kp) (snd po) (samples_after f t H (fst po)) (tk_buf t k).

Lemma follows_wants po k kp j : follows po k kp -> wants t j k = seeks j kp.
Proof.
  intros [A [B [C [D [D' _]]]]]. unfold wants, seeks. rewrite A, C. unfold lenN. rewrite D'. reflexivity.
Qed.
Lemma follows_asks po k kp j : follows po k kp -> asks t j k = calls j kp.
Proof.
  intros X. unfold asks, calls. rewrite (follows_wants po k kp j X). destruct (seeks j kp) as [[c s]|]; [|reflexivity].
  destruct X as [A [B [C [D [D' _]]]]]. unfold request. cbn [fst snd]. rewrite C. unfold lenN. rewrite D'. reflexivity.
Qed.
Lemma follows_step po k kp j b reqs : good_chan (fst po) -> nth_error bs j = Some b -> follows po k kp ->
  follows po (step f t j b reqs k) (pick j b reqs kp).
Proof.
  intros G Hb X. unfold step, pick. rewrite (follows_wants po k kp j X). destruct (seeks j kp) as [[c s]|] eqn:W; [|exact X].
  assert (Ww : wants t j k = Some (c, s)) by (rewrite (follows_wants po k kp j X); exact W).
  destruct X as [A [B [C D]]]. split; [exact A|]. split; [exact B|]. cbn [tk_count tk_buf pk_count pk_from]. split; [now rewrite C|].
  destruct (wants_need t _ _ _ _ Ww) as [Lt Hin]. rewrite A, B in Hin.
  assert (Er : mkReq c (N.to_nat (lenN (tk_buf t k) - tk_count t k)) s = request kp (c, s)).
  { unfold request. cbn [fst snd]. rewrite C. unfold lenN. now rewrite (proj1 (proj2 D)). }
  pose proof (named_got V _ _ _ (b_layout b) (per_chunk b) (per_block b) reqs (request kp (c, s))
    (column_named (fst po) j c s b _ G Hin Hb)) as Ng.
  rewrite Er, C, <- B in *. unfold put. apply filled_put; [exact D|exact Ng|].
  pose proof (got_length t (b_layout b) (per_chunk b) (per_block b) reqs (request kp (c, s)) (block_samples f t b c (per_block b))) as Gl.
  unfold request in Gl at 2. cbn [rq_room] in Gl. destruct D as [_ [D' _]]. rewrite D'. unfold lenN in *. rewrite D' in Lt. lia.
Qed.

Definition all_follow (pos : list (str * list V)) (kks : list (taker t * picker)) : Prop :=
  Forall2 (fun po kk => follows po (fst kk) (snd kk)) pos kks.
Lemma all_asks j pos kks : all_follow pos kks -> map (asks t j) (map fst kks) = map (calls j) (map snd kks).
Proof. induction 1 as [|po kk pos kks Hf _ IH]; [reflexivity|]. cbn [map]. now rewrite IH, (follows_asks po _ _ j Hf). Qed.
Lemma all_serve js : forall pos kks, Forall (fun po => good_chan (fst po)) pos -> all_follow pos kks ->
  exists kks', all_follow pos kks'
    /\ map fst kks' = fold_left (fun ks j => serve f t bs j ks) js (map fst kks)
    /\ map snd kks' = fold_left (fun ks j => pick_all bs j ks) js (map snd kks).
Proof.
  induction js as [|j js IH]; intros pos kks G X; [exists kks; auto|]. cbn [fold_left].
  rewrite serve_steps. unfold pick_all at 2. rewrite (all_asks j pos kks X).
  destruct (nth_error bs j) as [b|] eqn:Hb; [|now apply IH].
  set (reqs := concat (map (calls j) (map snd kks))).
  destruct (IH pos (map (fun kk => (step f t j b reqs (fst kk), pick j b reqs (snd kk))) kks) G) as [kks' Hk].
  - clearbody reqs. clear -X G Hb. induction X as [|po kk pos kks Hf X IH]; [constructor|]. inversion G as [|y z Gp G']; subst.
    cbn [map]. constructor; [|now apply IH]. cbn [fst snd]. now apply follows_step.
  - exists kks'. rewrite !map_map in *. cbn [fst snd] in Hk. exact Hk.
Qed.

Lemma filled_none (o xs : list V) : filled_by (repeat None (length o)) o xs o.
Proof.
  split; [now rewrite repeat_length|]. split; [now rewrite repeat_length|]. intros a s Ha.
  apply nth_error_In in Ha. apply repeat_spec in Ha. now subst s.
Qed.

Lemma served_sources chans start outs : length outs = length chans -> Forall good_chan chans ->
  length (sources H chans start (map (@length V) outs)) = length chans
  /\ length (served f t bs (map (fun po => mkTaker t (needed (locs_after H (fst po)) start) 0 (snd po)) (combine chans outs))) = length chans
  /\ forall i p src o k, nth_error chans i = Some p -> nth_error outs i = Some o ->
     nth_error (sources H chans start (map (@length V) outs)) i = Some src ->
     nth_error (served f t bs (map (fun po => mkTaker t (needed (locs_after H (fst po)) start) 0 (snd po)) (combine chans outs))) i = Some k ->
     filled_by src o (samples_after f t H p) (tk_buf t k).
Proof.
  intros Lo G. unfold served, sources.
  set (kks := map (fun po => (mkTaker t (needed (locs_after H (fst po)) start) 0 (snd po),
                              mkPick (locs_after H (fst po)) start 0 (repeat None (length (snd po))))) (combine chans outs)).
  assert (E1 : map (fun po => mkTaker t (needed (locs_after H (fst po)) start) 0 (snd po)) (combine chans outs) = map fst kks).
  { unfold kks. rewrite map_map. reflexivity. }
  assert (E2 : map (fun pn => mkPick (locs_after H (fst pn)) start 0 (repeat None (snd pn))) (combine chans (map (@length V) outs)) = map snd kks).
  { unfold kks. rewrite map_map. cbn [snd]. clear. revert outs. induction chans as [|p chans IH]; intros [|o outs]; cbn [combine map]; auto.
    cbn [fst snd]. now rewrite IH. }
  rewrite E1, E2.
  destruct (all_serve (seq 0 (length bs)) (combine chans outs) kks) as [kks' [X [F1 F2]]].
  { apply Forall_forall. intros [p o] Hin. apply in_combine_l in Hin. rewrite Forall_forall in G. now apply G. }
  { unfold kks, all_follow. clear. induction (combine chans outs) as [|[p o] l IH]; [constructor|]. cbn [map]. constructor; [|exact IH].
    cbn [fst snd]. split; [reflexivity|]. split; [reflexivity|]. split; [reflexivity|]. apply filled_none. }
  rewrite <- F1, <- F2. assert (Lk : length kks' = length chans).
  { assert (L2 : length (combine chans outs) = length kks') by (clear -X; induction X; cbn [length]; congruence).
    rewrite <- L2, combine_length. lia. }
  rewrite !map_length. split; [exact Lk|]. split; [exact Lk|].
  intros i p src o k Hp Ho Hs Hk. rewrite nth_error_map in Hs, Hk. rewrite nth_error_map in Hs.
  destruct (nth_error kks' i) as [kk|] eqn:Q; [|discriminate]. cbn [option_map] in Hs, Hk. injection Hs as <-. injection Hk as <-.
  assert (Hf : follows (p, o) (fst kk) (snd kk)).
  { pose proof (combine_nth _ _ _ _ _ Hp Ho) as Hc. clear -X Q Hc. revert i Q Hc. induction X as [|po kk' pos kks Hf X IH]; intros [|i] Q Hc; try discriminate.
    - injection Q as <-. injection Hc as ->. exact Hf.
    - eapply IH; eauto. }
  apply Hf.
Qed.
End Follow.
