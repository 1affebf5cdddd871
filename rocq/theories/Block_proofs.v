(** * Reading one data block *)
From Verif Require Import Base Lib DataTypes MetaData DataBlock Index RawData SpecIndex SpecRead.

Lemma width_dtype d : 0 < width d -> dtype_size d = width d.
Proof. destruct d; cbn; lia || reflexivity. Qed.
Lemma width_16 d : width d <= 16.
Proof. destruct d; cbn; lia. Qed.
Lemma width_sty t d : fixed t -> supports t d = true -> size_bytes t = width d /\ 0 < width d.
Proof.
  intros [H1 [H2 H3]] H. destruct t; try (exfalso; congruence); destruct d; vm_compute in H; try discriminate;
    split; reflexivity.
Qed.
Lemma size_bytes_pos t : 0 < size_bytes t <= 24.
Proof. destruct t; cbn; lia. Qed.

(** Types whose values occupy as many bytes as the code counts when it reads
    them. *)
Definition sized (t : sty) : Prop := t <> SExt /\ t <> SStr.
Lemma fixed_sized t : fixed t -> sized t.
Proof. unfold fixed, sized. tauto. Qed.
Coercion fixed_sized : fixed >-> sized.

Section Block.
Context (E : env) (f : list byte) (t : sty) (e : endian).
Hypothesis (Fx : sized t) (Ad : addressable E f).
Local Notation V := (carrier t).
Local Notation sz := (size_bytes t).

Lemma seek_inside pos off : (0 <= off)%Z -> pos + Z.to_N off <= lenN f ->
  seek_rel E pos off = Ok (pos + Z.to_N off).
Proof.
  intros Ho H. destruct Ad as [_ A]. unfold seek_rel.
  replace (Z.of_N pos + off <? 0)%Z with false by lia.
  replace (Z.to_N (Z.of_N pos + off)) with (pos + Z.to_N off) by lia.
  replace (pos + Z.to_N off <=? seek_max E) with true by lia. reflexivity.
Qed.

Lemma as_i64_small n : n < 2 ^ 63 -> as_i64 n = Z.of_N n.
Proof.
  intros H. unfold as_i64, two64, two63. rewrite N.mod_small by lia.
  replace (n <? 2 ^ 63) with true by lia. reflexivity.
Qed.
Lemma as_u64_small n : n < 2 ^ 64 -> as_u64 (Z.of_N n) = n.
Proof. intros H. unfold as_u64. rewrite Z.mod_small by lia. lia. Qed.

Lemma imul_small a b : a * b < 2 ^ 63 -> imul E (Z.of_N a) (Z.of_N b) = Ok (Z.of_N (a * b)).
Proof.
  intros H. unfold imul. rewrite <- N2Z.inj_mul.
  replace ((- 2 ^ 63 <=? Z.of_N (a * b)) && (Z.of_N (a * b) <? 2 ^ 63))%Z with true by lia. reflexivity.
Qed.

(** [as_i64 a * as_i64 b] bytes forward. *)
Lemma seek_prod pos a b : pos + a * b <= lenN f -> a < 2 ^ 63 -> b < 2 ^ 63 ->
  (off <- imul E (as_i64 a) (as_i64 b) ;; seek_rel E pos off) = Ok (pos + a * b).
Proof.
  intros H Ha Hb. destruct Ad as [A _]. rewrite !as_i64_small by assumption. rewrite imul_small by lia.
  cbn [bind]. rewrite seek_inside; [|lia|rewrite N2Z.id; lia]. now rewrite N2Z.id.
Qed.

Definition at_ (a : N) : V := elem e t (slice f a sz).

Lemma read_exact_slice n pos : pos + n <= lenN f ->
  read_exact n (dropN pos f) = Ok (slice f pos n, dropN (pos + n) f).
Proof.
  intros H. unfold read_exact. rewrite lenN_dropN. replace (n <=? lenN f - pos) with true by lia.
  unfold slice. rewrite !dropN_skipn, skipn_skipn. f_equal. f_equal. f_equal. lia.
Qed.

Lemma dec_uint_slice w pos : pos + N.of_nat w <= lenN f ->
  dec_uint e w (dropN pos f) = Ok (uint_val e (slice f pos (N.of_nat w)), dropN (pos + N.of_nat w) f).
Proof. intros H. unfold dec_uint. now rewrite read_exact_slice. Qed.

Lemma slice_split pos w : slice f pos (2 * N.of_nat w) = slice f pos (N.of_nat w) ++ slice f (pos + N.of_nat w) (N.of_nat w).
Proof.
  unfold slice. replace (N.to_nat (2 * N.of_nat w)) with (w + w)%nat by lia. rewrite !Nat2N.id.
  replace (N.to_nat (pos + N.of_nat w)) with (N.to_nat pos + w)%nat by lia. rewrite <- (skipn_skipn w).
  set (l := skipn (N.to_nat pos) f).
  assert (Hl : firstn (w + w) l = firstn w l ++ firstn w (skipn w l)).
  { rewrite <- (firstn_skipn w l) at 1. rewrite firstn_app, firstn_firstn, firstn_length.
    replace (Nat.min (w + w) w) with w by lia.
    destruct (Nat.le_gt_cases w (length l)).
    - replace (w + w - Nat.min w (length l))%nat with w by lia. reflexivity.
    - rewrite (skipn_all2 l) by lia. now rewrite !firstn_nil. }
  exact Hl.
Qed.

Lemma slice_length pos n : pos + n <= lenN f -> length (slice f pos n) = N.to_nat n.
Proof. intros H. unfold slice, lenN in *. rewrite firstn_length, skipn_length. lia. Qed.

Lemma dec_complex_slice w pos : pos + 2 * N.of_nat w <= lenN f ->
  dec_complex e w (dropN pos f) =
  Ok ((uint_val e (firstn w (slice f pos (2 * N.of_nat w))), uint_val e (skipn w (slice f pos (2 * N.of_nat w)))),
      dropN (pos + 2 * N.of_nat w) f).
Proof.
  intros H. unfold dec_complex. rewrite dec_uint_slice by lia. cbn [bind].
  rewrite dec_uint_slice by lia. cbn [bind]. rewrite slice_split.
  assert (L : length (slice f pos (N.of_nat w)) = w) by (rewrite slice_length; lia).
  assert (F1 : firstn w (slice f pos (N.of_nat w) ++ slice f (pos + N.of_nat w) (N.of_nat w)) = slice f pos (N.of_nat w))
    by (rewrite <- L at 1; apply firstn_app_exact).
  assert (F2 : skipn w (slice f pos (N.of_nat w) ++ slice f (pos + N.of_nat w) (N.of_nat w)) = slice f (pos + N.of_nat w) (N.of_nat w))
    by (rewrite <- L at 1; apply skipn_app_exact).
  rewrite F1, F2. now replace (pos + N.of_nat w + N.of_nat w) with (pos + 2 * N.of_nat w) by lia.
Qed.

Lemma uint_val_1 (b : list byte) : length b = 1%nat -> uint_val e b = le_val b.
Proof. destruct b as [|x [|]]; try discriminate. intros _. destruct e; reflexivity. Qed.

Lemma dec_slice pos : pos + sz <= lenN f -> dec E e t (dropN pos f) = Ok (at_ pos, dropN (pos + sz) f).
Proof.
  unfold at_. intros H. destruct Fx as [X1 X2].
  destruct t; try (exfalso; congruence); cbn [dec elem size_bytes] in *.
  1-4: unfold dec_sint; rewrite dec_uint_slice by (cbn; lia); reflexivity.
  1-6: rewrite dec_uint_slice by (cbn; lia); reflexivity.
  - unfold dec_bool. rewrite read_exact_slice by lia. cbn [bind].
    rewrite (uint_val_1 (slice f pos 1)) by (rewrite slice_length; [reflexivity|lia]). reflexivity.
  - apply (dec_complex_slice 4). exact H.
  - apply (dec_complex_slice 8). exact H.
  - rewrite dec_uint_slice by (cbn; lia). reflexivity.
Qed.

Lemma read_at_ok pos : pos + sz <= lenN f -> read_at E f t e pos = Ok (at_ pos, pos + sz).
Proof.
  intros H. unfold read_at. rewrite dec_slice by exact H. cbn [bind]. rewrite !lenN_dropN.
  do 2 f_equal. lia.
Qed.

(** [n] values from [pos] on. *)
Definition run (pos : N) (n : nat) : list V := map (fun k => at_ (pos + N.of_nat k * sz)) (seq 0 n).

Lemma run_length pos n : length (run pos n) = n.
Proof. unfold run. now rewrite map_length, seq_length. Qed.
Lemma run_S pos n : run pos (S n) = at_ pos :: run (pos + sz) n.
Proof.
  unfold run. cbn [seq map]. f_equal; [f_equal; lia|]. rewrite <- seq_shift, map_map.
  apply map_ext. intros k. f_equal. lia.
Qed.
Lemma run_skipn k : forall pos n, skipn k (run pos n) = run (pos + N.of_nat k * sz) (n - k).
Proof.
  induction k as [|k IH]; intros pos n.
  - cbn [skipn]. rewrite Nat.sub_0_r. f_equal. lia.
  - destruct n as [|n]; [reflexivity|]. rewrite run_S. cbn [skipn]. rewrite IH. f_equal; lia.
Qed.
Lemma run_firstn k : forall pos n, firstn k (run pos n) = run pos (Nat.min k n).
Proof.
  induction k as [|k IH]; intros pos n; [reflexivity|].
  destruct n as [|n]; [reflexivity|]. rewrite run_S. cbn [firstn Nat.min]. now rewrite run_S, IH.
Qed.

Lemma read_vals_ok n : forall pos, pos + N.of_nat n * sz <= lenN f ->
  read_vals E f t e n pos = (run pos n, Ok (pos + N.of_nat n * sz)).
Proof.
  induction n as [|n IH]; intros pos H; cbn [read_vals].
  - do 2 f_equal. lia.
  - rewrite read_at_ok by lia. rewrite IH by lia. rewrite run_S. do 2 f_equal. lia.
Qed.

Lemma read_seq_ok room samples pos : pos + samples * sz <= lenN f ->
  read_seq E f t e room samples pos =
  (firstn room (run pos (N.to_nat samples)), Ok (N.min (N.of_nat room) samples, pos + samples * sz)).
Proof.
  intros H. unfold read_seq. pose proof (size_bytes_pos t) as Hs. destruct Ad as [A _].
  set (k := N.min (N.of_nat room) samples).
  assert (Hk : k <= samples) by lia.
  assert (Hks : k * sz <= samples * sz) by (apply N.mul_le_mono_r; exact Hk).
  rewrite read_vals_ok by (rewrite N2Nat.id; lia). rewrite N2Nat.id, run_firstn.
  replace (Nat.min room (N.to_nat samples)) with (N.to_nat k) by lia. f_equal. cbn [bind].
  destruct (0 <? samples - k) eqn:U.
  - assert (B : (samples - k) * sz = samples * sz - k * sz) by apply N.mul_sub_distr_r.
    assert (P : (samples - k) <= (samples - k) * sz) by nia.
    pose proof (seek_prod (pos + k * sz) (samples - k) sz) as Q.
    assert (Q' := Q ltac:(lia) ltac:(lia) ltac:(lia)). clear Q.
    destruct (imul E (as_i64 (samples - k)) (as_i64 sz)); cbn [bind] in *; try discriminate.
    rewrite Q'. cbn [bind]. do 2 f_equal. lia.
  - do 2 f_equal. replace k with samples by lia. reflexivity.
Qed.

(** ** Entries *)
(** Bytes of one value of an entry. *)
Definition wd (x : entry V) : N := match en_plan x with PSkip b => Z.to_N b | PRead _ _ _ _ => sz end.
Definition esz (x : entry V) : N := en_len x * wd x.
Definition good_entry (x : entry V) : Prop :=
  match en_plan x with PSkip b => (0 < b <= 16)%Z | PRead _ _ _ _ => True end.
Definition total (es : list (entry V)) : N := fold_right (fun x a => esz x + a) 0 es.
Definition rowtotal (es : list (entry V)) : N := fold_right (fun x a => wd x + a) 0 es.

(** [x'] is [x] after being offered the values [vs]. *)
Definition ext (vs : list V) (x x' : entry V) : Prop :=
  en_len x' = en_len x
  /\ match en_plan x with
     | PSkip b => en_plan x' = PSkip b
     | PRead o g r s => exists s', en_plan x' = PRead o (g ++ firstn r vs) (r - length vs) s'
     end.

Lemma ext_nil x : ext [] x x.
Proof.
  split; [reflexivity|]. destruct (en_plan x) eqn:P; [reflexivity|].
  exists skip. now rewrite firstn_nil, app_nil_r, Nat.sub_0_r.
Qed.
Lemma ext_skip s x : ext [] x (set_skip s x).
Proof.
  unfold ext, set_skip. destruct (en_plan x) eqn:P; cbn [en_len en_plan]; [auto|].
  split; [reflexivity|]. exists s. now rewrite firstn_nil, app_nil_r, Nat.sub_0_r.
Qed.
Lemma ext_app vs ws x y z : ext vs x y -> ext ws y z -> ext (vs ++ ws) x z.
Proof.
  intros [L1 H1] [L2 H2]. split; [congruence|]. destruct (en_plan x) as [b|o g r s].
  - rewrite H1 in H2. exact H2.
  - destruct H1 as [s1 H1]. rewrite H1 in H2. destruct H2 as [s2 H2]. exists s2. rewrite H2.
    rewrite firstn_app, app_length, <- app_assoc. f_equal. lia.
Qed.
Lemma ext_full vs ws x x' : (forall o g r s, en_plan x = PRead o g r s -> (r <= length vs)%nat) ->
  ext vs x x' -> ext (vs ++ ws) x x'.
Proof.
  intros Hr H. destruct H as [L H]. split; [exact L|].
  destruct (en_plan x) as [b|o g r s]; [exact H|]. destruct H as [s' H]. exists s'. rewrite H.
  specialize (Hr o g r s eq_refl). rewrite firstn_app, app_length.
  replace (r - length vs)%nat with 0%nat by lia. rewrite firstn_O, app_nil_r. f_equal. lia.
Qed.
Lemma ext_wd vs x x' : ext vs x x' -> wd x' = wd x /\ en_len x' = en_len x /\ (good_entry x -> good_entry x').
Proof.
  intros [L H]. unfold wd, good_entry. destruct (en_plan x).
  - rewrite H. auto.
  - destruct H as [s' H]. rewrite H. auto.
Qed.

(** Entries of a list related by [ext], the values depending on the offset of
    the entry; [step] gives the bytes an entry occupies. *)
Fixpoint exts (step : entry V -> N) (D : N -> entry V -> list V) (off : N) (es es' : list (entry V)) : Prop :=
  match es, es' with
  | [], [] => True
  | x :: r, x' :: r' => ext (D off x) x x' /\ exts step D (off + step x) r r'
  | _, _ => False
  end.

Lemma exts_length step D es : forall off es', exts step D off es es' -> length es' = length es.
Proof.
  induction es as [|x es IH]; intros off [|x' es'] H; try contradiction; [reflexivity|].
  destruct H as [_ H]. cbn [length]. f_equal. eapply IH; eauto.
Qed.
Lemma exts_nil step es : forall off, exts step (fun _ _ => []) off es es.
Proof. induction es as [|x es IH]; intros off; cbn [exts]; [exact I|]. split; [apply ext_nil|apply IH]. Qed.
Lemma exts_skip step s es : forall off, exts step (fun _ _ => []) off es (set_all_skips s es).
Proof.
  unfold set_all_skips. induction es as [|x es IH]; intros off; cbn [exts map]; [exact I|].
  split; [apply ext_skip|apply IH].
Qed.
(** [step] must not depend on what has been read. *)
Definition stable (step : entry V -> N) : Prop := forall vs x x', ext vs x x' -> step x' = step x.
Definition dstable (D : N -> entry V -> list V) : Prop := forall vs x x' off, ext vs x x' -> D off x' = D off x.

Lemma exts_app step D D' es : stable step -> dstable D' -> forall off es1 es2,
  exts step D off es es1 -> exts step D' off es1 es2 ->
  exts step (fun o x => D o x ++ D' o x) off es es2.
Proof.
  intros St Ds. induction es as [|x es IH]; intros off [|x1 es1] [|x2 es2] H1 H2; try contradiction; [exact I|].
  destruct H1 as [A1 B1], H2 as [A2 B2]. cbn [exts]. rewrite (Ds _ _ _ off A1) in A2.
  rewrite (St _ _ _ A1) in B2. split; [eapply ext_app; eauto|eapply IH; eauto].
Qed.
Lemma exts_ext step D D' es : forall off es', (forall o x, In x es -> D o x = D' o x) ->
  exts step D off es es' -> exts step D' off es es'.
Proof.
  induction es as [|x es IH]; intros off [|x' es'] HD H; try contradiction; [exact I|].
  destruct H as [A B]. cbn [exts]. split; [rewrite <- HD by (now left); exact A|].
  apply IH; [intros o y Hy; apply HD; now right|exact B].
Qed.
Lemma exts_forall step D (P : entry V -> Prop) es : (forall vs x x', ext vs x x' -> P x -> P x') ->
  forall off es', exts step D off es es' -> Forall P es -> Forall P es'.
Proof.
  intros HP. induction es as [|x es IH]; intros off [|x' es'] H F; try contradiction; constructor;
    inversion F; subst; destruct H as [A B]; eauto.
Qed.

Lemma ext_len_stable : stable esz.
Proof. intros vs x x' H. apply ext_wd in H. destruct H as [A [B _]]. unfold esz. now rewrite A, B. Qed.
Lemma wd_stable : stable wd.
Proof. intros vs x x' H. now apply ext_wd in H. Qed.
Lemma exts_total D es : forall off es', exts esz D off es es' -> total es' = total es.
Proof.
  induction es as [|x es IH]; intros off [|x' es'] H; try contradiction; [reflexivity|].
  destruct H as [A B]. unfold total. cbn [fold_right]. fold (total es) (total es').
  rewrite (ext_len_stable _ _ _ A). f_equal. eapply IH; eauto.
Qed.

Lemma exts_rowtotal D es : forall off es', exts wd D off es es' -> rowtotal es' = rowtotal es.
Proof.
  induction es as [|x es IH]; intros off [|x' es'] H; try contradiction; [reflexivity|].
  destruct H as [A B]. unfold rowtotal. cbn [fold_right]. fold (rowtotal es) (rowtotal es').
  rewrite (wd_stable _ _ _ A). f_equal. eapply IH; eauto.
Qed.

(** ** Contiguous sub-blocks *)
Lemma as_i64_id z : (0 <= z < 2 ^ 63)%Z -> z = as_i64 (Z.to_N z).
Proof. intros H. rewrite as_i64_small by lia. lia. Qed.

Lemma read_entry_ok x pos : good_entry x -> pos + esz x <= lenN f ->
  exists x' l, read_entry E f t e x pos = (x', Ok (l, pos + esz x))
    /\ match en_plan x with
       | PSkip _ => x' = x /\ l = None
       | PRead o g r s =>
         ext (skipn (N.to_nat s) (run pos (N.to_nat (en_len x)))) x x'
         /\ l = Some (N.min (N.of_nat r) (en_len x - s))
       end.
Proof.
  intros G H. pose proof (size_bytes_pos t) as Hs. destruct Ad as [A _].
  unfold read_entry, esz, wd, good_entry in *. destruct (en_plan x) as [b|o g r s] eqn:P.
  - eexists _, _. split; [|auto]. f_equal.
    assert (Hl : en_len x <= en_len x * Z.to_N b) by nia.
    pose proof (seek_prod pos (Z.to_N b) (en_len x)) as Q.
    rewrite <- (as_i64_id b) in Q by lia.
    assert (Q' := Q ltac:(lia) ltac:(lia) ltac:(lia)). clear Q.
    destruct (imul E b (as_i64 (en_len x))); cbn [bind] in *; try discriminate.
    rewrite Q'. cbn [bind]. do 2 f_equal. lia.
  - set (sk := N.min s (en_len x)).
    assert (Hsk : sk <= en_len x) by lia.
    assert (Hm : sk * sz <= en_len x * sz) by (apply N.mul_le_mono_r; exact Hsk).
    assert (Hm2 : (en_len x - sk) * sz = en_len x * sz - sk * sz) by apply N.mul_sub_distr_r.
    assert (Sk : (if 0 <? sk then off <- imul E (as_i64 sk) (as_i64 sz) ;; seek_rel E pos off else Ok pos)
                 = Ok (pos + sk * sz)).
    { destruct (0 <? sk) eqn:K; [|do 2 f_equal; lia].
      assert (P1 : sk <= sk * sz) by nia. apply seek_prod; lia. }
    rewrite Sk. rewrite read_seq_ok by lia. cbn [bind].
    eexists _, _. split; [do 3 f_equal; lia|]. split.
    + split; [reflexivity|]. rewrite P. cbn [en_plan]. exists s.
      rewrite run_skipn. 
      assert (R : run (pos + N.of_nat (N.to_nat s) * sz) (N.to_nat (en_len x) - N.to_nat s)
                  = run (pos + sk * sz) (N.to_nat (en_len x - sk))).
      { destruct (N.le_gt_cases s (en_len x)).
        - replace (N.of_nat (N.to_nat s)) with sk by lia. f_equal. lia.
        - replace (N.to_nat (en_len x) - N.to_nat s)%nat with 0%nat by lia.
          replace (N.to_nat (en_len x - sk)) with 0%nat by lia. reflexivity. }
      rewrite R. f_equal. rewrite firstn_length. lia.
    + f_equal. lia.
Qed.

(** Room of the last entry that is read. *)
Fixpoint last_room (d : option (N * nat * N)) (es : list (entry V)) : option (N * nat * N) :=
  match es with
  | [] => d
  | x :: r => last_room (match en_plan x with PRead _ _ rm s => Some (en_len x, rm, s) | PSkip _ => d end) r
  end.

(** Values of one sub-block at [pos] for an entry at offset [off], after its
    own skip. *)
Definition sub_vals (pos off : N) (x : entry V) : list V :=
  match en_plan x with
  | PRead _ _ _ s => skipn (N.to_nat s) (run (pos + off) (N.to_nat (en_len x)))
  | PSkip _ => []
  end.

Definition count_of (d : option (N * nat * N)) (len : N) : N :=
  match d with Some (n, r, s) => N.min (N.of_nat r) (n - s) | None => len end.

Lemma read_sub_block_ok base es : forall off len d pos, pos = base + off -> len = count_of d 0 ->
  Forall good_entry es -> pos + total es <= lenN f ->
  exists es', read_sub_block E f t e es len pos = (es', Ok (count_of (last_room d es) 0, pos + total es))
    /\ exts esz (sub_vals base) off es es'.
Proof.
  induction es as [|x es IH]; intros off len d pos Hp Hlen G H; cbn [read_sub_block].
  - exists []. cbn [total fold_right last_room exts]. split; [|exact I]. subst len. do 3 f_equal. lia.
  - unfold total in H. cbn [fold_right] in H. fold (total es) in H.
    inversion G as [|y l G1 G2]; subst y l.
    destruct (read_entry_ok x pos G1) as [x' [l [R K]]]; [lia|]. rewrite R.
    destruct (IH (off + esz x) (match l with Some l => l | None => len end)
                 (match en_plan x with PRead _ _ rm s => Some (en_len x, rm, s) | PSkip _ => d end)
                 (pos + esz x)) as [es' [R' X']].
    + lia.
    + destruct (en_plan x) as [b|o g r s]; destruct K as [K1 K2]; subst l; [exact Hlen|reflexivity].
    + exact G2.
    + lia.
    + rewrite R'. exists (x' :: es'). cbn [last_room]. split.
      * do 3 f_equal. unfold total. cbn [fold_right]. fold (total es). lia.
      * cbn [exts]. split; [|exact X'].
        unfold sub_vals. destruct (en_plan x) as [b|o g r s] eqn:P; destruct K as [K1 K2].
        -- subst x'. apply ext_nil.
        -- rewrite <- Hp. exact K1.
Qed.

(** ** The loop over sub-blocks *)
Definition is_read (x : entry V) : bool := match en_plan x with PRead _ _ _ _ => true | PSkip _ => false end.
Lemma exts_ext_read step D D' es : forall off es', (forall o x, In x es -> is_read x = true -> D o x = D' o x) ->
  exts step D off es es' -> exts step D' off es es'.
Proof.
  induction es as [|x es IH]; intros off [|x' es'] HD H; try contradiction; [exact I|].
  destruct H as [A B]. cbn [exts]. split.
  - pose proof (HD off x (or_introl eq_refl)) as K. unfold is_read in K. destruct A as [A1 A2]. split; [exact A1|].
    destruct (en_plan x); [exact A2|]. rewrite <- K by reflexivity. exact A2.
  - apply IH; [intros o y Hy; apply HD; now right|exact B].
Qed.
Definition nreads (es : list (entry V)) : nat := length (filter is_read es).

(** Values an entry is offered by [m] sub-blocks of [n] values and [c] bytes. *)
Definition col (pos c n : N) (m : nat) (off : N) (x : entry V) : list V :=
  concat (map (fun j => run (pos + N.of_nat j * c + off) (N.to_nat n)) (seq 0 m)).
Lemma col_S pos c n m off x : col pos c n (S m) off x = run (pos + off) (N.to_nat n) ++ col (pos + c) c n m off x.
Proof.
  unfold col. cbn [seq map concat]. f_equal; [f_equal; lia|]. rewrite <- seq_shift, map_map. f_equal.
  apply map_ext. intros j. f_equal. lia.
Qed.
Lemma col_length pos c n m off x : length (col pos c n m off x) = (m * N.to_nat n)%nat.
Proof.
  revert pos. induction m as [|m IH]; intros pos; [reflexivity|]. rewrite col_S, app_length, run_length, IH. lia.
Qed.

Lemma ext_is_read vs x x' : ext vs x x' -> is_read x' = is_read x.
Proof. intros [_ H]. unfold is_read. destruct (en_plan x); [now rewrite H|]. destruct H as [s' H]. now rewrite H. Qed.
Lemma exts_nreads step D es : forall off es', exts step D off es es' -> nreads es' = nreads es.
Proof.
  unfold nreads. induction es as [|x es IH]; intros off [|x' es'] H; try contradiction; [reflexivity|].
  destruct H as [A B]. cbn [filter]. rewrite (ext_is_read _ _ _ A).
  destruct (is_read x); cbn [length]; erewrite IH by eauto; reflexivity.
Qed.

(** Room of the last entry read, without the skip. *)
Fixpoint last_rm (d : option nat) (es : list (entry V)) : option nat :=
  match es with
  | [] => d
  | x :: r => last_rm (match en_plan x with PRead _ _ rm _ => Some rm | PSkip _ => d end) r
  end.
Definition lim (d : option nat) (k : N) : N := match d with Some r => N.min (N.of_nat r) k | None => 0 end.

Lemma last_room_rm n s es : Forall (fun x => en_len x = n) es -> (forall x, In x es -> forall o g r s', en_plan x = PRead o g r s' -> s' = s) ->
  forall d d', (match d' with Some r => d = Some (n, r, s) | None => d = None end) ->
  match last_rm d' es with Some r => last_room d es = Some (n, r, s) | None => last_room d es = None end.
Proof.
  induction es as [|x es IH]; intros Hn Hs d d' Hd; cbn [last_rm last_room]; [destruct d'; exact Hd|].
  inversion Hn; subst. apply IH; auto.
  - intros y Hy. apply Hs. now right.
  - destruct (en_plan x) eqn:P; [exact Hd|]. now rewrite (Hs x (or_introl eq_refl) _ _ _ _ P).
Qed.
Lemma last_rm_exts step D k es : forall off es' d, (forall o x, In x es -> is_read x = true -> length (D o x) = k) ->
  exts step D off es es' ->
  last_rm (option_map (fun r => (r - k)%nat) d) es' = option_map (fun r => (r - k)%nat) (last_rm d es).
Proof.
  induction es as [|x es IH]; intros off [|x' es'] d HD H; try contradiction; [reflexivity|].
  destruct H as [A B]. cbn [last_rm].
  assert (HD' : forall o y, In y es -> is_read y = true -> length (D o y) = k) by (intros; apply HD; [now right|assumption]).
  destruct A as [_ A]. unfold is_read in HD. specialize (HD off x (or_introl eq_refl)).
  destruct (en_plan x) as [b|o g r s].
  - rewrite A. eapply IH; eauto.
  - destruct A as [s' A]. rewrite A. rewrite HD by reflexivity.
    change (Some (r - k)%nat) with (option_map (fun r => (r - k)%nat) (Some r)). eapply IH; eauto.
Qed.

Lemma block_size_ok es : forall acc, Forall good_entry es -> acc + total es < 2 ^ 64 ->
  block_size_from E t acc es = Ok (acc + total es).
Proof.
  induction es as [|x es IH]; intros acc G H; cbn [block_size_from].
  - f_equal. cbn. lia.
  - unfold total in H. cbn [fold_right] in H. fold (total es) in H. inversion G as [|y l G1 G2]; subst.
    assert (Ez : entry_size t (en_plan x) = wd x).
    { unfold entry_size, wd, good_entry in *. destruct (en_plan x); [|reflexivity].
      rewrite <- (Z2N.id bytes) at 1 by lia. apply as_u64_small. lia. }
    rewrite Ez. unfold umul, uadd, two64 in *. unfold esz in H.
    replace (wd x * en_len x <? 2 ^ 64) with true by lia. cbn [bind].
    replace (acc + wd x * en_len x <? 2 ^ 64) with true by lia. cbn [bind].
    rewrite IH; [|exact G2|lia]. f_equal. unfold total. cbn [fold_right]. fold (total es). unfold esz. lia.
Qed.

Lemma set_all_entry s (es : list (entry V)) x : In x (set_all_skips s es) -> forall o g r s', en_plan x = PRead o g r s' -> s' = s.
Proof.
  unfold set_all_skips. rewrite in_map_iff. intros [y [<- _]] o g r s' H.
  unfold set_skip in H. destruct (en_plan y) eqn:P; cbn [en_plan] in H; congruence.
Qed.

Lemma last_rm_skip s (es : list (entry V)) : forall d, last_rm d (set_all_skips s es) = last_rm d es.
Proof.
  unfold set_all_skips. induction es as [|x es IH]; intros d; cbn [map last_rm]; [reflexivity|].
  rewrite IH. unfold set_skip. destruct (en_plan x) eqn:P; cbn [en_plan]; [now rewrite P|reflexivity].
Qed.

(** [q], [rm]: sub-blocks and samples still to skip at index [idx]; together
    [s] samples. *)
Lemma contig_loop_ok step n c q rm nr : 0 < n -> rm < n ->
  (forall idx es, nreads es = nr -> step idx es =
     if idx <? q then None else Some (set_all_skips (if idx =? q then rm else 0) es)) ->
  forall m idx es len pos,
  nreads es = nr -> Forall good_entry es -> Forall (fun x => en_len x = n) es -> total es = c -> c < 2 ^ 63 ->
  pos + N.of_nat m * c <= lenN f ->
  let s := if idx <=? q then (q - idx) * n + rm else 0 in
  exists es', contig_loop E f t e step m idx es len pos = (es', Ok (len + lim (last_rm None es) (N.of_nat m * n - s)))
    /\ exts esz (fun off x => skipn (N.to_nat s) (col pos c n m off x)) 0 es es'.
Proof.
  intros Hn Hrm Hst. induction m as [|m IH]; intros idx es len pos Hnr G Hl Ht Hc H s; cbn [contig_loop].
  - exists es. split.
    + do 2 f_equal. unfold lim. destruct (last_rm None es); lia.
    + eapply exts_ext; [|apply exts_nil]. intros o x _. cbv beta. unfold col. cbn. now rewrite skipn_nil.
  - rewrite Hst by exact Hnr. destruct (idx <? q) eqn:Q.
    + unfold block_size. rewrite block_size_ok by (auto; lia). cbn [bind].
      replace (0 + total es) with c by lia. rewrite as_i64_small by lia.
      rewrite seek_inside by lia. rewrite N2Z.id.
      destruct (IH (idx + 1) es len (pos + c) Hnr G Hl Ht Hc ltac:(lia)) as [es' [R X]].
      exists es'. rewrite R.
      set (s' := if idx + 1 <=? q then (q - (idx + 1)) * n + rm else 0) in *.
      assert (Es : s = n + s').
      { unfold s, s'. replace (idx <=? q) with true by lia. replace (idx + 1 <=? q) with true by lia.
        replace (q - idx) with (1 + (q - (idx + 1))) by lia. lia. }
      split.
      * do 2 f_equal. f_equal. unfold lim. destruct (last_rm None es); [|reflexivity]. f_equal. lia.
      * eapply exts_ext; [|exact X]. intros o x _. cbv beta. rewrite col_S, skipn_app.
        rewrite (skipn_all2 (run _ _)) by (rewrite run_length; lia). rewrite run_length. cbn [app]. f_equal. lia.
    + set (sk := if idx =? q then rm else 0).
      assert (Es : s = sk).
      { unfold s, sk. destruct (idx =? q) eqn:K.
        - replace (idx <=? q) with true by lia. replace (q - idx) with 0 by lia. lia.
        - replace (idx <=? q) with false by lia. reflexivity. }
      assert (Hsk : sk < n) by (unfold sk; destruct (idx =? q); lia).
      set (es1 := set_all_skips sk es).
      pose proof (exts_skip esz sk es 0) as X1. fold es1 in X1.
      assert (G1 : Forall good_entry es1) by (eapply exts_forall; [|exact X1|exact G]; intros vs x x' A; apply ext_wd in A; tauto).
      assert (L1 : Forall (fun x => en_len x = n) es1).
      { eapply exts_forall; [|exact X1|exact Hl]. intros vs x x' [A _] B. congruence. }
      assert (T1 : total es1 = c) by (rewrite (exts_total _ _ _ _ X1); exact Ht).
      destruct (read_sub_block_ok pos es1 0 0 None pos ltac:(lia) eq_refl G1 ltac:(lia)) as [es2 [R2 X2]].
      rewrite R2. rewrite T1.
      assert (Hnr2 : nreads es2 = nr).
      { rewrite (exts_nreads _ _ _ _ _ X2), (exts_nreads _ _ _ _ _ X1). exact Hnr. }
      assert (G2 : Forall good_entry es2) by (eapply exts_forall; [|exact X2|exact G1]; intros vs x x' A; apply ext_wd in A; tauto).
      assert (L2 : Forall (fun x => en_len x = n) es2).
      { eapply exts_forall; [|exact X2|exact L1]. intros vs x x' [A _] B. congruence. }
      assert (T2 : total es2 = c) by (rewrite (exts_total _ _ _ _ X2); exact T1).
      destruct (IH (idx + 1) es2 (len + count_of (last_room None es1) 0) (pos + c) Hnr2 G2 L2 T2 Hc ltac:(lia)) as [es' [R X]].
      exists es'. rewrite R.
      set (s' := if idx + 1 <=? q then (q - (idx + 1)) * n + rm else 0) in *.
      assert (Es' : s' = 0) by (unfold s'; replace (idx + 1 <=? q) with false by lia; reflexivity).
      clearbody s'. subst s'.
      assert (Dl : forall o x, In x es1 -> is_read x = true -> length (sub_vals pos o x) = N.to_nat (n - sk)).
      { intros o x Hx Hr. unfold sub_vals, is_read in *. destruct (en_plan x) as [b|o' g r s0] eqn:P; [discriminate|].
        rewrite (set_all_entry sk es x Hx _ _ _ _ P). rewrite skipn_length, run_length.
        rewrite Forall_forall in L1. rewrite (L1 x Hx). lia. }
      pose proof (last_rm_exts esz (sub_vals pos) (N.to_nat (n - sk)) es1 0 es2 None Dl X2) as LR.
      cbn [option_map] in LR.
      pose proof (last_room_rm n sk es1 L1 (fun x Hx => set_all_entry sk es x Hx) None None eq_refl) as LQ.
      rewrite (last_rm_skip sk es None : last_rm None es1 = _) in *.
      split.
      * do 2 f_equal. rewrite LR. destruct (last_rm None es) as [r|]; cbn [option_map lim]; rewrite LQ; cbn [count_of].
        -- rewrite Es. lia.
        -- lia.
      * assert (X2' : exts esz (fun o _ => skipn (N.to_nat sk) (run (pos + o) (N.to_nat n))) 0 es1 es2).
        { eapply exts_ext_read; [|exact X2]. intros o x Hx Hr. unfold sub_vals, is_read in *.
          destruct (en_plan x) as [b|o' g r s0] eqn:P; [discriminate|].
          rewrite (set_all_entry sk es x Hx _ _ _ _ P). rewrite Forall_forall in L1. now rewrite (L1 x Hx). }
        assert (X12 : exts esz (fun o x => [] ++ skipn (N.to_nat sk) (run (pos + o) (N.to_nat n))) 0 es es2).
        { eapply exts_app; [apply ext_len_stable| |exact X1|exact X2']. intros vs x x' off A. reflexivity. }
        eapply exts_ext. 2:{ eapply exts_app; [apply ext_len_stable| |exact X12|exact X]. intros vs x x' off A. reflexivity. }
        intros o x Hx. cbv beta. rewrite col_S. cbn [app]. rewrite Es.
        rewrite skipn_app, run_length. replace (N.to_nat sk - N.to_nat n)%nat with 0%nat by lia. reflexivity.
Qed.

Lemma total_pos es n : es <> [] -> 0 < n -> Forall good_entry es -> Forall (fun x => en_len x = n) es -> 0 < total es.
Proof.
  intros Hne Hn G L. destruct es as [|x es]; [congruence|]. inversion G; inversion L; subst.
  unfold total. cbn [fold_right]. unfold esz, wd, good_entry in *. pose proof (size_bytes_pos t).
  destruct (en_plan x); nia.
Qed.

Lemma contig_from_ok start blen es s n m : es <> [] -> 0 < n -> Forall good_entry es ->
  Forall (fun x => en_len x = n) es -> blen / total es = N.of_nat m -> 0 < N.of_nat m -> start + N.of_nat m * total es <= lenN f ->
  exists es', contig_read_from E f t e start blen es s = (es', Ok (lim (last_rm None es) (N.of_nat m * n - s)))
    /\ exts esz (fun off x => skipn (N.to_nat s) (col start (total es) n m off x)) 0 es es'.
Proof.
  intros Hne Hn G L Hb Hm H. destruct Ad as [A1 A2]. pose proof (total_pos es n Hne Hn G L) as Tp.
  assert (Tl : total es <= N.of_nat m * total es) by nia.
  unfold contig_read_from, seek_to. replace (start <=? seek_max E) with true by lia. cbn [bind].
  unfold block_size. rewrite block_size_ok by (auto; lia). cbn [bind].
  unfold udiv at 1. replace (0 + total es =? 0) with false by lia. cbn [bind].
  destruct es as [|x0 es0] eqn:Ees; [congruence|]. rewrite <- Ees in *.
  assert (Hx : en_len x0 = n) by (rewrite Ees in L; now inversion L). rewrite Hx.
  unfold udiv. replace (n =? 0) with false by lia. cbn [bind].
  replace (blen / (0 + total es)) with (N.of_nat m) by (rewrite N.add_0_l; symmetry; exact Hb).
  rewrite Nat2N.id.
  destruct (contig_loop_ok (fun idx es => if idx <? s / n then None
      else if idx =? s / n then Some (set_all_skips (s mod n) es) else Some (set_all_skips 0 es))
      n (total es) (s / n) (s mod n) (nreads es) Hn ltac:(apply N.mod_lt; lia)
      ltac:(intros idx ys _; cbv beta; destruct (idx <? s / n); [reflexivity|]; destruct (idx =? s / n); reflexivity)
      m 0 es 0 start eq_refl G L eq_refl ltac:(lia) ltac:(lia)) as [es' [R X]].
  assert (Es : (s / n - 0) * n + s mod n = s) by (rewrite N.sub_0_r; pose proof (N.div_mod s n ltac:(lia)); lia).
  assert (Q0 : (0 <=? s / n) = true) by (apply N.leb_le, N.le_0_l). rewrite Q0, Es in R, X.
  exists es'. rewrite R. split; [|exact X]. do 2 f_equal.
Qed.

Lemma zip_repeat v es : zip_skips (repeat v (nreads es)) es = set_all_skips v es.
Proof.
  unfold nreads, set_all_skips. induction es as [|x es IH]; [reflexivity|].
  cbn [zip_skips filter map].
  destruct (is_read x) eqn:Q; unfold is_read in Q; destruct (en_plan x) as [b|o g r s] eqn:P; try discriminate.
  - cbn [length repeat]. now rewrite IH.
  - rewrite IH. f_equal. unfold set_skip. now rewrite P.
Qed.
Lemma div_skips_repeat n s k : 0 < n -> div_skips n (repeat s k) = Ok (repeat (s / n, s mod n) k).
Proof.
  intros Hn. induction k as [|k IH]; cbn [repeat div_skips]; [reflexivity|].
  unfold udiv. replace (n =? 0) with false by lia. cbn [bind]. now rewrite IH.
Qed.
Lemma map_repeat' {A B} (g : A -> B) x k : map g (repeat x k) = repeat (g x) k.
Proof. induction k; cbn; congruence. Qed.

Lemma nreads_0 D es : nreads es = 0%nat -> forall step off es', exts step D off es es' -> forall D', exts step D' off es es'.
Proof.
  intros H step off es' X D'. eapply exts_ext_read; [|exact X]. intros o x Hx Hr. exfalso.
  unfold nreads in H. assert (K : In x (filter is_read es)) by (apply filter_In; auto).
  destruct (filter is_read es); [contradiction|discriminate].
Qed.
Lemma last_rm_none es : nreads es = 0%nat -> last_rm None es = None.
Proof.
  unfold nreads. induction es as [|x es IH]; [reflexivity|]. cbn [filter last_rm].
  destruct (is_read x) eqn:Q; unfold is_read in Q; destruct (en_plan x); try discriminate. exact IH.
Qed.

Lemma contig_skips_ok start blen es s n m : es <> [] -> 0 < n -> Forall good_entry es ->
  Forall (fun x => en_len x = n) es -> blen / total es = N.of_nat m -> 0 < N.of_nat m -> start + N.of_nat m * total es <= lenN f ->
  exists es', contig_read_skips E f t e start blen es (repeat s (nreads es)) = (es', Ok (lim (last_rm None es) (N.of_nat m * n - s)))
    /\ exts esz (fun off x => skipn (N.to_nat s) (col start (total es) n m off x)) 0 es es'.
Proof.
  intros Hne Hn G L Hb Hm H. destruct Ad as [A1 A2]. pose proof (total_pos es n Hne Hn G L) as Tp.
  assert (Tl : total es <= N.of_nat m * total es) by nia.
  unfold contig_read_skips, seek_to. replace (start <=? seek_max E) with true by lia. cbn [bind].
  unfold block_size. rewrite block_size_ok by (auto; lia). cbn [bind].
  unfold udiv at 1. replace (0 + total es =? 0) with false by lia. cbn [bind].
  destruct es as [|x0 es0] eqn:Ees; [congruence|]. rewrite <- Ees in *.
  assert (Hx : en_len x0 = n) by (rewrite Ees in L; now inversion L). rewrite Hx.
  rewrite div_skips_repeat by exact Hn. cbn [bind].
  replace (blen / (0 + total es)) with (N.of_nat m) by (rewrite N.add_0_l; symmetry; exact Hb).
  rewrite Nat2N.id. set (k := nreads es) in *.
  destruct (Nat.eq_dec k 0) as [K0|K0].
  - rewrite K0. cbn [repeat].
    destruct (contig_loop_ok (fun idx es => if forallb (fun p => fst p <=? idx) ([] : list (N * N))
        then Some (zip_skips (map (skip_for idx) []) es) else None)
        n (total es) 0 0 0%nat Hn Hn
        ltac:(intros idx ys Hy; cbv beta; cbn [forallb map]; replace (idx <? 0) with false by lia;
              change (@nil N) with (repeat (if idx =? 0 then 0 else 0) 0); rewrite <- Hy, zip_repeat; reflexivity)
        m 0 es 0 start K0 G L eq_refl ltac:(lia) ltac:(lia)) as [es' [R X]].
    exists es'. rewrite R. split.
    + rewrite last_rm_none by exact K0. reflexivity.
    + eapply nreads_0; [exact K0|exact X].
  - destruct (contig_loop_ok (fun idx es => if forallb (fun p => fst p <=? idx) (repeat (s / n, s mod n) k)
        then Some (zip_skips (map (skip_for idx) (repeat (s / n, s mod n) k)) es) else None)
        n (total es) (s / n) (s mod n) k Hn ltac:(apply N.mod_lt; lia)) with (m := m) (idx := 0) (es := es) (len := 0) (pos := start)
        as [es' [R X]]; auto; try lia.
    + intros idx ys Hy. cbv beta. rewrite map_repeat'. unfold skip_for. cbn [fst snd].
      assert (Zr : forall v, zip_skips (repeat v k) ys = set_all_skips v ys) by (intros v; rewrite <- Hy; apply zip_repeat).
      rewrite Zr.
      assert (Fb : forallb (fun p : N * N => fst p <=? idx) (repeat (s / n, s mod n) k) = (s / n <=? idx)).
      { destruct k as [|k']; [congruence|]. clear. induction k' as [|k' IH].
        - cbn [repeat forallb fst]. apply andb_true_r.
        - cbn [repeat forallb fst] in *. rewrite IH. apply andb_diag. }
      rewrite Fb. destruct (idx <? s / n) eqn:Q.
      * now replace (s / n <=? idx) with false by lia.
      * now replace (s / n <=? idx) with true by lia.
    + assert (Es : (s / n - 0) * n + s mod n = s) by (rewrite N.sub_0_r; pose proof (N.div_mod s n ltac:(lia)); lia).
      assert (Q0 : (0 <=? s / n) = true) by (apply N.leb_le, N.le_0_l). rewrite Q0, Es in R, X.
      exists es'. rewrite R. split; [|exact X]. do 2 f_equal.
Qed.

(** ** Interleaved *)
Definition is_skip0 (x : entry V) : Prop := match en_plan x with PRead _ _ _ s => s = 0 | PSkip _ => True end.
Fixpoint max_room (es : list (entry V)) : nat :=
  match es with
  | [] => 0%nat
  | x :: r => Nat.max (match en_plan x with PRead _ _ rm _ => rm | PSkip _ => 0%nat end) (max_room r)
  end.

(** As [exts], keeping the skips. *)
Lemma inter_row_ok base row es : forall off any pos, pos = base + off ->
  Forall good_entry es -> Forall is_skip0 es -> pos + rowtotal es <= lenN f ->
  exists es', inter_row E f t e row es any pos = (es', Ok (any || Nat.ltb 0 (max_room es), pos + rowtotal es))
    /\ exts wd (fun o _ => [at_ (base + o)]) off es es' /\ Forall is_skip0 es'
    /\ (max_room es = 0%nat -> es' = es).
Proof.
  induction es as [|x es IH]; intros off any pos Hp G Z H; cbn [inter_row max_room].
  - exists []. cbn [rowtotal fold_right exts]. split; [|auto].
    change (Nat.ltb 0 0) with false. rewrite orb_false_r. do 3 f_equal. lia.
  - unfold rowtotal in H. cbn [fold_right] in H. fold (rowtotal es) in H.
    inversion G as [|y l G1 G2]; inversion Z as [|y' l' Z1 Z2]; subst y l y' l'.
    unfold wd, good_entry, is_skip0 in *. destruct (en_plan x) as [b|o g r s] eqn:P.
    + rewrite seek_inside by lia.
      destruct (IH (off + wd x) any (pos + Z.to_N b)) as [es' [R [X [Z' M]]]]; auto.
      { unfold wd. rewrite P. lia. } { lia. }
      rewrite R. exists (x :: es'). split.
      * cbn [Nat.max]. do 3 f_equal. unfold rowtotal. cbn [fold_right]. fold (rowtotal es). unfold wd. rewrite P. lia.
      * split; [cbn [exts]; split; [|exact X]|split].
        -- split; [reflexivity|]. now rewrite P.
        -- constructor; [now rewrite P|exact Z'].
        -- cbn [Nat.max]. intros K. f_equal. auto.
    + subst s. rewrite read_at_ok by lia. replace (0 <=? row) with true by lia.
      assert (Ew : wd x = sz) by (unfold wd; now rewrite P).
      destruct r as [|r].
      * destruct (IH (off + wd x) any (pos + sz)) as [es' [R [X [Z' M]]]]; auto; try lia.
        rewrite R. exists (x :: es'). split; [|split; [cbn [exts]; split; [|exact X]|split]].
        -- cbn [Nat.max]. do 3 f_equal. unfold rowtotal. cbn [fold_right]. fold (rowtotal es). lia.
        -- split; [reflexivity|]. rewrite P. exists 0. cbn [firstn]. now rewrite app_nil_r.
        -- constructor; [now rewrite P|exact Z'].
        -- cbn [Nat.max]. intros K. f_equal. auto.
      * destruct (IH (off + wd x) true (pos + sz)) as [es' [R [X [Z' M]]]]; auto; try lia.
        rewrite R. eexists (_ :: es'). split; [reflexivity || idtac|]. 2: idtac.
        -- f_equal. f_equal. f_equal; [|unfold rowtotal; cbn [fold_right]; fold (rowtotal es); lia].
           cbn [orb]. symmetry. apply orb_true_iff. right. apply Nat.ltb_lt. lia.
        -- split; [cbn [exts]; split; [|exact X]|split].
           ++ split; [reflexivity|]. rewrite P. cbn [en_plan]. exists 0. rewrite Hp. cbn [firstn length].
              rewrite firstn_nil. f_equal. lia.
           ++ constructor; [reflexivity|exact Z'].
           ++ intros K. exfalso. lia.
Qed.

Lemma max_room_exts step D k es : forall off es', (forall o x, In x es -> length (D o x) = k) ->
  exts step D off es es' -> max_room es' = (max_room es - k)%nat.
Proof.
  induction es as [|x es IH]; intros off [|x' es'] HD H; try contradiction; [reflexivity|].
  destruct H as [A B]. cbn [max_room]. erewrite (IH _ es'); [|intros; apply HD; now right|exact B].
  destruct A as [_ A]. specialize (HD off x (or_introl eq_refl)).
  destruct (en_plan x) as [b|o g r s].
  - rewrite A. lia.
  - destruct A as [s' A]. rewrite A, HD. lia.
Qed.

Definition icol (pos row : N) (m : nat) (off : N) : list V :=
  map (fun k => at_ (pos + N.of_nat k * row + off)) (seq 0 m).
Lemma icol_S pos row m off : icol pos row (S m) off = at_ (pos + off) :: icol (pos + row) row m off.
Proof.
  unfold icol. cbn [seq map]. f_equal; [f_equal; lia|]. rewrite <- seq_shift, map_map. apply map_ext.
  intros k. f_equal. lia.
Qed.
Lemma icol_length pos row m off : length (icol pos row m off) = m.
Proof. unfold icol. now rewrite map_length, seq_length. Qed.
Lemma icol_skipn k : forall pos row m off, skipn k (icol pos row m off) = icol (pos + N.of_nat k * row) row (m - k) off.
Proof.
  induction k as [|k IH]; intros pos row m off.
  - cbn [skipn]. rewrite Nat.sub_0_r. f_equal. lia.
  - destruct m as [|m]; [reflexivity|]. rewrite icol_S. cbn [skipn]. rewrite IH. f_equal; lia.
Qed.

Lemma exts_full step D es : max_room es = 0%nat -> forall off, exts step D off es es.
Proof.
  induction es as [|x es IH]; intros H off; cbn [exts]; [exact I|]. cbn [max_room] in H.
  split; [|apply IH; lia]. split; [reflexivity|]. destruct (en_plan x) as [b|o g r s]; [reflexivity|].
  exists s. replace r with 0%nat by lia. cbn [firstn]. now rewrite app_nil_r.
Qed.

Lemma inter_rows_ok m : forall row es read pos R, Forall good_entry es -> Forall is_skip0 es ->
  rowtotal es = R -> pos + N.of_nat m * R <= lenN f ->
  exists es', inter_rows E f t e m row es read pos = (es', Ok (read + N.of_nat (Nat.min (max_room es) m)))
    /\ exts wd (fun o _ => icol pos R m o) 0 es es'.
Proof.
  induction m as [|m IH]; intros row es read pos R G Z Hr H; cbn [inter_rows].
  - exists es. split; [do 2 f_equal; lia|]. eapply exts_ext; [|apply exts_nil]. reflexivity.
  - destruct (inter_row_ok pos row es 0 false pos ltac:(lia) G Z ltac:(lia)) as [es1 [Q [X [Z1 M]]]].
    rewrite Q. cbn [orb]. destruct (Nat.ltb 0 (max_room es)) eqn:K.
    + apply Nat.ltb_lt in K. rewrite Hr.
      assert (G1 : Forall good_entry es1) by (eapply exts_forall; [|exact X|exact G]; intros vs x x' A; apply ext_wd in A; tauto).
      assert (R1 : rowtotal es1 = R).
      { rewrite <- Hr. eapply exts_rowtotal; exact X. }
      destruct (IH (row + 1) es1 (read + 1) (pos + R) R G1 Z1 R1 ltac:(lia)) as [es' [Q' X']].
      exists es'. rewrite Q'. split.
      * do 2 f_equal. rewrite (max_room_exts wd (fun o _ => [at_ (pos + o)]) 1%nat es 0 es1 (fun _ _ _ => eq_refl) X). lia.
      * eapply exts_ext. 2:{ eapply exts_app; [apply wd_stable| |exact X|exact X']. intros vs x x' o A. reflexivity. }
        intros o x _. cbv beta. now rewrite icol_S.
    + apply Nat.ltb_ge in K. assert (K0 : max_room es = 0%nat) by lia. rewrite (M K0). exists es.
      split; [do 2 f_equal; lia|]. now apply exts_full.
Qed.

Definition common_skip (s : N) (es : list (entry V)) : Prop :=
  forall x, In x es -> forall o g r s', en_plan x = PRead o g r s' -> s' = s.

Lemma block_skips_common s es : common_skip s es -> block_skips es = repeat s (nreads es).
Proof.
  unfold block_skips, nreads. induction es as [|x es IH]; intros H; [reflexivity|].
  cbn [map concat filter].
  assert (IH' := IH (fun y Hy => H y (or_intror Hy))).
  destruct (is_read x) eqn:Q; unfold is_read in Q; destruct (en_plan x) as [b|o g r s'] eqn:P; try discriminate.
  - cbn [app length repeat]. rewrite IH'. now rewrite (H x (or_introl eq_refl) _ _ _ _ P).
  - cbn [app]. exact IH'.
Qed.
Lemma min_repeat s k : min_or_0 (repeat s k) = match k with O => 0 | _ => s end.
Proof.
  destruct k as [|k]; [reflexivity|]. cbn [repeat min_or_0]. induction k as [|k IH]; [reflexivity|].
  cbn [repeat fold_left]. now rewrite N.min_id.
Qed.
Lemma usum_from_ok l : forall acc, acc + fold_right N.add 0 l < 2 ^ 64 -> usum_from E acc l = Ok (acc + fold_right N.add 0 l).
Proof.
  induction l as [|x l IH]; intros acc H; cbn [usum_from fold_right] in *; [f_equal; lia|].
  unfold uadd, two64. replace (acc + x <? 2 ^ 64) with true by lia. cbn [bind]. rewrite IH by lia. f_equal. lia.
Qed.
Lemma row_size_ok es : Forall good_entry es -> rowtotal es < 2 ^ 64 -> row_size E t es = Ok (rowtotal es).
Proof.
  intros G H. assert (Ez : map (fun x => entry_size t (en_plan x)) es = map wd es).
  { apply map_ext_in. intros x Hx. rewrite Forall_forall in G. specialize (G x Hx).
    unfold entry_size, wd, good_entry in *. destruct (en_plan x); [|reflexivity].
    rewrite <- (Z2N.id bytes) at 1 by lia. apply as_u64_small. lia. }
  assert (Es : fold_right N.add 0 (map wd es) = rowtotal es).
  { unfold rowtotal. clear. induction es as [|x es IH]; [reflexivity|]. cbn [map fold_right]. now rewrite IH. }
  unfold row_size, usum. rewrite Ez. rewrite usum_from_ok; rewrite Es; [f_equal|]; lia.
Qed.

Lemma rowtotal_pos es : es <> [] -> Forall good_entry es -> 0 < rowtotal es.
Proof.
  intros Hne G. destruct es as [|x es]; [congruence|]. inversion G; subst.
  unfold rowtotal. cbn [fold_right]. unfold wd, good_entry in *. pose proof (size_bytes_pos t).
  destruct (en_plan x); lia.
Qed.

Lemma inter_read_ok start blen es s m : es <> [] -> Forall good_entry es -> common_skip s es ->
  blen = N.of_nat m * rowtotal es -> 0 < N.of_nat m -> s <= N.of_nat m -> start + blen <= lenN f ->
  exists es', inter_read E f t e start blen es = (es', Ok (N.min (N.of_nat (max_room es)) (N.of_nat m - s)))
    /\ exts wd (fun o _ => skipn (N.to_nat s) (icol start (rowtotal es) m o)) 0 es es'.
Proof.
  intros Hne G C Hb Hm Hs H. destruct Ad as [A1 A2]. pose proof (rowtotal_pos es Hne G) as Rp.
  assert (Rl : rowtotal es <= N.of_nat m * rowtotal es) by nia.
  assert (Sl : s * rowtotal es <= N.of_nat m * rowtotal es) by (apply N.mul_le_mono_r; exact Hs).
  assert (Ms : N.of_nat m <= N.of_nat m * rowtotal es) by nia.
  unfold inter_read. rewrite (block_skips_common s es C), min_repeat.
  unfold seek_to. replace (start <=? seek_max E) with true by lia. cbn [bind].
  rewrite row_size_ok by (auto; lia). cbn [bind].
  unfold udiv. replace (rowtotal es =? 0) with false by lia. cbn [bind].
  replace (blen / rowtotal es) with (N.of_nat m) by (rewrite Hb, N.div_mul by lia; reflexivity).
  destruct (nreads es) as [|k] eqn:K.
  - replace (0 <? 0) with false by lia. rewrite N.sub_0_r, Nat2N.id.
    set (es1 := map _ es).
    assert (E1 : es1 = es).
    { unfold es1. rewrite <- (map_id es) at 2. apply map_ext_in. intros x Hx.
      destruct (en_plan x) as [b|o g r s'] eqn:P; [reflexivity|]. exfalso.
      unfold nreads in K. assert (Q : In x (filter is_read es)) by (apply filter_In; split; [exact Hx|unfold is_read; now rewrite P]).
      destruct (filter is_read es); [contradiction|discriminate]. }
    rewrite E1.
    assert (Z : Forall is_skip0 es /\ max_room es = 0%nat).
    { clear -K. unfold nreads in K. induction es as [|x es IH]; [split; [constructor|reflexivity]|].
      cbn [filter max_room] in *. destruct (is_read x) eqn:Q; [discriminate|]. unfold is_read in Q.
      destruct (en_plan x) eqn:P; [|discriminate].
      destruct (IH K) as [I1 I2]. split; [constructor; [unfold is_skip0; now rewrite P|exact I1]|rewrite I2; reflexivity]. }
    destruct Z as [Z Z0].
    destruct (inter_rows_ok m 0 es 0 start (rowtotal es) G Z eq_refl ltac:(lia)) as [es' [Q X]].
    exists es'. rewrite Q, Z0. split; [do 2 f_equal; lia|]. eapply nreads_0; [exact K|exact X].
  - set (es1 := map _ es).
    assert (Pos : (if 0 <? s then off <- imul E (as_i64 s) (as_i64 (rowtotal es)) ;;
                     pos' <- seek_rel E start off ;; Ok (pos', N.of_nat m) else Ok (start, N.of_nat m))
                  = Ok (start + s * rowtotal es, N.of_nat m)).
    { destruct (0 <? s) eqn:S0; [|do 2 f_equal; lia].
      pose proof (seek_prod start s (rowtotal es) ltac:(lia) ltac:(lia) ltac:(lia)) as Q.
      destruct (imul E (as_i64 s) (as_i64 (rowtotal es))); cbn [bind] in *; try discriminate.
      rewrite Q. reflexivity. }
    rewrite Pos.
    assert (X1 : exts wd (fun _ _ => []) 0 es es1).
    { unfold es1. clear. generalize 0. induction es as [|x es IH]; intros o; cbn [map exts]; [exact I|].
      split; [|apply IH]. unfold ext. destruct (en_plan x) as [b|o' g r s'] eqn:P; cbn [en_len en_plan].
      - split; [reflexivity|exact P].
      - split; [reflexivity|]. exists (s' - s). now rewrite firstn_nil, app_nil_r, Nat.sub_0_r. }
    assert (Z1 : Forall is_skip0 es1).
    { unfold es1. apply Forall_forall. intros y Hy. apply in_map_iff in Hy. destruct Hy as [x [<- Hx]].
      unfold is_skip0. destruct (en_plan x) as [b|o' g r s'] eqn:P; cbn [en_plan]; [now rewrite P|].
      rewrite (C x Hx _ _ _ _ P). lia. }
    assert (G1 : Forall good_entry es1) by (eapply exts_forall; [|exact X1|exact G]; intros vs x x' A; apply ext_wd in A; tauto).
    assert (R1 : rowtotal es1 = rowtotal es).
    { eapply exts_rowtotal; exact X1. }
    destruct (inter_rows_ok (N.to_nat (N.of_nat m - s)) 0 es1 0 (start + s * rowtotal es) (rowtotal es) G1 Z1 R1) as [es' [Q X]].
    { rewrite N2Nat.id, N.mul_sub_distr_r. lia. }
    exists es'. rewrite Q. rewrite (max_room_exts wd (fun _ _ => []) 0%nat es 0 es1 (fun _ _ _ => eq_refl) X1), Nat.sub_0_r.
    split; [do 2 f_equal; lia|].
    eapply exts_ext. 2:{ eapply exts_app; [apply wd_stable| |exact X1|exact X]. intros vs x x' o A. reflexivity. }
    intros o x _. cbv beta. cbn [app]. rewrite icol_skipn. f_equal; lia.
Qed.
End Block.
