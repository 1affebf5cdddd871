(** * Lower bounds on the operations of a read *)
From Verif Require Import Base Utf8 DataTypes MetaData DataBlock Index RawData ChannelReader TdmsFile ReaderIO Lib SpecIndex SpecRead
  Block_proofs Request_proofs.

(** Whatever the operations answer: if the result satisfies [Q], there were at
    least [n] of them and the result satisfies [R]. *)
Fixpoint needs {A} (Q : A -> bool) (R : A -> Prop) (n : nat) (p : prog A) : Prop :=
  match p with
  | Ret a => Q a = true -> n = 0%nat /\ R a
  | Do _ k => forall x, needs Q R (pred n) (k x)
  end.

Lemma needs_bind A B (Q1 : A -> bool) R1 (Q2 : B -> bool) R2 (q : A -> prog B) m : forall p n,
  needs Q1 R1 n p -> (forall a, Q1 a = true -> R1 a -> needs Q2 R2 m (q a)) ->
  (forall a k, Q1 a = false -> needs Q2 R2 k (q a)) -> needs Q2 R2 (n + m) (pbind p q).
Proof.
  induction p as [a|o k IH]; intros n H H1 H2; cbn [pbind needs] in *.
  - destruct (Q1 a) eqn:K; [|now apply H2]. destruct (H eq_refl) as [-> Ra]. now apply H1.
  - intros x. destruct n as [|n]; cbn [pred Nat.add] in *.
    + assert (G : needs Q2 R2 (0 + m) (pbind (k x) q)) by (apply IH; auto). cbn [Nat.add] in G.
      clear - G. revert G. generalize (pbind (k x) q). intros p. revert m. induction p as [a|o k' IH]; intros m G; cbn [needs] in *.
      * intros Ha. destruct (G Ha) as [-> Ra]. auto.
      * intros y. specialize (IH y (pred m)). auto.
    + apply IH; auto.
Qed.
Lemma needs_run A E D cap f (Q : A -> bool) R : forall p n s s' xs a, needs Q R n p ->
  run_prog E D cap f p s = (s', xs, a) -> Q a = true -> (n <= length xs)%nat.
Proof.
  induction p as [a0|o k IH]; intros n s s' xs a H Ru Qa; cbn [run_prog needs] in *.
  - injection Ru as _ <- <-. destruct (H Qa). lia.
  - destruct (dev_op E D cap f o s) as [s1 x]. destruct (run_prog E D cap f (k x) s1) as [[s2 ys] c] eqn:Rk.
    injection Ru as _ <- <-. specialize (IH x _ _ _ _ _ (H x) Rk Qa). cbn [length]. lia.
Qed.
Lemma needs_fewer A (Q : A -> bool) R : forall p n m, needs Q R n p -> (m <= n)%nat -> needs Q R m p.
Proof.
  induction p as [a|o k IH]; intros n m H L; cbn [needs] in *.
  - intros Qa. destruct (H Qa) as [-> Ra]. split; [lia|exact Ra].
  - intros x. eapply IH; [apply H|lia].
Qed.
Lemma needs_post A (Q : A -> bool) (R R' : A -> Prop) : (forall a, Q a = true -> R a -> R' a) ->
  forall p n, needs Q R n p -> needs Q R' n p.
Proof.
  intros I p. induction p as [a|o k IH]; intros n H; cbn [needs] in *; [intros Qa; destruct (H Qa); auto|auto].
Qed.

Definition is_ok {A} (r : res A) : bool := match r with Ok _ => true | _ => false end.
Definition ok2 {A B} (y : A * res B) : bool := is_ok (snd y).
Definition anything {A} (a : A) : Prop := True.

Lemma ok2_false A B (y : A * res B) : ok2 y = false -> is_ok (snd y) = false.
Proof. auto. Qed.

Section Needs.
Context (E : env) (t : sty) (e : endian).
Local Notation V := (carrier t).

Lemma needs_free A (Q : A -> bool) : forall p, needs Q anything 0 p.
Proof. induction p as [a|o k IH]; cbn [needs pred]; [split; [reflexivity|exact Logic.I]|exact IH]. Qed.
Lemma needs_dec : needs is_ok anything 1 (dec_p E e t).
Proof. destruct t; cbn [dec_p]; intros x; apply needs_free. Qed.
Lemma needs_move d : needs is_ok anything 1 (move_p d).
Proof. intros x. apply needs_free. Qed.

(** An entry from which a sub-block read issues an operation. *)
Definition busy (x : entry V) : Prop := match en_plan x with PSkip _ => True | PRead _ _ _ _ => 0 < en_len x end.

Lemma needs_entry x : busy x -> needs ok2 (fun y => busy (fst y)) 1 (read_entry_p E t e x).
Proof.
  intros Bx. unfold read_entry_p. unfold busy in Bx. destruct (en_plan x) as [b|oid got room skip] eqn:P.
  - destruct (imul E b (as_i64 (en_len x))); try (intros Z; discriminate Z).
    intros y. cbn [pbind needs pred]. intros _. split; [reflexivity|]. cbn [fst]. unfold busy. now rewrite P.
  - cbv zeta. set (sk := N.min skip (en_len x)).
    assert (Hp : forall p : prog (res unit), forall n m,
      needs is_ok anything n p ->
      needs ok2 anything m (read_seq_p E t e room (en_len x - sk)) ->
      needs ok2 (fun y => busy (fst y)) (n + m) (pbind p (fun mm => match mm with
         | Ok _ => pbind (read_seq_p E t e room (en_len x - sk)) (fun y =>
             Ret (mkEntry (en_len x) (PRead oid (got ++ fst y) (room - length (fst y)) skip), l <- snd y ;; Ok (Some l)))
         | q => Ret (x, recast q) end))).
    { intros p n m Hn Hm. eapply needs_bind; [exact Hn| |].
      - intros [u|y|y|] Qa _; try discriminate. rewrite <- (Nat.add_0_r m). eapply needs_bind; [exact Hm| |].
        + intros [vs r] Qa' _. cbn [needs]. intros _. split; [reflexivity|]. exact Bx.
        + intros [vs r] k Qa'. cbn [needs snd]. unfold ok2 in *. cbn [snd] in *. destruct r; try discriminate; intros Z; discriminate Z.
      - intros [u|y|y|] k Qa; try discriminate; intros Z; discriminate Z. }
    destruct (0 <? sk) eqn:Sk.
    + apply (Hp _ 1%nat 0%nat); [|apply needs_free].
      destruct (imul E (as_i64 sk) (as_i64 (size_bytes t))); try (intros Z; discriminate Z). apply needs_move.
    + apply (Hp (Ret (Ok tt)) 0%nat 1%nat); [apply needs_free|].
      unfold read_seq_p. cbv zeta. set (k := N.min (N.of_nat room) (en_len x - sk)).
      destruct (N.to_nat k) as [|k'] eqn:Hk; cbn [read_vals_p pbind].
      * replace (0 <? en_len x - sk - k) with true by lia.
        destruct (imul E _ _); try (intros Z; discriminate Z). intros y. apply needs_free.
      * rewrite <- (Nat.add_0_r 1). eapply needs_bind with (Q1 := ok2) (R1 := anything).
        -- rewrite <- (Nat.add_0_r 1). eapply needs_bind; [apply needs_dec| |].
           ++ intros [v|y|y|] Qa _; try discriminate. apply needs_free.
           ++ intros [v|y|y|] j Qa; try discriminate; intros Z; discriminate Z.
        -- intros. apply needs_free.
        -- intros [vs r] j Qa. unfold ok2 in Qa. cbn [snd] in Qa. destruct r; try discriminate; intros Z; discriminate Z.
Qed.

(** The first entry. *)
Definition starts_busy (es : list (entry V)) : Prop := match es with [] => False | x :: _ => busy x end.

Lemma needs_sub es len : starts_busy es -> needs ok2 (fun y => starts_busy (fst y)) 1 (read_sub_block_p E t e es len).
Proof.
  destruct es as [|x r]; intros Hb; [contradiction|]. cbn [read_sub_block_p starts_busy] in *.
  rewrite <- (Nat.add_0_r 1). eapply needs_bind; [apply needs_entry; exact Hb| |].
  - intros [x' q] Qa Bx. unfold ok2 in Qa. cbn [fst snd] in *. destruct q as [l|y|y|]; try discriminate.
    change 0%nat with (0 + 0)%nat. eapply needs_bind with (Q1 := ok2) (R1 := anything).
    + apply needs_free.
    + intros [es' q] Qa' _. cbn [needs]. intros _. split; [reflexivity|exact Bx].
    + intros [es' q] k Qa'. cbn [needs]. unfold ok2 in *. cbn [snd] in *. intros Z. congruence.
  - intros [x' q] k Qa. unfold ok2 in Qa. cbn [snd] in Qa. destruct q; try discriminate; intros Z; discriminate Z.
Qed.

Lemma needs_contig (step : N -> list (entry V) -> option (list (entry V))) :
  (forall idx es es', step idx es = Some es' -> starts_busy es -> starts_busy es') ->
  forall n idx es len, starts_busy es -> needs ok2 anything n (contig_loop_p E t e step n idx es len).
Proof.
  intros Hs. induction n as [|n IH]; intros idx es len Hb; [apply needs_free|]. cbn [contig_loop_p].
  destruct (step idx es) as [es1|] eqn:S1.
  - change (S n) with (1 + n)%nat. eapply needs_bind; [apply needs_sub; eapply Hs; eauto| |].
    + intros [es2 q] Qa Bx. unfold ok2 in Qa. cbn [fst snd] in *. destruct q; try discriminate. now apply IH.
    + intros [es2 q] k Qa. unfold ok2 in Qa. cbn [snd] in Qa. destruct q; try discriminate; intros Z; discriminate Z.
  - destruct (block_size E t es); try (intros Z; discriminate Z).
    change (S n) with (1 + n)%nat. eapply needs_bind; [apply needs_move| |].
    + intros [u|y|y|] Qa _; try discriminate. now apply IH.
    + intros [u|y|y|] k Qa; try discriminate; intros Z; discriminate Z.
Qed.

Lemma busy_skip s x : busy x -> busy (set_skip s x).
Proof. unfold busy, set_skip. destruct (en_plan x) eqn:P; cbn [en_plan en_len]; [now rewrite P|auto]. Qed.
Lemma all_busy s es : starts_busy es -> starts_busy (set_all_skips s es).
Proof. destruct es as [|x es]; [auto|]. apply busy_skip. Qed.
Lemma zip_busy ss es : starts_busy es -> starts_busy (zip_skips ss es).
Proof.
  destruct es as [|x es]; [auto|]. cbn [zip_skips]. intros H. destruct (en_plan x); [exact H|].
  destruct ss; [exact H|]. apply busy_skip. exact H.
Qed.

(** The code divides by the length of the first entry if it is read. *)
Lemma needs_from start blen es s n : block_size E t es = Ok n -> 0 < n ->
  needs ok2 anything (N.to_nat (blen / n)) (contig_read_from_p E t e start blen es s).
Proof.
  intros Bs Hn. unfold contig_read_from_p. change (N.to_nat (blen / n)) with (0 + N.to_nat (blen / n))%nat.
  eapply needs_bind with (Q1 := is_ok) (R1 := anything); [apply needs_free| |].
  - intros [u|y|y|] Qa _; try discriminate. cbn [bind]. rewrite Bs. cbn [bind]. unfold udiv at 1.
    replace (n =? 0) with false by lia. cbn [bind].
    destruct es as [|x es]; [intros Z; discriminate Z|]. unfold udiv. destruct (en_len x =? 0) eqn:L; cbn [bind]; [intros Z; discriminate Z|].
    apply needs_contig.
    + intros idx es1 es2 Hs Hb. destruct (idx <? _); [discriminate|]. destruct (idx =? _); injection Hs as <-; now apply all_busy.
    + cbn [starts_busy]. unfold busy. destruct (en_plan x); [exact Logic.I|lia].
  - intros [u|y|y|] k Qa; try discriminate; intros Z; discriminate Z.
Qed.
Lemma needs_skips start blen es ss n : block_size E t es = Ok n -> 0 < n ->
  (ss = [] -> match es with x :: _ => exists b, en_plan x = PSkip b | [] => True end) ->
  needs ok2 anything (N.to_nat (blen / n)) (contig_read_skips_p E t e start blen es ss).
Proof.
  intros Bs Hn H0. unfold contig_read_skips_p. change (N.to_nat (blen / n)) with (0 + N.to_nat (blen / n))%nat.
  eapply needs_bind with (Q1 := is_ok) (R1 := anything); [apply needs_free| |].
  - intros [u|y|y|] Qa _; try discriminate. cbn [bind]. rewrite Bs. cbn [bind]. unfold udiv at 1.
    replace (n =? 0) with false by lia. cbn [bind].
    destruct es as [|x es]; [intros Z; discriminate Z|].
    destruct (div_skips (en_len x) ss) as [l|y|y|] eqn:Dv; cbn [bind]; try (intros Z; discriminate Z).
    apply needs_contig.
    + intros idx es1 es2 Hs Hb. destruct (forallb _ _); [|discriminate]. injection Hs as <-. now apply zip_busy.
    + cbn [starts_busy]. unfold busy. destruct ss as [|s0 ss].
      * destruct (H0 eq_refl) as [b ->]. exact Logic.I.
      * cbn [div_skips] in Dv. unfold udiv in Dv. destruct (en_len x =? 0) eqn:L; [discriminate|].
        destruct (en_plan x); [exact Logic.I|lia].
  - intros [u|y|y|] k Qa; try discriminate; intros Z; discriminate Z.
Qed.

Lemma validate_inv chans reqs : validate t reqs chans = Ok tt -> Forall (valid_req t chans) reqs.
Proof.
  induction reqs as [|q reqs IH]; cbn [validate]; intros H; constructor.
  - destruct (nth_error chans (rq_chan q)) as [m|] eqn:Hm; [|discriminate].
    destruct (supports t (rm_type m)) eqn:Hs; [|discriminate]. exists m. auto.
  - destruct (nth_error chans (rq_chan q)) as [m|]; [|discriminate]. destruct (supports t (rm_type m)); [auto|discriminate].
Qed.
End Needs.

Lemma plan_size E t chans reqs (es : list (entry (carrier t))) : fixed t -> Forall (fun m => 0 < width (rm_type m)) chans -> sub_bytes chans < 2 ^ 64 ->
  build_record_plan t chans reqs = Ok es -> block_size E t es = Ok (sub_bytes chans).
Proof.
  intros Fx W Hs P. unfold build_record_plan in P. apply bind_ok in P. destruct P as [u [Hv P]]. destruct u. injection P as <-.
  apply validate_inv in Hv. pose proof (set_readable_rel t chans Fx reqs 0 _ (base_rel t chans W) Hv) as R.
  pose proof (rel_total _ _ _ R) as T. unfold block_size. rewrite block_size_ok; [now rewrite T|exact (rel_good _ _ _ R)|].
  rewrite T. lia.
Qed.

(** ** Every sub-block costs an operation *)
Lemma needs_block E t b reqs : fixed t -> Forall (fun m => 0 < width (rm_type m)) (b_chans b) ->
  0 < sub_bytes (b_chans b) < 2 ^ 64 -> b_layout b = Contigious ->
  needs ok2 anything (N.to_nat (b_len b / sub_bytes (b_chans b))) (block_read_p E t b reqs)
  /\ needs ok2 anything (N.to_nat (b_len b / sub_bytes (b_chans b))) (block_read_skips_p E t b reqs).
Proof.
  intros Fx W Hs La. unfold block_read_p, block_read_skips_p. cbv zeta. rewrite La.
  destruct (build_record_plan t (b_chans b) reqs) as [es|y|y|] eqn:P; try (split; intros Z; discriminate Z).
  pose proof (plan_size E t _ _ _ Fx W (proj2 Hs) P) as Bs.
  assert (Hw : forall p n, needs ok2 anything n p ->
    needs ok2 anything n (pbind p (fun y => Ret (outputs reqs (fst y) : list (list (carrier t)), snd y : res N)))).
  { intros p n H. rewrite <- (Nat.add_0_r n). eapply needs_bind; [exact H| |].
    - intros. apply needs_free.
    - intros y k Qa. cbn [needs]. unfold ok2 in *. cbn [snd]. congruence. }
  split; apply Hw; [now apply needs_from|]. apply needs_skips; [exact Bs|lia|].
  destruct reqs; [|discriminate]. intros _. unfold build_record_plan in P. cbn [validate bind set_readable] in P.
  injection P as <-. destruct (b_chans b); cbn [base_record map]; [exact Logic.I|]. eexists. reflexivity.
Qed.

Lemma needs_execute E t ix br plan prs outs b : get_data_block ix (br_block br) = Some b ->
  fixed t -> Forall (fun m => 0 < width (rm_type m)) (b_chans b) ->
  0 < sub_bytes (b_chans b) < 2 ^ 64 -> b_layout b = Contigious ->
  needs ok2 anything (N.to_nat (b_len b / sub_bytes (b_chans b))) (execute_p E t ix (br :: plan) prs outs).
Proof.
  intros G Fx W Hs La. cbn [execute_p]. rewrite G. cbv zeta.
  destruct (needs_block E t b (block_requests (br_chans br) prs) Fx W Hs La) as [N1 N2].
  rewrite <- (Nat.add_0_r (N.to_nat _)). eapply needs_bind with (Q1 := ok2) (R1 := anything).
  - destruct (any_skip (br_chans br)); assumption.
  - intros. apply needs_free.
  - intros [got r] k Qa. unfold ok2 in Qa. cbn [snd] in Qa. destruct r; try discriminate; intros Z; discriminate Z.
Qed.
