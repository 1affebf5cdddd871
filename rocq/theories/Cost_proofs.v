(** * Numbers of operations on the stream *)
From Coq Require Import Sorting.Sorted.
From Verif Require Import Base Utf8 DataTypes MetaData DataBlock Index RawData ChannelReader TdmsFile ReaderIO Lib SpecIndex
  Parse_proofs Index_proofs History_proofs Open_proofs Safe_proofs SpecReadIO ReadIO_proofs.

(** ** Operations of a run without failures *)
Fixpoint ops {A} (E : env) (f : list byte) (p : prog A) (w : place) : nat :=
  match p with
  | Ret _ => 0
  | Do o k =>
    match pure_op E f o w with
    | Some (x, w') => S (ops E f (k x) w')
    | None => 0
    end
  end.

Lemma ops_bind A B E f (p : prog A) (q : A -> prog B) : forall w,
  ops E f (pbind p q) w = (ops E f p w + match run_pure E f p w with Some (a, w') => ops E f (q a) w' | None => 0 end)%nat.
Proof.
  induction p as [a|o k IH]; intros w; cbn [pbind ops run_pure]; [reflexivity|].
  destruct (pure_op E f o w) as [[x w']|]; [now rewrite IH|reflexivity].
Qed.

(** A run on a device has at most as many operations: after a failure there are
    no more. *)
Lemma run_ops A E D cap f bad (p : prog A) : lenN f <= seek_max E -> stops bad p ->
  forall s w r s' xs b, is_at E f s w -> run_pure E f p w = Some r -> run_prog E D cap f p s = (s', xs, b) ->
  (length xs <= ops E f p w)%nat.
Proof.
  intros Fits. induction 1 as [a0|k P IH|o k [a0 [Z Ba]] P IH]; intros s w r s' xs b Hat Pu R; cbn [run_pure run_prog ops] in *.
  - injection R as _ <- _. cbn [length]. lia.
  - destruct (pure_op E f NewBuf w) as [[x w1]|] eqn:Po; [|discriminate].
    destruct (dev_op E D cap f NewBuf s) as [s1 y] eqn:Do_. destruct (run_prog E D cap f (k y) s1) as [[s2 ys] c] eqn:Rk.
    injection R as <- <- <-. destruct (op_refines E D cap f Fits NewBuf s w x w1 s1 y Hat Po Do_) as [[-> A1]|[-> F]].
    + specialize (IH x s1 w1 r s2 ys c A1 Pu Rk). cbn [length]. lia.
    + discriminate Do_.
  - destruct (pure_op E f o w) as [[x w1]|] eqn:Po; [|discriminate].
    destruct (dev_op E D cap f o s) as [s1 y] eqn:Do_. destruct (run_prog E D cap f (k y) s1) as [[s2 ys] c] eqn:Rk.
    injection R as <- <- <-. destruct (op_refines E D cap f Fits o s w x w1 s1 y Hat Po Do_) as [[-> A1]|[-> F]].
    + specialize (IH x s1 w1 r s2 ys c A1 Pu Rk). cbn [length]. lia.
    + rewrite Z in Rk. cbn [run_prog] in Rk. injection Rk as _ <- _. cbn [length]. lia.
Qed.

(** ** Opening *)
Section Open.
Context (E : env) (f : list byte).

(** At most one operation per byte consumed, and one more that fails. *)
Definition frugal {A} (Q : prog (res A)) : Prop :=
  forall p, match run_pure E f Q (AtBuf p) with
            | Some (Ok _, AtBuf q) => p + N.of_nat (ops E f Q (AtBuf p)) <= q /\ q <= N.max p (lenN f)
            | Some (Ok _, _) => False
            | _ => N.of_nat (ops E f Q (AtBuf p)) <= lenN f - p + 1
            end.

Lemma frugal_ret A (a : A) : frugal (Ret (Ok a)).
Proof. intros p. cbn [run_pure ops]. split; lia. Qed.
Lemma frugal_err A x : frugal (Ret (@Err A x)).
Proof. intros p. cbn [run_pure ops]. lia. Qed.
Lemma frugal_bind A B (Q : prog (res A)) (Q' : A -> prog (res B)) :
  frugal Q -> (forall a, frugal (Q' a)) -> frugal (rbind Q Q').
Proof.
  intros H H' p. specialize (H p). unfold rbind. rewrite run_pure_bind, ops_bind.
  destruct (run_pure E f Q (AtBuf p)) as [[[a|x|x|] w]|].
  - destruct w as [q|q|]; try contradiction. specialize (H' a q).
    destruct (run_pure E f (Q' a) (AtBuf q)) as [[[b|x|x|] w]|].
    + destruct w as [q'|q'|]; try contradiction. lia.
    + lia.
    + lia.
    + lia.
    + lia.
  - cbn [run_pure ops]. lia.
  - cbn [run_pure ops]. lia.
  - cbn [run_pure ops]. lia.
  - lia.
Qed.
Lemma frugal_map A B (Q : prog (res A)) (g : A -> res B) : frugal Q -> frugal (rbind Q (fun a => Ret (g a))).
Proof.
  intros H p. specialize (H p). unfold rbind. rewrite run_pure_bind, ops_bind.
  destruct (run_pure E f Q (AtBuf p)) as [[[a|x|x|] w]|]; cbn [run_pure ops]; try lia.
  destruct w as [q|q|]; try contradiction. destruct (g a); lia.
Qed.
Lemma frugal_ask n : 0 < n -> frugal (ask n).
Proof.
  intros Hn p. unfold ask. cbn [run_pure ops pure_op]. unfold read_exact. rewrite lenN_dropN.
  destruct (n <=? lenN f - p) eqn:L; cbn [run_pure ops recast]; lia.
Qed.
Lemma frugal_uint e w : (0 < w)%nat -> frugal (dec_uint_p e w).
Proof. intros H. apply frugal_bind; [apply frugal_ask; lia|]. intros a. apply frugal_ret. Qed.
Lemma ask_run n p :
  ops E f (ask n) (AtBuf p) = 1%nat
  /\ ((exists b, run_pure E f (ask n) (AtBuf p) = Some (Ok b, AtBuf (p + n)) /\ n <= lenN f - p)
      \/ (exists x, run_pure E f (ask n) (AtBuf p) = Some (Err x, Lost))).
Proof.
  unfold ask. cbn [run_pure ops pure_op]. unfold read_exact. rewrite lenN_dropN.
  destruct (n <=? lenN f - p) eqn:L; cbn [run_pure ops recast]; (split; [reflexivity|]).
  - left. eexists. split; [reflexivity|lia].
  - right. eexists. reflexivity.
Qed.
Lemma frugal_str e : frugal (dec_str_p E e).
Proof.
  intros p. unfold dec_str_p, rbind. rewrite run_pure_bind, ops_bind. unfold dec_uint_p, rbind. rewrite run_pure_bind, ops_bind.
  change (N.of_nat 4) with 4. destruct (ask_run 4 p) as [O4 [[b [R4 L4]]|[x R4]]]; rewrite O4, R4; cbn [run_pure ops]; [|lia].
  destruct (alloc_ok E AString (uint_val e b)); cbn [run_pure ops]; [|lia].
  rewrite run_pure_bind, ops_bind.
  destruct (ask_run (uint_val e b) (p + 4)) as [Os [[c [Rs Ls]]|[x Rs]]]; rewrite Os, Rs; cbn [run_pure ops]; [|lia].
  destruct (utf8_valid c); cbn [run_pure ops]; lia.
Qed.
Lemma frugal_dec e t : frugal (dec_p E e t).
Proof.
  destruct t; cbn [dec_p]; unfold dec_sint_p, dec_bool_p, dec_ext_p, dec_complex_p;
    repeat first [apply frugal_str | apply frugal_uint; lia | apply frugal_ask; lia | apply frugal_ret
                 | apply frugal_bind; [|intros ?]].
Qed.
Lemma frugal_dtype e : frugal (read_dtype_p e).
Proof. unfold read_dtype_p. apply frugal_map. apply frugal_uint. lia. Qed.
Lemma frugal_pval e : frugal (read_pval_p E e).
Proof.
  unfold read_pval_p. apply frugal_bind; [apply frugal_dtype|]. intros t.
  destruct t; first [apply frugal_ret|apply frugal_err|unfold read_as_p; apply frugal_bind; [apply frugal_dec|intros v; apply frugal_ret]].
Qed.
Lemma frugal_rawidx e : frugal (read_rawidx_p e).
Proof.
  unfold read_rawidx_p. apply frugal_bind; [apply frugal_uint; lia|]. intros i.
  destruct (i =? 0); [apply frugal_ret|]. destruct (i =? 4294967295); [apply frugal_ret|].
  destruct ((1762787328 <=? i) && (i <=? 1762852863)); [apply frugal_err|].
  destruct ((1762852864 <=? i) && (i <=? 1762918399)); [apply frugal_err|].
  repeat first [apply frugal_dtype | apply frugal_uint; lia | apply frugal_ret | apply frugal_bind; [|intros ?]].
Qed.
Lemma frugal_props e : forall n, frugal (read_props_p E e n).
Proof.
  induction n as [|n IH]; cbn [read_props_p]; [apply frugal_ret|].
  repeat first [apply (frugal_dec e SStr) | apply frugal_pval | exact IH | apply frugal_ret | apply frugal_bind; [|intros ?]].
Qed.
Lemma frugal_obj e : frugal (read_obj_p E e).
Proof.
  unfold read_obj_p. apply frugal_bind; [apply (frugal_dec e SStr)|intros path]. apply frugal_bind; [apply frugal_rawidx|intros i].
  apply frugal_bind; [apply frugal_uint; lia|intros c]. destruct (alloc_ok E AProps c); [|apply frugal_err].
  apply frugal_bind; [apply frugal_props|intros ps; apply frugal_ret].
Qed.
Lemma frugal_objs e : forall n, frugal (read_objs_p E e n).
Proof.
  induction n as [|n IH]; cbn [read_objs_p]; [apply frugal_ret|].
  apply frugal_bind; [apply frugal_obj|intros o]. apply frugal_bind; [exact IH|intros r; apply frugal_ret].
Qed.
Lemma frugal_segment t : frugal (read_segment_p E t).
Proof.
  unfold read_segment_p. cbv zeta. do 3 (apply frugal_bind; [apply frugal_uint; lia|intros ?]).
  apply frugal_bind; [|intros m; apply frugal_ret].
  unfold read_metadata_p. apply frugal_bind; [apply frugal_uint; lia|intros c].
  destruct (alloc_ok E AObjects c); [apply frugal_objs|apply frugal_err].
Qed.

Lemma segment_cost p : N.of_nat (ops E f (segment_read_p E) (AtRaw p)) <= lenN f - p + 1.
Proof.
  unfold segment_read_p. cbn [ops pure_op]. unfold read_exact at 1. rewrite lenN_dropN.
  destruct (4 <=? lenN f - p) eqn:L1; cbn [recast ops]; [|lia].
  destruct (str_eqb _ TDSm); cbn [ops pure_op]; [|lia].
  unfold read_exact. rewrite lenN_dropN.
  destruct (4 <=? lenN f - (p + 4)) eqn:L2; cbn [recast ops pure_op]; [|lia].
  set (t := toc_of_u32 _). pose proof (frugal_segment t (p + 4 + 4)) as Fr.
  destruct (run_pure E f (read_segment_p E t) (AtBuf (p + 4 + 4))) as [[[a|x|x|] [q|q|]]|]; try contradiction; lia.
Qed.

Definition allowance (d : N) : N := (d / 28 + 1) * (d + 2).
Lemma allowance_mono d d' : d <= d' -> allowance d <= allowance d'.
Proof. intros H. unfold allowance. apply N.mul_le_mono; [|lia]. pose proof (N.div_le_mono d d' 28 ltac:(lia) H). lia. Qed.
Lemma allowance_step d : d + 30 + allowance d <= allowance (d + 28).
Proof.
  unfold allowance. replace (d + 28) with (d + 1 * 28) by lia. rewrite N.div_add by lia. nia.
Qed.

Lemma loop_cost : forall fuel ix, inv ix ->
  N.of_nat (ops E f (build_loop_p E fuel ix) (AtRaw (ix_next ix))) <= allowance (lenN f - ix_next ix).
Proof.
  induction fuel as [|fuel IH]; intros ix I; cbn [build_loop_p ops]; [apply N.le_0_l|].
  rewrite ops_bind. pose proof (segment_cost (ix_next ix)) as C.
  assert (A1 : lenN f - ix_next ix + 2 <= allowance (lenN f - ix_next ix)) by (unfold allowance; generalize ((lenN f - ix_next ix) / 28); intros q; nia).
  pose proof (segment_read_fine E f (ix_next ix)) as Hfine.
  destruct (segment_read_pure E f (ix_next ix)) as [w Sr]; [intros Z; rewrite Z in Hfine; exact Hfine|]. rewrite Sr.
  destruct (segment_read E f (ix_next ix)) as [s|x|x|] eqn:R; try contradiction.
  - destruct (add_segment_spec E ix s I) as [ix1 [r [Ea [I1 Hr]]]]. rewrite Ea.
    destruct r as [n|x|x|]; cbn [ops]; try lia.
    cbn [pure_op]. destruct (n <=? seek_max E); cbn [ops]; [|lia].
    destruct Hr as [Hn [_ [Hx _]]]. rewrite <- Hx. specialize (IH ix1 I1).
    apply segment_read_ok in R. destruct R as [c [_ [Hc [Hle _]]]].
    pose proof (allowance_step (lenN f - ix_next ix - 28)) as St.
    replace (lenN f - ix_next ix - 28 + 28) with (lenN f - ix_next ix) in St by lia.
    pose proof (allowance_mono (lenN f - ix_next ix1) (lenN f - ix_next ix - 28) ltac:(lia)) as Mo.
    lia.
  - destruct x; cbn [ops]; lia.
Qed.

Lemma index_cost w : N.of_nat (ops E f (build_index_p E (S (length f))) w) <= 1 + allowance (lenN f).
Proof.
  unfold build_index_p. cbn [ops pure_op]. replace (0 <=? seek_max E) with true by lia.
  pose proof (loop_cost (S (length f)) index_new inv_new) as L. change (ix_next index_new) with 0 in L.
  rewrite N.sub_0_r in L. lia.
Qed.
End Open.
