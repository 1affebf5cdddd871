(** * Bounds on the operations of a read *)
From Coq Require Import Sorting.Sorted.
From Verif Require Import Base Utf8 DataTypes MetaData DataBlock Index RawData ChannelReader TdmsFile ReaderIO Lib SpecIndex SpecRead
  Block_proofs Request_proofs.

(** ** Upper bounds *)

(** Whatever the operations answer: at most [n] of them, less [phi] of the result. *)
Inductive spend {A} (phi : A -> nat) : prog A -> nat -> Prop :=
| sp_ret a n : (phi a <= n)%nat -> spend phi (Ret a) n
| sp_do o k n : (forall x, spend phi (k x) n) -> spend phi (Do o k) (S n).

Lemma spend_le A (phi : A -> nat) p n m : spend phi p n -> (n <= m)%nat -> spend phi p m.
Proof.
  intros H. revert m. induction H as [a n L|o k n H IH]; intros m Lm; [constructor; lia|].
  destruct m as [|m]; [lia|]. constructor. intros x. apply IH. lia.
Qed.
Lemma spend_bind A B (phi : A -> nat) (psi : B -> nat) (p : prog A) (q : A -> prog B) n :
  spend phi p n -> (forall a, spend psi (q a) (phi a)) -> spend psi (pbind p q) n.
Proof.
  intros H Q. induction H as [a n L|o k n H IH]; cbn [pbind]; [eapply spend_le; [apply Q|exact L]|].
  constructor. exact IH.
Qed.
Lemma spend_run A E D cap f (phi : A -> nat) p n : spend phi p n ->
  forall s s' xs a, run_prog E D cap f p s = (s', xs, a) -> (length xs + phi a <= n)%nat.
Proof.
  induction 1 as [a n L|o k n H IH]; intros s s' xs b R; cbn [run_prog] in R.
  - injection R as _ <- <-. exact L.
  - destruct (dev_op E D cap f o s) as [s1 x]. destruct (run_prog E D cap f (k x) s1) as [[s2 ys] c] eqn:Rk.
    injection R as _ <- <-. specialize (IH _ _ _ _ _ Rk). cbn [length]. lia.
Qed.

(** What is left after a success; a failure needs nothing more. *)
Definition after {A B} (phi : A -> nat) (y : A * res B) : nat :=
  match snd y with Ok _ => phi (fst y) | _ => 0%nat end.

Section Spend.
Context (E : env) (t : sty) (e : endian).
Local Notation V := (carrier t).

Lemma sp_done A (a : A) n : spend (fun _ => 0%nat) (Ret a) n.
Proof. constructor. lia. Qed.
Lemma sp_ask A n (k : list byte -> prog (res A)) m : (forall b, spend (fun _ => 0%nat) (k b) m) ->
  spend (fun _ => 0%nat) (b <~ ask n ;; k b) (S m).
Proof. intros H. unfold rbind, ask. cbn [pbind]. constructor. intros [b|x|x|]; cbn [pbind]; auto; apply sp_done. Qed.
Lemma sp_rbind A B (p : prog (res A)) (q : A -> prog (res B)) n m : spend (fun _ => 0%nat) p n ->
  (forall a, spend (fun _ => 0%nat) (q a) m) -> spend (fun _ => 0%nat) (a <~ p ;; q a) (n + m).
Proof.
  intros H Q. unfold rbind. induction H as [a n L|o k n H IH]; cbn [pbind].
  - destruct a as [a|x|x|]; try apply sp_done. eapply spend_le; [apply Q|lia].
  - cbn [Nat.add]. constructor. exact IH.
Qed.
Lemma sp_uint w : spend (fun _ => 0%nat) (dec_uint_p e w) 1.
Proof. unfold dec_uint_p. apply sp_ask. intros b. apply sp_done. Qed.
Lemma sp_dec : spend (fun _ => 0%nat) (dec_p E e t) 2.
Proof.
  assert (Hs : forall w, spend (fun _ => 0%nat) (dec_sint_p e w) 2).
  { intros w. unfold dec_sint_p. apply (sp_rbind _ _ _ _ 1 1); [apply sp_uint|intros; apply sp_done]. }
  assert (Hu : forall w, spend (fun _ => 0%nat) (dec_uint_p e w) 2) by (intros w; eapply spend_le; [apply sp_uint|lia]).
  assert (Hc : forall w, spend (fun _ => 0%nat) (dec_complex_p e w) 2).
  { intros w. unfold dec_complex_p. apply (sp_rbind _ _ _ _ 1 1); [apply sp_uint|intros].
    apply (sp_rbind _ _ _ _ 1 0); [apply sp_uint|intros; apply sp_done]. }
  destruct t; cbn [dec_p]; auto.
  - unfold dec_bool_p. apply sp_ask. intros; apply sp_done.
  - unfold dec_ext_p. apply sp_ask. intros; apply sp_done.
  - unfold dec_str_p. apply (sp_rbind _ _ _ _ 1 1); [apply sp_uint|intros len].
    destruct (alloc_ok E AString len); [|apply sp_done]. apply sp_ask. intros; apply sp_done.
Qed.

Lemma sp_move d n : spend (fun _ => n) (move_p d) (S n).
Proof. unfold move_p. constructor. intros x. constructor. lia. Qed.

Lemma sp_dec_n n : spend (fun _ => n) (dec_p E e t) (2 + n).
Proof.
  pose proof sp_dec as H. induction H as [a m L|o k m H IH].
  - constructor. lia.
  - cbn [Nat.add]. constructor. exact IH.
Qed.

Lemma sp_vals w n : spend (after (fun vs : list V => 2 * (n - length vs) + w)%nat) (read_vals_p E t e n) (2 * n + w).
Proof.
  induction n as [|n IH]; cbn [read_vals_p].
  - constructor. unfold after. cbn [fst snd length]. lia.
  - eapply spend_bind with (phi := fun _ => (2 * n + w)%nat); [eapply spend_le; [apply sp_dec_n|lia]|].
    intros [v|x|x|]; try (constructor; unfold after; cbn [snd recast]; lia).
    eapply spend_bind; [exact IH|]. intros [vs r]. constructor. unfold after. cbn [fst snd].
    destruct r; cbn [length]; lia.
Qed.

Lemma sp_seq w room samples :
  spend (after (fun vs : list V => 2 * (room - length vs) + w)%nat) (read_seq_p E t e room samples) (2 * room + w + 1).
Proof.
  unfold read_seq_p. cbv zeta. set (k := N.min (N.of_nat room) samples).
  assert (Hk : (N.to_nat k <= room)%nat) by lia.
  eapply spend_bind with (phi := after (fun vs : list V => 2 * (N.to_nat k - length vs) + (2 * (room - N.to_nat k) + w + 1))%nat).
  - eapply spend_le; [apply sp_vals|lia].
  - intros [vs r]. unfold after at 2. cbn [fst snd]. destruct r as [u|x|x|]; try (constructor; unfold after; cbn [snd recast]; lia).
    destruct (0 <? samples - k).
    + destruct (imul E (as_i64 (samples - k)) (as_i64 (size_bytes t))) as [off|x|x|];
        try (constructor; unfold after; cbn [snd recast]; lia).
      eapply spend_bind with (phi := fun _ => (2 * (room - length vs) + w)%nat); [eapply spend_le; [apply sp_move|lia]|].
      intros z. constructor. unfold after. cbn [fst snd]. destruct z; cbn [bind]; lia.
    + constructor. unfold after. cbn [fst snd]. lia.
Qed.

(** Values the entries still have room for. *)
Definition room_of (x : entry V) : nat := match en_plan x with PRead _ _ r _ => r | PSkip _ => 0%nat end.
Definition rooms (es : list (entry V)) : nat := fold_right (fun x n => (room_of x + n)%nat) 0%nat es.

Lemma sp_entry w x : spend (after (fun x' => 2 * room_of x' + w)%nat) (read_entry_p E t e x) (2 * room_of x + w + 2).
Proof.
  unfold read_entry_p, room_of at 2. destruct (en_plan x) as [b|oid got room skip] eqn:P.
  - destruct (imul E b (as_i64 (en_len x))) as [off|y|y|]; try (constructor; unfold after; cbn [snd recast]; lia).
    eapply spend_bind with (phi := fun _ => w); [eapply spend_le; [apply sp_move|lia]|].
    intros z. constructor. unfold after. cbn [fst snd]. unfold room_of. rewrite P. destruct z; cbn [bind]; lia.
  - cbv zeta. eapply spend_bind with (phi := fun _ => (2 * room + w + 1)%nat).
    + destruct (0 <? N.min skip (en_len x)); [|constructor; lia].
      destruct (imul E _ _); try (constructor; lia). eapply spend_le; [apply sp_move|lia].
    + intros [u|y|y|]; try (constructor; unfold after; cbn [snd recast]; lia).
      eapply spend_bind; [apply sp_seq|]. intros [vs r]. constructor. unfold after. cbn [fst snd].
      unfold room_of. cbn [en_plan]. destruct r; cbn [bind]; lia.
Qed.

Definition worth (c : nat) (es : list (entry V)) : nat := (2 * rooms es + c * length es)%nat.

Lemma sp_sub c w es : forall len,
  spend (after (fun es' => worth c es' + w)%nat) (read_sub_block_p E t e es len) (worth c es + w + 2 * length es).
Proof.
  revert w. induction es as [|x r IH]; intros w len; cbn [read_sub_block_p].
  - constructor. unfold after, worth. cbn [fst snd length rooms fold_right]. lia.
  - eapply spend_bind with (phi := after (fun x' => 2 * room_of x' + (worth c r + w + c + 2 * length r))%nat).
    + eapply spend_le; [apply sp_entry|]. unfold worth. cbn [rooms fold_right length]. fold (rooms r). lia.
    + intros [x' q]. unfold after at 2. cbn [fst snd]. destruct q as [l|y|y|]; try (constructor; unfold after; cbn [snd recast]; lia).
      eapply spend_bind with (phi := after (fun es' => worth c es' + (w + c + 2 * room_of x'))%nat).
      * eapply spend_le; [apply IH|]. lia.
      * intros [es' q]. constructor. unfold after. cbn [fst snd]. destruct q; try lia.
        unfold worth. cbn [rooms fold_right length]. fold (rooms es'). lia.
Qed.

Lemma sp_contig (step : N -> list (entry V) -> option (list (entry V))) :
  (forall idx es es', step idx es = Some es' -> rooms es' = rooms es /\ length es' = length es) ->
  forall n idx es len,
  spend (fun _ => 0%nat) (contig_loop_p E t e step n idx es len) (n * (2 * length es + 1) + 2 * rooms es).
Proof.
  intros Hs. induction n as [|n IH]; intros idx es len; cbn [contig_loop_p]; [apply sp_done|].
  destruct (step idx es) as [es1|] eqn:S1.
  - destruct (Hs _ _ _ S1) as [R1 L1].
    eapply spend_bind with (phi := after (fun es' => worth (2 * n) es' + n)%nat).
    + eapply spend_le; [apply sp_sub|]. unfold worth. rewrite R1, L1. lia.
    + intros [es2 q]. unfold after. cbn [fst snd]. destruct q; try apply sp_done.
      eapply spend_le; [apply IH|]. unfold worth. lia.
  - destruct (block_size E t es) as [bs|y|y|]; try apply sp_done.
    eapply spend_bind with (phi := fun _ => (n * (2 * length es + 1) + 2 * rooms es)%nat); [eapply spend_le; [apply sp_move|lia]|].
    intros [u|y|y|]; try apply sp_done. apply IH.
Qed.

Lemma set_skip_room s x : room_of (set_skip s x) = room_of x.
Proof. unfold set_skip, room_of. destruct (en_plan x) eqn:P; cbn [en_plan]; [now rewrite P|reflexivity]. Qed.
Lemma set_all_rooms s es : rooms (set_all_skips s es) = rooms es /\ length (set_all_skips s es) = length es.
Proof.
  induction es as [|x es [I1 I2]]; [split; reflexivity|]. unfold set_all_skips in *. cbn [map rooms fold_right length].
  fold (rooms (map (set_skip s) es)) (rooms es). now rewrite set_skip_room, I1, I2.
Qed.
Lemma zip_rooms es : forall ss, rooms (zip_skips ss es) = rooms es /\ length (zip_skips ss es) = length es.
Proof.
  induction es as [|x es IH]; intros ss; cbn [zip_skips]; [split; reflexivity|].
  destruct (en_plan x) eqn:P; [|destruct ss as [|s ss]; [split; reflexivity|]];
    (cbn [rooms fold_right length]; match goal with |- context [zip_skips ?a es] => destruct (IH a) as [I1 I2] end;
     fold (rooms es); match goal with |- context [fold_right ?g 0%nat (zip_skips ?a es)] => fold (rooms (zip_skips a es)) end;
     now rewrite ?set_skip_room, I1, I2).
Qed.

Lemma udiv_le a b c : udiv a b = Ok c -> c <= a.
Proof. unfold udiv. destruct (b =? 0) eqn:Z; [discriminate|]. intros H. injection H as <-. apply N.div_le_upper_bound; [lia|]. nia. Qed.

Lemma sp_open n p : spend (fun _ => n) (open_at_p p) (2 + n).
Proof. unfold open_at_p. cbn [Nat.add]. constructor. intros x. constructor. intros y. constructor. lia. Qed.

Lemma sp_from start blen es s :
  spend (fun _ => 0%nat) (contig_read_from_p E t e start blen es s) (2 + (N.to_nat blen * (2 * length es + 1) + 2 * rooms es)).
Proof.
  unfold contig_read_from_p. eapply spend_bind; [apply sp_open|]. intros x. cbv beta.
  destruct (_u <- x ;; _) as [[[tot q] rm]|y|y|] eqn:H; try apply sp_done.
  destruct x as [u|y|y|]; try discriminate. cbn [bind] in H.
  apply bind_ok in H. destruct H as [bs [_ H]]. apply bind_ok in H. destruct H as [tot' [Ht H]].
  destruct es as [|x es]; [discriminate|]. apply bind_ok in H. destruct H as [q' [_ H]]. injection H as <- _ _.
  eapply spend_le; [apply sp_contig|apply udiv_le in Ht; nia].
  intros idx es1 es2 Hs. destruct (idx <? q); [discriminate|].
  destruct (idx =? q); injection Hs as <-; apply set_all_rooms.
Qed.
Lemma sp_skips start blen es ss :
  spend (fun _ => 0%nat) (contig_read_skips_p E t e start blen es ss) (2 + (N.to_nat blen * (2 * length es + 1) + 2 * rooms es)).
Proof.
  unfold contig_read_skips_p. eapply spend_bind; [apply sp_open|]. intros x. cbv beta.
  destruct (_u <- x ;; _) as [[tot l]|y|y|] eqn:H; try apply sp_done.
  destruct x as [u|y|y|]; try discriminate. cbn [bind] in H.
  apply bind_ok in H. destruct H as [bs [_ H]]. apply bind_ok in H. destruct H as [tot' [Ht H]].
  destruct es as [|x es]; [discriminate|]. apply bind_ok in H. destruct H as [l' [_ H]]. injection H as <- _.
  eapply spend_le; [apply sp_contig|apply udiv_le in Ht; nia].
  intros idx es1 es2 Hs. destruct (forallb _ _); [|discriminate]. injection Hs as <-. apply zip_rooms.
Qed.

Lemma sp_row c w row es : forall any,
  spend (after (fun es' => c * length es' + w)%nat) (inter_row_p E t e row es any) (c * length es + w + 2 * length es).
Proof.
  revert w. induction es as [|x r IH]; intros w any; cbn [inter_row_p].
  - constructor. unfold after. cbn [fst snd length]. lia.
  - assert (Hr : forall any y, spend (after (fun es' => c * length es' + w)%nat)
      (pbind (inter_row_p E t e row r any) (fun z => Ret (y :: fst z, snd z))) (c * length r + (w + c) + 2 * length r)).
    { intros any' y. eapply spend_bind; [apply IH|]. intros [es' q]. constructor. unfold after. cbn [fst snd].
      destruct q; try lia. cbn [length]. lia. }
    destruct (en_plan x) as [b|oid got room skip].
    + eapply spend_bind with (phi := fun _ => (c * length r + (w + c) + 2 * length r)%nat);
        [eapply spend_le; [apply sp_move|cbn [length]; lia]|].
      intros [u|y|y|]; try (constructor; unfold after; cbn [snd recast]; lia). apply Hr.
    + eapply spend_bind with (phi := fun _ => (c * length r + (w + c) + 2 * length r)%nat);
        [eapply spend_le; [apply sp_dec_n|cbn [length]; lia]|].
      intros [v|y|y|]; try (constructor; unfold after; cbn [snd recast]; lia).
      destruct (skip <=? row); [destruct room|]; apply Hr.
Qed.
Lemma sp_rows : forall n row es read,
  spend (fun _ => 0%nat) (inter_rows_p E t e n row es read) (n * (2 * length es)).
Proof.
  induction n as [|n IH]; intros row es read; cbn [inter_rows_p]; [apply sp_done|].
  eapply spend_bind with (phi := after (fun es' => 2 * n * length es' + 0)%nat).
  - eapply spend_le; [apply sp_row|]. nia.
  - intros [es' q]. unfold after. cbn [fst snd]. destruct q as [[|]|y|y|]; try apply sp_done.
    eapply spend_le; [apply IH|]. nia.
Qed.
Lemma sp_inter start blen es :
  spend (fun _ => 0%nat) (inter_read_p E t e start blen es) (3 + N.to_nat blen * (2 * length es + 1)).
Proof.
  unfold inter_read_p. cbv zeta. eapply spend_bind with (phi := fun _ => S (N.to_nat blen * (2 * length es + 1))).
  { eapply spend_le; [apply sp_open|lia]. }
  intros x. destruct (_u <- x ;; _) as [[off tot]|y|y|] eqn:H; try apply sp_done.
  destruct x as [u|y|y|]; try discriminate. cbn [bind] in H.
  apply bind_ok in H. destruct H as [rs [_ H]]. apply bind_ok in H. destruct H as [tot' [Ht H]].
  assert (tot = tot').
  { destruct (0 <? min_or_0 (block_skips es)); [apply bind_ok in H; destruct H as [o [_ H]]|]; congruence. }
  subst tot'. clear H.
  eapply spend_bind with (phi := fun _ => (N.to_nat blen * (2 * length es + 1))%nat).
  - destruct off; [apply sp_move|constructor; lia].
  - intros [u'|y|y|]; try apply sp_done. eapply spend_le; [apply sp_rows|]. rewrite map_length. apply udiv_le in Ht. nia.
Qed.

Lemma set_plan_rooms p (es : list (entry V)) : forall i, (rooms (set_plan i p es) <= rooms es + match p with PRead _ _ r _ => r | PSkip _ => 0 end)%nat
  /\ length (set_plan i p es) = length es.
Proof.
  induction es as [|x es IH]; intros [|i]; cbn [set_plan rooms fold_right length]; try (split; [lia|reflexivity]).
  - fold (rooms es). split; [|reflexivity]. unfold room_of at 1. cbn [en_plan]. destruct p; lia.
  - destruct (IH i) as [I1 I2]. fold (rooms es) (rooms (set_plan i p es)). rewrite I2. split; [lia|reflexivity].
Qed.
Definition wanted (reqs : list req) : nat := fold_right (fun q n => (rq_room q + n)%nat) 0%nat reqs.
Lemma readable_rooms reqs : forall oid (es : list (entry V)),
  (rooms (set_readable oid reqs es) <= rooms es + wanted reqs)%nat /\ length (set_readable oid reqs es) = length es.
Proof.
  induction reqs as [|q reqs IH]; intros oid es; cbn [set_readable wanted fold_right]; [split; [lia|reflexivity]|].
  fold (wanted reqs). destruct (IH (S oid) (set_plan (rq_chan q) (PRead oid [] (rq_room q) 0) es)) as [I1 I2].
  destruct (set_plan_rooms (PRead oid [] (rq_room q) 0) es (rq_chan q)) as [J1 J2]. rewrite I2, J2. split; [lia|reflexivity].
Qed.
Lemma base_rooms chans : rooms (base_record chans) = 0%nat.
Proof. induction chans as [|c chans IH]; [reflexivity|]. cbn. exact IH. Qed.
Lemma plan_rooms chans reqs es : build_record_plan t chans reqs = Ok es ->
  (rooms es <= wanted reqs)%nat /\ length es = length chans.
Proof.
  unfold build_record_plan. intros H. apply bind_ok in H. destruct H as [u [_ H]]. injection H as <-.
  destruct (readable_rooms reqs 0 (base_record chans)) as [I1 I2]. rewrite base_rooms in I1. rewrite I2.
  split; [exact I1|]. unfold base_record. apply map_length.
Qed.
End Spend.

(** Operations on one block. *)
Definition block_cost (n : nat) (b : dblock) : nat := (3 + N.to_nat (b_len b) * (2 * length (b_chans b) + 1) + 2 * n)%nat.

Lemma sp_block E t b reqs : spend (fun _ => 0%nat) (block_read_p E t b reqs) (block_cost (wanted reqs) b).
Proof.
  unfold block_read_p, block_cost. destruct (build_record_plan t (b_chans b) reqs) as [es|y|y|] eqn:P; try apply sp_done.
  destruct (plan_rooms t _ _ _ P) as [R L].
  eapply spend_bind with (phi := fun _ => 0%nat); [|intros y; apply sp_done].
  destruct (b_layout b).
  - eapply spend_le; [apply sp_inter|]. rewrite L. lia.
  - eapply spend_le; [apply sp_from|]. rewrite L. lia.
Qed.
Lemma sp_block_skips E t b reqs : spend (fun _ => 0%nat) (block_read_skips_p E t b reqs) (block_cost (wanted reqs) b).
Proof.
  unfold block_read_skips_p, block_cost. cbv zeta.
  destruct (build_record_plan t (b_chans b) reqs) as [es|y|y|] eqn:P; try apply sp_done.
  destruct (plan_rooms t _ _ _ P) as [R L].
  eapply spend_bind with (phi := fun _ => 0%nat); [|intros y; apply sp_done].
  destruct (b_layout b).
  - eapply spend_le; [apply sp_inter|]. destruct (zip_rooms t es (map rq_skip reqs)) as [_ ->]. rewrite L. lia.
  - eapply spend_le; [apply sp_skips|]. rewrite L. lia.
Qed.

Lemma spend_more A (p : prog A) n m : spend (fun _ => 0%nat) p n -> spend (fun _ => m) p (n + m).
Proof. induction 1 as [a n L|o k n H IH]; [constructor; lia|]. cbn [Nat.add]. constructor. exact IH. Qed.

Definition sum_of {A} (g : A -> nat) (l : list A) : nat := fold_right (fun x n => (g x + n)%nat) 0%nat l.
(** Cost of the blocks of a plan. *)
Definition plan_cost (ix : index) (n : nat) (plan : list blockread) : nat :=
  sum_of (fun br => match get_data_block ix (br_block br) with Some b => block_cost n b | None => 0%nat end) plan.

Definition left_to_do (prs : list progress) : nat := sum_of (fun p => N.to_nat (pr_target p - pr_read p)) prs.
Lemma requests_wanted : forall plans prs, (wanted (block_requests plans prs) <= left_to_do prs)%nat.
Proof.
  induction plans as [|p plans IH]; intros [|pr prs]; cbn [block_requests]; try (unfold wanted; cbn; lia).
  specialize (IH prs). unfold left_to_do, wanted, sum_of in *. cbn [fold_right].
  destruct p as [[i s]|]; [destruct (complete pr)|]; cbn [fold_right rq_room]; lia.
Qed.
Lemma advance_left n : forall plans prs, (left_to_do (advance plans n prs) <= left_to_do prs)%nat.
Proof.
  induction plans as [|p plans IH]; intros [|pr prs]; cbn [advance]; try lia.
  specialize (IH prs). unfold left_to_do, sum_of in *. cbn [fold_right].
  destruct p; cbn [pr_target pr_read]; lia.
Qed.

Lemma sp_execute E t ix n : forall plan prs outs, (left_to_do prs <= n)%nat ->
  spend (fun _ => 0%nat) (execute_p E t ix plan prs outs) (plan_cost ix n plan).
Proof.
  induction plan as [|br plan IH]; intros prs outs L; cbn [execute_p]; [apply sp_done|].
  unfold plan_cost. cbn [sum_of fold_right]. fold (plan_cost ix n plan).
  change (fold_right _ 0%nat plan) with (plan_cost ix n plan).
  destruct (get_data_block ix (br_block br)) as [b|]; [|apply sp_done]. cbv zeta.
  pose proof (requests_wanted (br_chans br) prs) as W.
  eapply spend_bind with (phi := fun _ => plan_cost ix n plan).
  - eapply spend_le with (n := (block_cost (wanted (block_requests (br_chans br) prs)) b + plan_cost ix n plan)%nat).
    + apply spend_more. destruct (any_skip (br_chans br)); [apply sp_block_skips|apply sp_block].
    + unfold block_cost. lia.
  - intros [got r]. destruct r as [k|y|y|]; try apply sp_done.
    destruct (forallb complete _); [apply sp_done|]. apply IH. pose proof (advance_left k (br_chans br) prs). lia.
Qed.

(** The blocks of a plan are different blocks of the index. *)
Lemma sum_app {A} (g : A -> nat) l m : sum_of g (l ++ m) = (sum_of g l + sum_of g m)%nat.
Proof. unfold sum_of. induction l as [|x l IH]; cbn [app fold_right]; [reflexivity|]. rewrite IH. lia. Qed.
Lemma sum_drop {A} (g : A -> nat) : forall n l, (sum_of g (skipn n l) <= sum_of g l)%nat.
Proof.
  induction n as [|n IH]; intros [|x l]; cbn [skipn]; try lia. specialize (IH l). unfold sum_of in *. cbn [fold_right]. lia.
Qed.
Lemma sorted_sum {A} (g : A -> nat) (l : list A) : forall is k, StronglySorted lt is -> Forall (fun i => (k <= i)%nat) is ->
  (sum_of (fun i => match nth_error l i with Some b => g b | None => 0%nat end) is <= sum_of g (skipn k l))%nat.
Proof.
  induction is as [|i is IH]; intros k So F; [unfold sum_of; cbn [fold_right]; lia|].
  inversion So as [|y z So' Fi]; subst. inversion F as [|y z Hk F']; subst.
  assert (IHi : (sum_of (fun i => match nth_error l i with Some b => g b | None => 0%nat end) is <= sum_of g (skipn (S i) l))%nat).
  { apply IH; [exact So'|]. eapply Forall_impl; [|exact Fi]. cbv beta. lia. }
  unfold sum_of at 1. cbn [fold_right]. fold (sum_of (fun i => match nth_error l i with Some b => g b | None => 0%nat end) is).
  assert (Hd : (sum_of g (skipn i l) <= sum_of g (skipn k l))%nat).
  { replace i with (k + (i - k))%nat by lia. rewrite <- skipn_skipn. apply sum_drop. }
  assert (Hs : (match nth_error l i with Some b => g b | None => 0 end + sum_of g (skipn (S i) l) <= sum_of g (skipn i l))%nat).
  { clear. revert l. induction i as [|i IH]; intros [|x l]; cbn [nth_error skipn]; try (unfold sum_of; cbn [fold_right]; lia). apply IH. }
  lia.
Qed.
Lemma plan_cost_sum ix n plan : StronglySorted lt (map br_block plan) ->
  (plan_cost ix n plan <= sum_of (block_cost n) (ix_blocks ix))%nat.
Proof.
  intros So. pose proof (sorted_sum (block_cost n) (ix_blocks ix) _ 0 So) as H. cbn [skipn] in H.
  assert (Z : plan_cost ix n plan = sum_of (fun i => match nth_error (ix_blocks ix) i with Some b => block_cost n b | None => 0%nat end) (map br_block plan)).
  { unfold plan_cost, sum_of, get_data_block. clear. induction plan as [|br plan IH]; cbn [map fold_right]; [reflexivity|]. now rewrite IH. }
  rewrite Z. apply H. apply Forall_forall. intros i _. lia.
Qed.
