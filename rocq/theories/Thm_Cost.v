(** * Claims C62-C63: how many operations on the stream opening and reading take *)
From Coq Require Import Strings.String Sorting.Sorted.
From Verif Require Import Base Lib Utf8 DataTypes MetaData Maps DataBlock Index RawData ChannelReader TdmsFile
  ReaderIO SpecIndex SpecSession SpecRead SpecReadIO SpecCost Block_proofs Open_proofs Plan_proofs Read_proofs Session_proofs ReadIO_proofs Cost_proofs Spend_proofs
  Needs_proofs Vectors Thm_Open Thm_Index Thm_Read Thm_Reopen Thm_ReadIO.
Close Scope string_scope.
Local Notation a := (ch "g" "a").

(** ** C62 The cost of opening *)
(** On every device, with every buffer, in every state of the stream: opening any
    file - valid or not - issues a number of operations that depends only on its
    size, not on any count, length or offset written in it. *)
Theorem C62_opening : forall E D cap f s s' xs x, lenN f <= seek_max E ->
  run_prog E D cap f (build_index_p E (S (length f))) s = (s', xs, x) ->
  lenN xs <= opening_budget (lenN f).
Proof.
  intros E D cap f s s' xs x Fits R. destruct (build_index_pure E f Lost (index_ends E f)) as [w Pu].
  pose proof (run_ops _ E D cap f _ _ Fits (st_build E _) s Lost _ _ _ _ Logic.I Pu R) as L.
  pose proof (index_cost E f Lost) as C. unfold opening_budget. unfold allowance in C. unfold lenN at 1. lia.
Qed.
(** A file of two sessions, and one of 36 bytes that claims four thousand
    objects and a path of as many bytes. *)
Definition greedy : list byte := TDSm ++ le_bytes 4 14 ++ le_bytes 4 4713 ++ le_bytes 8 1000 ++ le_bytes 8 1000
  ++ le_bytes 4 4000 ++ le_bytes 4 4000.
Example C62_case : lenN C57_file <= seek_max dbg /\ lenN greedy <= seek_max rel
  /\ lenN C57_file = 385 /\ opening_budget (lenN C57_file) = 5419
  /\ lenN (snd (fst (run_prog dbg drip 8 C57_file (build_index_p dbg (S (length C57_file))) C57_used))) = 78
  /\ lenN greedy = 36 /\ lenN (snd (fst (run_prog rel drip 8 greedy (build_index_p rel (S (length greedy))) C57_used))) = 10.
Proof.
  repeat match goal with |- _ /\ _ => split end. all: vm_compute; try reflexivity; discriminate.
Qed.

(** ** C63 The cost of reading *)
Lemma total_sum {A} (g : A -> N) l : total_of g l = N.of_nat (sum_of (fun x => N.to_nat (g x)) l).
Proof.
  unfold total_of, sum_of. induction l as [|x l IH]; cbn [fold_right]; [reflexivity|]. rewrite IH. lia.
Qed.
Lemma sum_ext {A} (g h : A -> nat) l : (forall x, g x = h x) -> sum_of g l = sum_of h l.
Proof. intros H. unfold sum_of. induction l as [|x l IH]; cbn [fold_right]; [reflexivity|]. now rewrite H, IH. Qed.
Lemma budget_cost k b : N.to_nat (block_budget (N.of_nat k) b) = block_cost k b.
Proof. unfold block_budget, block_cost, lenN. nia. Qed.

Lemma start_left {A} (outs : list (list A)) : left_to_do (map (fun o => mkPr 0 (lenN o)) outs) = N.to_nat (total_of lenN outs).
Proof.
  unfold left_to_do, total_of, sum_of. induction outs as [|o outs IH]; cbn [map fold_right pr_target pr_read]; [reflexivity|].
  rewrite IH. lia.
Qed.

Lemma lookup_known E H F : session E H F -> forall chans ls, lookup_positions (tf_ix F) chans = Ok ls -> Forall (mentioned (all_objs H)) chans.
Proof.
  intros Se. destruct (C14_incremental _ _ _ Se) as [_ [_ [_ [_ [_ Gn]]]]].
  induction chans as [|c chans IH]; intros ls L; cbn [lookup_positions] in L; constructor.
  - destruct (in_dec (list_eq_dec Byte.byte_eq_dec) c (map om_path (all_objs H))) as [|Hn]; [assumption|].
    rewrite (Gn _ Hn) in L. discriminate.
  - destruct (get_positions (tf_ix F) c); [|discriminate]. apply bind_ok in L. destruct L as [ls' [L _]]. eauto.
Qed.

Lemma read_spend E H F t chans start outs : session E H F ->
  spend (fun _ => 0%nat) (read_channels_from_p E t (tf_ix F) chans start outs)
    (sum_of (block_cost (N.to_nat (total_of lenN outs))) (ix_blocks (tf_ix F))).
Proof.
  intros Se. unfold read_channels_from_p.
  destruct (locs <- lookup_positions (tf_ix F) chans ;; _) as [plan|y|y|] eqn:P; try apply sp_done.
  apply bind_ok in P. destruct P as [ls [L P]]. pose proof (lookup_known E H F Se chans ls L) as M.
  rewrite (lookup_ok E H F Se chans M) in L. injection L as <-.
  destruct (plan_ok E H F Se chans start M) as [plan' [P' [So _]]]. rewrite P in P'. injection P' as <-.
  unfold execute_read_plan_p. eapply spend_le; [apply sp_execute; rewrite start_left; reflexivity|].
  now apply plan_cost_sum.
Qed.

(** On every device and in every state of the stream, reading channels of any
    opened file issues at most the operations budgeted for its blocks.  The
    budget uses the lengths the segments declare; C63_small_file_refuted shows
    that the size of the file does not suffice. *)
Theorem C63_budget_partial : forall E H F t chans start outs D cap f s s' xs x, session E H F ->
  run_prog E D cap f (read_channels_from_p E t (tf_ix F) chans start outs) s = (s', xs, x) ->
  lenN xs <= total_of (block_budget (total_of lenN outs)) (ix_blocks (tf_ix F)).
Proof.
  intros E H F t chans start outs D cap f s s' xs x Se R.
  pose proof (spend_run _ E D cap f _ _ _ (read_spend E H F t chans start outs Se) _ _ _ _ R) as B. cbv beta in B.
  rewrite (total_sum (block_budget (total_of lenN outs))). change (lenN xs) with (N.of_nat (length xs)).
  rewrite (sum_ext _ (block_cost (N.to_nat (total_of lenN outs)))); [lia|].
  intros b. rewrite <- budget_cost. f_equal. f_equal. lia.
Qed.

Theorem C63_budget_single_partial : forall E H F t chan start out D cap f s s' xs x, session E H F ->
  run_prog E D cap f (read_channel_from_p E t (tf_ix F) chan start out) s = (s', xs, x) ->
  lenN xs <= total_of (block_budget (lenN out)) (ix_blocks (tf_ix F)).
Proof.
  intros E H F t chan start out D cap f s s' xs x Se R. unfold read_channel_from_p in R.
  destruct (get_positions (tf_ix F) chan) as [l|] eqn:G; [|cbn [run_prog] in R; injection R as _ <- _; apply N.le_0_l].
  destruct (read_plan [l] [start]) as [plan|y|y|] eqn:P; try (cbn [run_prog] in R; injection R as _ <- _; apply N.le_0_l).
  rewrite run_prog_bind in R. destruct (run_prog E D cap f (execute_read_plan_p E t (tf_ix F) plan [out]) s) as [[s1 xs1] y] eqn:R1.
  cbn [run_prog] in R. injection R as _ <- _. rewrite app_nil_r.
  assert (R2 : run_prog E D cap f (read_channels_from_p E t (tf_ix F) [chan] start [out]) s = (s1, xs1, y)).
  { unfold read_channels_from_p. cbn [lookup_positions]. rewrite G. cbn [bind length repeat]. rewrite P. exact R1. }
  pose proof (C63_budget_partial _ _ _ _ _ _ _ _ _ _ _ _ _ _ Se R2) as B.
  replace (total_of lenN [out]) with (lenN out) in B by (unfold total_of; cbn [fold_right]; lia). exact B.
Qed.

(** With blocks that lie in the file (what remains of the claim): a bound from the
    size of the file, the number of blocks, their widest record and the number of
    values asked for. *)
Theorem C63_in_file_partial : forall E H F t chans start outs D cap s s' xs x w, session E H F ->
  Forall (fun b => b_start b + b_len b <= lenN (tf_bytes F) /\ lenN (b_chans b) <= w) (ix_blocks (tf_ix F)) ->
  run_prog E D cap (tf_bytes F) (read_channels_from_p E t (tf_ix F) chans start outs) s = (s', xs, x) ->
  lenN xs <= lenN (ix_blocks (tf_ix F)) * (3 + lenN (tf_bytes F) * (2 * w + 1) + 2 * total_of lenN outs).
Proof.
  intros E H F t chans start outs D cap s s' xs x w Se Fa R.
  eapply N.le_trans; [exact (C63_budget_partial _ _ _ _ _ _ _ _ _ _ _ _ _ _ Se R)|].
  clear R. generalize (total_of lenN outs). intros k. induction (ix_blocks (tf_ix F)) as [|b bs IH]; [unfold total_of; cbn [fold_right]; lia|].
  inversion Fa as [|y l [B1 B2] Fa']; subst. specialize (IH Fa'). unfold total_of in *. cbn [fold_right].
  assert (Hb : block_budget k b <= 3 + lenN (tf_bytes F) * (2 * w + 1) + 2 * k) by (unfold block_budget; nia).
  assert (Hl : lenN (b :: bs) = 1 + lenN bs) by (unfold lenN; cbn [length]; lia). rewrite Hl. nia.
Qed.

Lemma plan_head l ls start : start < l_n l ->
  match read_plan [l :: ls] [start] with
  | Ok plan => exists r, plan = mkBR (l_block l) [Some (l_chan l, start)] :: r
  | _ => True
  end.
Proof.
  intros Hs. unfold read_plan. set (n := total_locs _). cbn [combine read_plan_loop min_block map plan_chan].
  rewrite Nat.eqb_refl. replace (l_n l <=? start) with false by lia. cbn [fst snd existsb orb].
  destruct (read_plan_loop n _) as [plan|y|y|]; cbn [bind]; try exact Logic.I. eexists. reflexivity.
Qed.

(** A read that succeeds has issued an operation for every sub-block (chunk) that
    its first block declares, however few values were asked for: the loop does
    not stop when the buffers are full. *)
Theorem C63_every_chunk : forall E D cap f ix t chan start out s s' xs o l ls b, fixed t ->
  get_positions ix chan = Some (l :: ls) -> start < l_n l -> get_data_block ix (l_block l) = Some b ->
  b_layout b = Contigious -> Forall (fun m => 0 < width (rm_type m)) (b_chans b) ->
  0 < sub_bytes (b_chans b) < 2 ^ 64 ->
  run_prog E D cap f (read_channel_from_p E t ix chan start out) s = (s', xs, (o, Ok tt)) ->
  b_len b / sub_bytes (b_chans b) <= lenN xs.
Proof.
  intros E D cap f ix t chan start out s s' xs o l ls b Fx G Hs Gb La W Sb R.
  unfold read_channel_from_p in R. rewrite G in R. pose proof (plan_head l ls start Hs) as Ph.
  destruct (read_plan [l :: ls] [start]) as [plan0|y|y|]; cbn [recast run_prog] in R; try discriminate R.
  destruct Ph as [plan ->]. unfold execute_read_plan_p in R. cbn [map] in R.
  assert (Nd : needs ok2 anything (N.to_nat (b_len b / sub_bytes (b_chans b)))
    (pbind (execute_p E t ix (mkBR (l_block l) [Some (l_chan l, start)] :: plan) [mkPr 0 (lenN out)] [out]) (fun y => Ret (hd out (fst y), snd y)))).
  { rewrite <- (Nat.add_0_r (N.to_nat _)). eapply needs_bind; [now apply needs_execute| |].
    - intros. apply needs_free.
    - intros [y r] k Qa. cbn [needs]. unfold ok2 in *. cbn [snd] in *. congruence. }
  pose proof (needs_run _ E D cap f _ _ _ _ _ _ _ _ Nd R eq_refl) as L. unfold lenN. lia.
Qed.

(** *** A file of 100 bytes *)
(** One segment that declares [n] chunks of one value, of which the first is
    there. *)
Definition hollow (n : N) : list byte :=
  fst (write_segment LittleE (mkToc false false false false false true)
         (Some [mkObj a [] (RIRaw (mkRaw I32 1 None))])
         (Some (mkWB (4 * n) (enc LittleE SI32 7%Z)))).

Section Hollow.
Context (E : env) (f : list byte).
Local Notation full := (mkEntry 1 (PRead 0 [7%Z] 0 0) : entry (carrier SI32)).

Lemma idle_sub pos : pos + 4 <= seek_max E -> read_sub_block E f SI32 LittleE [full] 0 pos = ([full], Ok (0, pos + 4)).
Proof.
  intros H. cbn [read_sub_block]. unfold read_entry. cbn [en_plan en_len]. cbv zeta.
  change (N.min 0 1) with 0. change (0 <? 0) with false. cbv iota. unfold read_seq. cbv zeta.
  change (N.of_nat 0) with 0. change (N.min 0 (1 - 0)) with 0. change (N.to_nat 0) with 0%nat. cbn [read_vals bind].
  change (0 <? 1 - 0 - 0) with true. cbv iota. change (imul E (as_i64 (1 - 0 - 0)) (as_i64 (size_bytes SI32))) with (Ok 4%Z).
  cbn [bind]. unfold seek_rel. replace (Z.of_N pos + 4 <? 0)%Z with false by lia.
  replace (Z.to_N (Z.of_N pos + 4)) with (pos + 4) by lia. replace (pos + 4 <=? seek_max E) with true by lia. reflexivity.
Qed.
Lemma idle_loop step : (forall idx, step idx [full] = Some [full]) -> forall n idx len pos,
  pos + 4 * N.of_nat n <= seek_max E -> contig_loop E f SI32 LittleE step n idx [full] len pos = ([full], Ok len).
Proof.
  intros Hs. induction n as [|n IH]; intros idx len pos H; cbn [contig_loop]; [reflexivity|]. rewrite Hs.
  rewrite idle_sub by lia. rewrite IH by lia. f_equal. f_equal. lia.
Qed.
Lemma hollow_read start n : 0 < n -> start + 4 * n <= seek_max E -> seek_max E < 2 ^ 64 ->
  read_at E f SI32 LittleE start = Ok (7%Z, start + 4) ->
  contig_read_from E f SI32 LittleE start (4 * n) [mkEntry 1 (PRead 0 [] 1 0)] 0 = ([full], Ok 1).
Proof.
  intros Hn Hl Hm Hr. unfold contig_read_from, seek_to. replace (start <=? seek_max E) with true by lia. cbn [bind].
  change (block_size E SI32 [mkEntry 1 (PRead 0 [] 1 0)]) with (Ok 4). cbn [bind]. unfold udiv at 1. change (4 =? 0) with false. cbn [bind en_len].
  change (udiv 0 1) with (Ok 0). cbn [bind]. replace (4 * n / 4) with n by (symmetry; rewrite N.mul_comm; apply N.div_mul; lia).
  change (0 mod 1) with 0. set (step := fun (idx : N) (es : list (entry (carrier SI32))) => _).
  assert (Hs : forall idx es, step idx es = Some (set_all_skips 0 es)).
  { intros idx es. unfold step. replace (idx <? 0) with false by lia. now destruct (idx =? 0). }
  replace (N.to_nat n) with (S (N.to_nat (n - 1))) by lia. cbn [contig_loop]. rewrite Hs.
  assert (Hf : read_sub_block E f SI32 LittleE (set_all_skips 0 [mkEntry 1 (PRead 0 [] 1 0)]) 0 start = ([full], Ok (1, start + 4))).
  { cbn [set_all_skips map set_skip en_plan en_len read_sub_block]. unfold read_entry. cbn [en_plan en_len]. cbv zeta.
    change (N.min 0 1) with 0. change (0 <? 0) with false. cbv iota. unfold read_seq. cbv zeta.
    change (N.to_nat (N.min (N.of_nat 1) (1 - 0))) with 1%nat. cbn [read_vals]. rewrite Hr. cbn [bind]. reflexivity. }
  rewrite Hf. rewrite idle_loop; [reflexivity| |lia]. intros idx. apply Hs.
Qed.
End Hollow.

Lemma hollow_reads E f n ix bst : 0 < n ->
  get_positions ix a = Some [mkLoc 0 0 n] ->
  get_data_block ix 0 = Some (mkBlock bst (4 * n) Contigious [mkRaw I32 1 None] LittleE) ->
  bst + 4 * n <= seek_max E -> seek_max E < 2 ^ 64 -> read_at E f SI32 LittleE bst = Ok (7%Z, bst + 4) ->
  read_channel_from E (mkTF ix f) SI32 a 0 [0]%Z = ([7]%Z, Ok tt).
Proof.
  intros Hn G Gb Hl Hm Hr. unfold read_channel_from. cbn [tf_ix tf_bytes]. rewrite G.
  assert (P : read_plan [[mkLoc 0 0 n]] [0] = Ok [mkBR 0 [Some (0%nat, 0)]]).
  { unfold read_plan. cbn [combine total_locs fold_right fst length Nat.add read_plan_loop min_block map plan_chan l_block Nat.eqb l_n l_chan].
    replace (n <=? 0) with false by lia. reflexivity. }
  rewrite P. unfold execute_read_plan. cbn [map execute br_block]. rewrite Gb. cbn [br_chans any_skip existsb orb].
  change (0 <? 0) with false. cbv iota. unfold block_read. cbn [b_chans b_layout b_order b_start b_len].
  set (reqs := block_requests _ _). change (build_record_plan SI32 [mkRaw I32 1 None] reqs) with (Ok [mkEntry 1 (PRead 0 ([] : list Z) 1 0)]).
  cbv iota. cbn [carrier]. pose proof (hollow_read E f bst n Hn Hl Hm Hr) as Hh. cbn [carrier] in Hh. rewrite Hh. reflexivity.
Qed.

(** A file of 72 bytes, whose segment declares 2^50 chunks of four bytes, is
    opened; reading its one value succeeds after more than 10^15 operations on
    the stream. *)
Definition hollow_file : list byte := hollow (2 ^ 50).
Definition hollow_F : tfile := open_bytes dbg hollow_file.
Lemma hollow_opens : tdms_new dbg hollow_file = Ok hollow_F.
Proof. vm_compute. reflexivity. Qed.
Theorem C63_small_file_refuted : exists f F p, tdms_new dbg f = Ok F /\ lenN f <= 100
  /\ forall D cap s s' xs x, reliable_reader D ->
     run_prog dbg D cap f (read_channel_from_p dbg SI32 (tf_ix F) p 0 [0]%Z) s = (s', xs, x) ->
     x = ([7]%Z, Ok tt) /\ 10 ^ 15 <= lenN xs.
Proof.
  exists hollow_file, hollow_F, a. split; [exact hollow_opens|]. split; [vm_compute; discriminate|].
  assert (G : get_positions (tf_ix hollow_F) a = Some [mkLoc 0 0 (2 ^ 50)]) by (vm_compute; reflexivity).
  assert (Gb : get_data_block (tf_ix hollow_F) 0 = Some (mkBlock 68 (4 * 2 ^ 50) Contigious [mkRaw I32 1 None] LittleE))
    by (vm_compute; reflexivity).
  assert (Hr : read_at dbg hollow_file SI32 LittleE 68 = Ok (7%Z, 68 + 4)) by (vm_compute; reflexivity).
  assert (Fits : lenN hollow_file <= seek_max dbg) by (vm_compute; discriminate).
  intros D cap s s' xs x Re R.
  assert (X : x = ([7]%Z, Ok tt)).
  { rewrite (C57_read_channel _ _ _ _ _ _ _ _ _ _ _ _ _ Re Fits R).
    apply (hollow_reads dbg hollow_file (2 ^ 50) (tf_ix hollow_F) 68); auto; vm_compute; congruence. }
  split; [exact X|]. subst x.
  pose proof (C63_every_chunk dbg D cap hollow_file (tf_ix hollow_F) SI32 a 0 [0]%Z s s' xs [7]%Z _ _ _
    ltac:(repeat split; discriminate) G ltac:(vm_compute; reflexivity) Gb eq_refl) as L.
  eapply N.le_trans; [|apply L; [|vm_compute; split; reflexivity|exact R]].
  - vm_compute. discriminate.
  - constructor; [vm_compute; reflexivity|constructor].
Qed.

(** Three chunks of two values of two channels: reading one value, reading six. *)
Definition cost_file : list byte :=
  seg_i32 LittleE false [ch "g" "c"; a] 2 [201; 202; 4; 5; 203; 204; 6; 7; 205; 206; 8; 9]%Z.
Definition cost_F : tfile := open_bytes dbg cost_file.
Definition cost_one (out : list Z) :=
  run_prog dbg drip 8 cost_file (read_channel_from_p dbg SI32 (tf_ix cost_F) a 1 out) C57_used.
Definition cost_many (out : list Z) :=
  run_prog dbg drip 8 cost_file (read_channels_from_p dbg SI32 (tf_ix cost_F) [a] 1 [out]) C57_used.
Example C63_case :
  (exists H, session dbg H cost_F)
  /\ Forall (fun b => b_start b + b_len b <= lenN (tf_bytes cost_F) /\ lenN (b_chans b) <= 2) (ix_blocks (tf_ix cost_F))
  /\ snd (cost_one [0]%Z) = ([5]%Z, Ok tt) /\ lenN (snd (fst (cost_one [0]%Z))) = 9
  /\ snd (cost_many [0;0;0;0;0]%Z) = ([[5;6;7;8;9]]%Z, Ok tt) /\ lenN (snd (fst (cost_many [0;0;0;0;0]%Z))) = 11
  /\ total_of (block_budget 5) (ix_blocks (tf_ix cost_F)) = 253
  /\ get_positions (tf_ix cost_F) a = Some [mkLoc 0 1 6]
  /\ map (fun b => (b_layout b, b_len b / sub_bytes (b_chans b))) (ix_blocks (tf_ix cost_F)) = [(Contigious, 3)].
Proof.
  split; [|split]. 
  { assert (O : tdms_new dbg cost_file = Ok cost_F) by (vm_compute; reflexivity).
    destruct (C14_open_is_session _ _ _ O) as [H [_ [Se _]]]. exists H. exact Se. }
  { vm_compute. constructor; [split; discriminate|constructor]. }
  repeat match goal with |- _ /\ _ => split end; vm_compute; reflexivity.
Qed.

Print Assumptions C62_opening.
Print Assumptions C63_budget_partial.
Print Assumptions C63_budget_single_partial.
Print Assumptions C63_in_file_partial.
Print Assumptions C63_every_chunk.
Print Assumptions C63_small_file_refuted.
