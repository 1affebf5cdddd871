(** * Claim C34: reads never panic *)
From Coq Require Import Strings.String Sorting.Sorted.
From Verif Require Import Base Lib DataTypes MetaData Maps DataBlock Index RawData ChannelReader TdmsFile
  SpecIndex SpecSession SpecRead History_proofs Plan_proofs Read_proofs Session_proofs Safe_proofs
  Thm_Index Thm_Read Vectors.
Close Scope string_scope.

(** In memory a timestamp takes twice the size the index uses for it. *)
Definition slack (t : sty) : N := match t with STime => 2 | _ => 1 end.
(** Blocks no read of element type [t] can panic on: the sizes of a chunk and
    of a row are representable, with overflow checks also the size of the block
    times that of a row, and a contiguous block starts with a channel that has
    values. *)
Definition reads_safely (E : env) (t : sty) (b : dblock) : Prop :=
  (t = STime -> chunk_bytes (b_chans b) < 2 ^ 63)
  /\ lenN (b_chans b) < 2 ^ 59
  /\ (overflow_checks E = true -> b_len b * (slack t * (16 * lenN (b_chans b))) < 2 ^ 63)
  /\ (b_layout b = Contigious -> exists m ms, b_chans b = m :: ms /\ rm_n m <> 0).

Lemma slack_sizes t : t <> SStr ->
  forall d, supports t d = true -> 0 < dtype_size d /\ dtype_size d <= size_bytes t <= slack t * dtype_size d.
Proof. intros Nt d Hd. destruct t, d; cbn in Hd; try discriminate; try contradiction; cbn; lia. Qed.

(** The blocks that hold samples of channel [p] are such blocks. *)
Definition held_safely (E : env) (t : sty) (H : list segment) (p : str) : Prop :=
  forall l b, In l (locs_after H p) -> 0 < l_n l -> nth_error (blocks_after H) (l_block l) = Some b -> reads_safely E t b.

Section Execute.
Context (E : env) (f : list byte) (t : sty) (ix : index).
Hypothesis (Nt : t <> SStr).

(** The planned reads of a block are of its channels and skip less than it
    holds. *)
Definition safe_read (br : blockread) : Prop :=
  exists b, nth_error (ix_blocks ix) (br_block br) = Some b /\ block_safe E (slack t) b
    /\ forall i c s, nth_error (br_chans br) i = Some (Some (c, s)) ->
         exists m, nth_error (b_chans b) c = Some m /\ (0 < dtype_size (rm_type m) -> s <= b_len b).

Lemma execute_calm : forall plan prs outs, Forall safe_read plan -> calm (snd (execute E f t ix plan prs outs)).
Proof.
  induction plan as [|br plan IH]; intros prs outs Sf; cbn [execute]; [exact I|].
  inversion Sf as [|x l [b [Hb [Bs Hc]]] Sf']; subst x l. unfold get_data_block. rewrite Hb.
  set (reqs := block_requests (br_chans br) prs).
  assert (R : calm (snd (block_read E f t b reqs)) /\ calm (snd (block_read_skips E f t b reqs))).
  { apply (reads_calm E f t (slack t)); auto.
    - now apply slack_sizes.
    - destruct t; cbn; lia.
    - apply Forall_forall. intros q Hq. apply in_requests in Hq.
      destruct Hq as [i [c [s [pr [Hi [_ [_ ->]]]]]]]. cbn [rq_chan]. destruct (Hc i c s Hi) as [m [Hm _]]. congruence.
    - intros q Hq m Hm Su. apply in_requests in Hq.
      destruct Hq as [i [c [s [pr [Hi [_ [_ ->]]]]]]]. cbn [rq_chan rq_skip] in *.
      destruct (Hc i c s Hi) as [m' [Hm' X]]. apply X. replace m' with m by congruence.
      now apply (slack_sizes t Nt). }
  assert (C : calm (snd (if any_skip (br_chans br) then block_read_skips E f t b reqs else block_read E f t b reqs)))
    by (destruct (any_skip _); apply R).
  destruct (if any_skip (br_chans br) then _ else _) as [got r]. cbn [snd] in C.
  destruct r as [n| | |]; cbn in C; try contradiction; [|exact I].
  destruct (forallb complete _); [exact I|]. now apply IH.
Qed.
End Execute.

Lemma plan_safe E H F t chans start plan : session E H F -> t <> SStr ->
  Forall (held_safely E t H) chans ->
  Forall (fun br => length (br_chans br) = length chans /\ exists c s, In (Some (c, s)) (br_chans br)) plan ->
  (forall i p, nth_error chans i = Some p -> planned i plan = needed (locs_after H p) start) ->
  Forall (safe_read E t (tf_ix F)) plan.
Proof.
  intros Se Nt Rs Sh Hn. destruct (C14_incremental E H F Se) as [_ [_ [_ [Hb _]]]].
  rewrite Forall_forall in Sh, Rs. apply Forall_forall. intros br Hbr. destruct (Sh br Hbr) as [Ln [c0 [s0 Hc0]]].
  assert (Loc : forall i c s, nth_error (br_chans br) i = Some (Some (c, s)) ->
     exists b m, nth_error (blocks_after H) (br_block br) = Some b /\ nth_error (b_chans b) c = Some m
       /\ s < rm_n m * whole_chunks b /\ reads_safely E t b).
  { intros i c s Hi. assert (Li : (i < length chans)%nat) by (rewrite <- Ln; apply nth_error_Some; congruence).
    destruct (nth_error chans i) as [p|] eqn:Pi; [|apply nth_error_Some in Li; contradiction].
    pose proof (planned_in i plan br c s Hbr Hi) as X. rewrite (Hn _ _ Pi) in X.
    apply needed_in in X. destruct X as [l [Hl [L1 [L2 L3]]]].
    pose proof (locs_located H p) as Lc. rewrite Forall_forall in Lc. destruct (Lc l Hl) as [b [m [B1 [B2 B3]]]].
    exists b, m. rewrite <- L1, <- L2, <- B3. split; [exact B1|]. split; [exact B2|]. split; [exact L3|].
    apply (Rs p (nth_error_In _ _ Pi) l b Hl); [lia|exact B1]. }
  apply In_nth_error in Hc0. destruct Hc0 as [i0 Hi0]. destruct (Loc _ _ _ Hi0) as [b [m0 [Hbb [Hm0 [Hs0 Rb]]]]].
  assert (Hin : In b (ix_blocks (tf_ix F))) by (rewrite Hb; eapply nth_error_In; eauto).
  destruct (C20_true_addresses E H F Se) as [_ [_ C20]]. destruct (C20 b Hin) as [_ [_ [_ [_ [_ [_ [_ [Hlen [_ [_ Hc64]]]]]]]]]].
  destruct Rb as [R0 [R1 [R2 R3]]].
  assert (Wc : 0 < chunk_bytes (b_chans b) /\ chunk_bytes (b_chans b) * whole_chunks b <= b_len b).
  { unfold whole_chunks in *. destruct (chunk_bytes (b_chans b) =? 0) eqn:Q; [lia|]. split; [lia|].
    apply N.mul_div_le. lia. }
  assert (W1 : 0 < whole_chunks b) by nia. destruct Wc as [Wc1 Wc2].
  exists b. rewrite Hb. split; [exact Hbb|]. split.
  - unfold block_safe. split; [exact Wc1|]. split; [nia|]. split.
    { destruct t; cbn [slack]; try (specialize (R0 eq_refl)); lia. }
    split; [destruct t; cbn [slack]; lia|]. split; [exact R2|exact R3].
  - intros i c s Hi. destruct (Loc _ _ _ Hi) as [b' [m [Hb' [Hm [Hs _]]]]]. rewrite Hbb in Hb'. injection Hb' as <-.
    exists m. split; [exact Hm|]. intros Sz. pose proof (chunk_bytes_in m _ (nth_error_In _ _ Hm)) as In1. nia.
Qed.

(** Any channels (also unknown or repeated ones), any start, any buffers: the
    outcome is a value or an error. *)
Theorem C34_no_panic_partial : forall E H F t chans start outs,
  session E H F -> t <> SStr -> Forall (fun p => mentioned (all_objs H) p -> held_safely E t H p) chans ->
  calm (snd (read_channels_from E F t chans start outs)).
Proof.
  intros E H F t chans start outs Se Nt Rs. unfold read_channels_from, ix_read_channels_from.
  assert (L : lookup_positions (tf_ix F) chans = Ok (map (locs_after H) chans) /\ Forall (mentioned (all_objs H)) chans
    \/ exists p, lookup_positions (tf_ix F) chans = Err (EMissingObject p)).
  { clear Rs. destruct (C14_incremental E H F Se) as [_ [_ [_ [_ [Gp Gn]]]]].
    induction chans as [|p chans IH]; [left; split; [reflexivity|constructor]|]. cbn [lookup_positions].
    destruct (in_dec (list_eq_dec Byte.byte_eq_dec) p (map om_path (all_objs H))) as [M|M].
    - rewrite (Gp p M). destruct IH as [[-> Ms]|[q ->]].
      + left. split; [reflexivity|now constructor].
      + right. exists q. reflexivity.
    - right. exists p. now rewrite (Gn p M). }
  destruct L as [[-> M]|[p ->]]; [|exact I]. cbn [bind].
  destruct (plan_ok E H F Se chans start M) as [plan [-> [_ [Sh Hn]]]].
  apply execute_calm; [exact Nt|]. apply (plan_safe E H F t chans start plan Se Nt); auto.
  rewrite Forall_forall in *. auto.
Qed.
Theorem C34_no_panic_single_partial : forall E H F t p start out,
  session E H F -> t <> SStr -> (mentioned (all_objs H) p -> held_safely E t H p) ->
  calm (snd (read_channel_from E F t p start out)).
Proof.
  intros E H F t p start out Se Nt Rs.
  pose proof (C34_no_panic_partial E H F t [p] start [out] Se Nt (Forall_cons p Rs (Forall_nil _))) as C.
  unfold read_channels_from, ix_read_channels_from in C. unfold read_channel_from. cbn [lookup_positions] in C.
  destruct (get_positions (tf_ix F) p) as [l|]; [|exact I]. cbn [bind length repeat] in C.
  destruct (read_plan [l] [start]) as [plan| | |]; cbn in C; try contradiction; [|exact I].
  destruct (execute_read_plan E (tf_bytes F) t (tf_ix F) plan [out]) as [os r]. exact C.
Qed.
(** The blocks of a file with a truncated last segment satisfy it: the read
    fails with an error. *)
Example C34_case :
  let F := open_bytes dbg (firstn 250 pair_file) in
  (exists H, session dbg H F /\ forall p, held_safely dbg SI32 H p)
  /\ read_channel dbg F SI32 (ch "g" "a") [0; 0; 0; 0; 0; 0]%Z = ([1; 2; 3; 4; 5; 0]%Z, Err (EIo UnexpectedEof)).
Proof.
  cbn zeta. split; [|vm_compute; reflexivity].
  assert (O : tdms_new dbg (firstn 250 pair_file) = Ok (open_bytes dbg (firstn 250 pair_file))) by (vm_compute; reflexivity).
  destruct (C14_open_is_session _ _ _ O) as [H [_ [Se _]]]. exists H. split; [exact Se|].
  assert (Al : Forall (reads_safely dbg SI32) (blocks_after H));
    [|intros p l b _ _ Hn; exact (proj1 (Forall_forall _ _) Al b (nth_error_In _ _ Hn))].
  destruct (C14_incremental _ _ _ Se) as [_ [_ [_ [<- _]]]].
  replace (ix_blocks _) with [mkBlock 104 24 Contigious [mkRaw I32 3 None; mkRaw I32 3 None] LittleE;
                              mkBlock 232 24 Interleaved [mkRaw I32 3 None; mkRaw I32 3 None] LittleE]
    by (vm_compute; reflexivity).
  constructor; [|constructor; [|constructor]];
    (split; [discriminate|]; split; [reflexivity|]; split; [reflexivity|]); cbn [b_layout b_chans].
  - intros _. do 2 eexists. split; [reflexivity|discriminate].
  - discriminate.
Qed.

(** The full claim is false: a contiguous block whose first channel has no
    values divides by zero, in every build. *)
Definition zero_first : list byte :=
  seg_uneven 0 3 [1; 2; 3]%Z.
Theorem C34_zero_first_refuted : exists f F,
  tdms_new rel f = Ok F /\ read_channel rel F SI32 (ch "g" "y") [0]%Z = ([0]%Z, Panic PDivZero)
  /\ tdms_new dbg f = Ok F /\ read_channel dbg F SI32 (ch "g" "y") [0]%Z = ([0]%Z, Panic PDivZero).
Proof.
  exists zero_first, (open_bytes rel zero_first). vm_compute. repeat split; reflexivity.
Qed.
(** A segment that claims 2^63 bytes of data overflows a product, with overflow
    checks; without, the read ends with an error. *)
Definition huge_claim : list byte :=
  firstn 12 (seg_uneven (2 ^ 61) 1 []%Z)
  ++ le_bytes 8 (2 ^ 63 + 1000) ++ skipn 20 (seg_uneven (2 ^ 61) 1 []%Z).
Theorem C34_huge_refuted : exists f F,
  tdms_new dbg f = Ok F /\ read_channel dbg F SI32 (ch "g" "y") [0]%Z = ([0]%Z, Panic POverflow)
  /\ tdms_new rel f = Ok F /\ calm (snd (read_channel rel F SI32 (ch "g" "y") [0]%Z)).
Proof.
  exists huge_claim, (open_bytes dbg huge_claim). vm_compute. repeat split; reflexivity.
Qed.
(** Strings: the size of a string in memory times the number of values. *)
Definition string_claim : list byte :=
  fst (write_segment LittleE (mkToc false false false false false true)
     (Some [mkObj (ch "g" "s") [] (RIRaw (mkRaw TdmsString (2 ^ 63) None));
            mkObj (ch "g" "b") [] (RIRaw (mkRaw U8 1 None))]) (Some (mkWB 1 (bytes [7])))).
Theorem C34_string_refuted : exists f F,
  tdms_new dbg f = Ok F /\ read_channel dbg F SStr (ch "g" "s") [[]] = ([[]], Panic POverflow).
Proof.
  exists string_claim, (open_bytes dbg string_claim). vm_compute. repeat split; reflexivity.
Qed.

Print Assumptions C34_no_panic_partial.
Print Assumptions C34_no_panic_single_partial.
Print Assumptions C34_zero_first_refuted.
Print Assumptions C34_huge_refuted.
Print Assumptions C34_string_refuted.
