(** * Claim C112: any read of a file that has lost its end *)
From Coq Require Import Strings.String.
From Verif Require Import Base Lib DataTypes MetaData Maps DataBlock Index RawData ChannelReader TdmsFile
  SpecIndex SpecSession SpecRead SpecWrite SpecShort Parse_proofs Plan_proofs Cut_proofs Persist_proofs Short_proofs Vectors Thm_Open
  Thm_Index Thm_Read Thm_Multi Thm_Mixed Thm_Reach.
Close Scope string_scope.

(** Any channels of any type from any index: the same outcome (values, errors and panics alike), or
    the end of the file is reported and the buffers hold what the whole file gives up to some place of one block. *)
Theorem C112_same_or_end : forall E f x ix t chans start outs,
  let whole := mkTF ix (f ++ x) in
  let cut := mkTF ix f in
  read_channels_from E cut t chans start outs = read_channels_from E whole t chans start outs
  \/ (snd (read_channels_from E cut t chans start outs) = Err (EIo UnexpectedEof)
      /\ exists k, all_partly (after_blocks E (f ++ x) t ix chans start outs k)
                              (after_blocks E (f ++ x) t ix chans start outs (S k))
                              (fst (read_channels_from E cut t chans start outs))).
Proof.
  intros E f x ix t chans start outs. cbv zeta. unfold read_channels_from, ix_read_channels_from, after_blocks. cbn [tf_ix tf_bytes].
  destruct (bind _ _) as [plan|e|e|]; [|left; reflexivity|left; reflexivity|left; reflexivity].
  unfold execute_read_plan. destruct (execute_short E f x t ix plan _ _ (fits_start outs)) as [H|[H [k [_ P]]]]; [left; exact H|right].
  split; [exact H|]. exists k. exact P.
Qed.
(** [after_blocks] ends with what the read gives. *)
Theorem C112_after_all : forall E f t ix chans start outs, exists n, forall k, (n <= k)%nat ->
  after_blocks E f t ix chans start outs k = fst (read_channels_from E (mkTF ix f) t chans start outs).
Proof.
  intros E f t ix chans start outs. unfold read_channels_from, ix_read_channels_from, after_blocks. cbn [tf_ix tf_bytes].
  destruct (bind _ _) as [plan|e|e|]; [|exists 0%nat; reflexivity|exists 0%nat; reflexivity|exists 0%nat; reflexivity].
  exists (length plan). intros k L. now rewrite firstn_all2.
Qed.
(** Without the report of the end, the missing part was not needed. *)
Theorem C112_not_the_end : forall E f x ix t chans start outs outs' r,
  read_channels_from E (mkTF ix f) t chans start outs = (outs', r) -> r <> Err (EIo UnexpectedEof) ->
  read_channels_from E (mkTF ix (f ++ x)) t chans start outs = (outs', r).
Proof.
  intros E f x ix t chans start outs outs' r R Hr. destruct (C112_same_or_end E f x ix t chans start outs) as [H|[H _]].
  - now rewrite <- H.
  - rewrite R in H. contradiction.
Qed.
(** What the whole file gives, any beginning of it gives too or reports the end: nothing else can go wrong. *)
Theorem C112_prefix : forall E f ix t chans start outs n,
  let cut := mkTF ix (firstn n f) in
  read_channels_from E cut t chans start outs = read_channels_from E (mkTF ix f) t chans start outs
  \/ snd (read_channels_from E cut t chans start outs) = Err (EIo UnexpectedEof).
Proof.
  intros E f ix t chans start outs n. cbv zeta. pose proof (C112_same_or_end E (firstn n f) (skipn n f) ix t chans start outs) as H.
  cbv zeta in H. rewrite firstn_skipn in H. destruct H as [H|[H _]]; auto.
Qed.

(** One channel of any type: the buffer begins with the first of the values the whole file gives. *)
Theorem C112_one : forall E f x ix t p start out, exists vs rest,
  (length vs + length rest <= length out)%nat
  /\ fst (read_channel_from E (mkTF ix f) t p start out) = vs ++ skipn (length vs) out
  /\ fst (read_channel_from E (mkTF ix (f ++ x)) t p start out) = (vs ++ rest) ++ skipn (length vs + length rest) out
  /\ ((rest = [] /\ snd (read_channel_from E (mkTF ix f) t p start out) = snd (read_channel_from E (mkTF ix (f ++ x)) t p start out))
      \/ snd (read_channel_from E (mkTF ix f) t p start out) = Err (EIo UnexpectedEof)).
Proof.
  intros E f x ix t p start out. unfold read_channel_from. cbn [tf_ix tf_bytes].
  assert (N0 : forall r : res unit, exists vs rest : list (carrier t), (length vs + length rest <= length out)%nat
    /\ fst (out, r) = vs ++ skipn (length vs) out /\ fst (out, r) = (vs ++ rest) ++ skipn (length vs + length rest) out
    /\ ((rest = [] /\ snd (out, r) = snd (out, r)) \/ snd (out, r) = Err (EIo UnexpectedEof))).
  { intros r. exists [], []. cbn [length app fst snd plus skipn]. split; [lia|]. do 2 (split; [reflexivity|]). left; split; reflexivity. }
  destruct (get_positions ix p) as [ls|]; [|apply N0].
  destruct (read_plan [ls] [start]) as [plan|e|e|] eqn:Rp; cbn [recast]; [|apply N0|apply N0|apply N0].
  unfold execute_read_plan. cbn [map].
  assert (Sh : Forall (fun br => length (br_chans br) = 1%nat) plan).
  { unfold read_plan in Rp. apply plan_shape in Rp. eapply Forall_impl; [|exact Rp]. intros br [L _]. exact L. }
  destruct (execute_short_one E f x t ix plan (mkPr 0 (lenN out)) out Sh eq_refl ltac:(cbn [pr_read]; lia)) as (vs & rest & r1 & r2 & L & X1 & X2 & X3).
  cbn [pr_read] in *. rewrite X1, X2. cbn [hd fst snd]. exists vs, rest. rewrite lenN_app in L. unfold lenN in L. split; [lia|].
  unfold splice. cbn [N.to_nat firstn app plus]. rewrite app_length. do 2 (split; [reflexivity|]). exact X3.
Qed.

(** ** Cases *)
(** Two channels from a file whose last ten bytes are gone: one more value of the second channel was there. *)
Example C112_case :
  let chans := [ch "g" "b"; ch "g" "a"] in
  let outs := [[0; 0; 0; 0; 0; 0; 0]; [0; 0; 0; 0; 0; 0; 0]]%Z in
  mixed_file = reach_file ++ skipn 302 mixed_file
  /\ read_channels_from dbg (mkTF (tf_ix mixed_F) mixed_file) SI32 chans 0 outs
     = ([[101; 102; 103; 104; 105; 106; 107]; [1; 2; 3; 4; 5; 6; 7]]%Z, Ok tt)
  /\ read_channels_from dbg (mkTF (tf_ix mixed_F) (firstn 298 mixed_file)) SI32 chans 0 outs
     = ([[101; 102; 103; 104; 105; 0; 0]; [1; 2; 3; 4; 5; 6; 0]]%Z, Err (EIo UnexpectedEof))
  /\ map (after_blocks dbg mixed_file SI32 (tf_ix mixed_F) chans 0 outs) [1; 2]%nat
     = [[[101; 102; 103; 104; 0; 0; 0]; [1; 2; 3; 4; 0; 0; 0]]; [[101; 102; 103; 104; 105; 106; 107]; [1; 2; 3; 4; 5; 6; 7]]]%Z.
Proof. do 3 (split; [vm_compute; reflexivity|]). vm_compute. reflexivity. Qed.
Example C112_one_case :
  read_channel_from dbg (mkTF (tf_ix mixed_F) (firstn 298 mixed_file)) SI32 (ch "g" "a") 0 [0; 0; 0; 0; 0; 0; 0]%Z
  = ([1; 2; 3; 4; 5; 6; 0]%Z, Err (EIo UnexpectedEof))
  /\ read_channel_from dbg (mkTF (tf_ix mixed_F) mixed_file) SI32 (ch "g" "a") 0 [0; 0; 0; 0; 0; 0; 0]%Z
  = ([1; 2; 3; 4; 5; 6; 7]%Z, Ok tt).
Proof. split; vm_compute; reflexivity. Qed.
(** An error other than the end stays whatever is added to the file; a success too. *)
Example C112_not_the_end_case :
  read_channels_from dbg (mkTF (tf_ix mixed_F) reach_file) SF64 [ch "g" "a"] 0 [[0; 0]]
  = ([[0; 0]], Err (EDataTypeMismatch I32 DoubleFloat))
  /\ read_channels_from dbg (mkTF (tf_ix mixed_F) reach_file) SI32 [ch "g" "a"; ch "g" "b"] 0 [[0; 0; 0]; [0; 0; 0]]%Z
  = ([[1; 2; 3]; [101; 102; 103]]%Z, Ok tt).
Proof. split; vm_compute; reflexivity. Qed.

(** With several channels a place of a buffer can hold a value that is neither the one from before the
    read nor the one the whole file gives: the blocks of the whole file write over one another when their channels differ in length. *)
Definition over_seg (vs : list Z) : list byte :=
  fst (write_segment LittleE (mkToc false false false false false true)
         (Some [mkObj (ch "g" "a") [] (RIRaw (mkRaw I32 3 None)); mkObj (ch "g" "b") [] (RIRaw (mkRaw I32 1 None))])
         (Some (slice_block LittleE SI32 vs))).
Definition over_file : list byte := over_seg [1; 2; 3; 101]%Z ++ over_seg [4; 5; 6; 102]%Z.
Definition over_F : tfile := open_bytes dbg over_file.
Definition over_kept : nat := length over_file - 16.
Theorem C112_slots_refuted : exists f x F W chans outs outs1 outs2,
  tdms_new dbg f = Ok F /\ tdms_new dbg (f ++ x) = Ok W /\ tf_ix F = tf_ix W
  /\ read_channels_from dbg F SI32 chans 0 outs = (outs1, Err (EIo UnexpectedEof))
  /\ read_channels_from dbg W SI32 chans 0 outs = (outs2, Ok tt)
  /\ nth 1 (nth 0 outs1 []) 0%Z = 2%Z /\ nth 1 (nth 0 outs []) 0%Z = 0%Z /\ nth 1 (nth 0 outs2 []) 0%Z = 4%Z.
Proof.
  exists (firstn over_kept over_file), (skipn over_kept over_file), (open_bytes dbg (firstn over_kept over_file)), over_F,
    [ch "g" "a"; ch "g" "b"], [[0; 0; 0; 0]; [0; 0; 0; 0]]%Z, [[1; 2; 3; 0]; [101; 0; 0; 0]]%Z, [[1; 4; 5; 6]; [101; 102; 0; 0]]%Z.
  do 7 (split; [vm_compute; reflexivity|]). vm_compute; reflexivity.
Qed.
Print Assumptions C112_same_or_end.
Print Assumptions C112_after_all.
Print Assumptions C112_not_the_end.
Print Assumptions C112_prefix.
Print Assumptions C112_one.
Print Assumptions C112_slots_refuted.
