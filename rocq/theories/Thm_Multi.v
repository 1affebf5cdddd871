(** * Claim C30, continued: channels that do not disturb each other *)
From Coq Require Import Strings.String Sorting.Sorted.
From Verif Require Import Base Lib DataTypes MetaData Maps DataBlock Index RawData ChannelReader TdmsFile
  SpecIndex SpecSession SpecRead Block_proofs Request_proofs Plan_proofs Read_proofs Session_proofs Multi_proofs
  Thm_Index Thm_Read Vectors.
Close Scope string_scope.

(** The buffer [o] has room for all samples of [p] from [start] on. *)
Definition roomy_for (f : list byte) (t : sty) (H : list segment) (start : N) (p : str) (o : list (carrier t)) : Prop :=
  (length (samples_after f t H p) <= N.to_nat start + length o)%nat.

(** In every block that two of the channels share, the reads do not disturb each
    other: reading starts at 0 or the channels lie in the same blocks, and the
    block is interleaved, or the channels lie in the same blocks and have equal
    buffers, or both buffers are large enough. *)
Definition undisturbed (f : list byte) (t : sty) (H : list segment) (start : N)
           (p : str) (o : list (carrier t)) (q : str) (o' : list (carrier t)) : Prop :=
  forall l l' b, In l (locs_after H p) -> In l' (locs_after H q) -> l_block l = l_block l' ->
    nth_error (blocks_after H) (l_block l) = Some b ->
    (start = 0 \/ shape (locs_after H p) = shape (locs_after H q))
    /\ (b_layout b = Interleaved
        \/ (shape (locs_after H p) = shape (locs_after H q) /\ length o = length o')
        \/ (roomy_for f t H start p o /\ roomy_for f t H start q o')).

(** ** C30 Multi-channel reads agree with single-channel reads *)
(** This covers the three theorems about C30 in Thm_Read.v. *)
Theorem C30_undisturbed_partial : forall E H F t chans start outs,
  session E H F -> fixed t -> addressable E (tf_bytes F) ->
  Forall (mentioned (all_objs H)) chans -> Forall (stored (tf_bytes F) t H) chans ->
  NoDup chans -> length outs = length chans ->
  (forall p o q o', In (p, o) (combine chans outs) -> In (q, o') (combine chans outs) -> p <> q ->
     undisturbed (tf_bytes F) t H start p o q o') ->
  read_channels_from E F t chans start outs = (singly E F t chans start outs, Ok tt).
Proof.
  intros E H F t chans start outs Se Fx Ad M St ND Lo Un.
  destruct (C14_incremental E H F Se) as [_ [_ [_ [Hb [Gp _]]]]].
  apply (read_by_plan E H F t chans start outs); auto. intros plan Ps Sh Hn. rewrite Forall_forall in Sh.
  (* the channel behind an entry of the plan *)
  assert (Ent : forall br i c s, In br plan -> nth_error (br_chans br) i = Some (Some (c, s)) ->
     exists p o l, nth_error chans i = Some p /\ nth_error outs i = Some o /\ In l (locs_after H p)
       /\ l_block l = br_block br /\ In (br_block br, c, s) (needed (locs_after H p) start)).
  { intros br i c s Hbr Hi. destruct (Sh br Hbr) as [Ln _].
    assert (Hl : (i < length chans)%nat) by (rewrite <- Ln; apply nth_error_Some; congruence).
    destruct (nth_error chans i) as [p|] eqn:Pi; [|apply nth_error_None in Pi; lia].
    destruct (nth_error outs i) as [o|] eqn:Oi; [|apply nth_error_None in Oi; lia].
    pose proof (planned_in i plan br c s Hbr Hi) as X. rewrite (Hn _ _ Pi) in X.
    destruct (needed_in _ _ _ _ _ X) as [l [Hl1 [Lb _]]]. exists p, o, l. auto. }
  (* channels in the same blocks have the same entries *)
  assert (Mate : forall br i j c s p q, In br plan -> nth_error (br_chans br) i = Some (Some (c, s)) ->
     nth_error chans i = Some p -> nth_error chans j = Some q -> shape (locs_after H p) = shape (locs_after H q) ->
     exists c', nth_error (br_chans br) j = Some (Some (c', s))).
  { intros br i j c s p q Hbr Hi Pi Pj Shp.
    pose proof (planned_in i plan br c s Hbr Hi) as X. rewrite (Hn _ _ Pi) in X.
    destruct (needed_shape _ _ start _ _ _ Shp X) as [c' Y].
    rewrite <- (Hn _ _ Pj) in Y. apply in_planned in Y. destruct Y as [br' [Hbr' [Eb Hj]]].
    rewrite (sorted_blocks plan br br' Ps Hbr Hbr') by congruence. eauto. }
  assert (Meet : forall br i j b, In br plan -> i <> j -> in_br i br -> in_br j br -> nth_error (blocks_after H) (br_block br) = Some b ->
     exists p q o o', nth_error chans i = Some p /\ nth_error chans j = Some q /\ nth_error outs i = Some o /\ nth_error outs j = Some o'
       /\ (start = 0 \/ shape (locs_after H p) = shape (locs_after H q))
       /\ (b_layout b = Interleaved
        \/ (shape (locs_after H p) = shape (locs_after H q) /\ length o = length o')
        \/ (roomy_for (tf_bytes F) t H start p o /\ roomy_for (tf_bytes F) t H start q o'))).
  { intros br i j b Hbr Nij [[ci si] Hi] [[cj sj] Hj] Bb.
    destruct (Ent br i ci si Hbr Hi) as (p & o & l & Pi & Oi & Hl & Lb & _).
    destruct (Ent br j cj sj Hbr Hj) as (q & o' & l' & Pj & Oj & Hl' & Lb' & _).
    exists p, q, o, o'. do 4 (split; [assumption|]).
    assert (Npq : p <> q).
    { intros ->. apply Nij. apply (proj1 (NoDup_nth_error chans) ND); [apply nth_error_Some; congruence|congruence]. }
    apply (Un p o q o' (nth_error_In _ _ (combine_nth _ _ _ _ _ Pi Oi)) (nth_error_In _ _ (combine_nth _ _ _ _ _ Pj Oj)) Npq l l' b Hl Hl');
      congruence. }
  split.
  - intros br Hbr. destruct (Sh br Hbr) as [Ln [c0 [s0 Hc]]]. apply In_nth_error in Hc. destruct Hc as [i0 Hi0].
    exists s0. intros i c si Hi. destruct (Nat.eq_dec i i0) as [->|Ni]; [congruence|].
    destruct (Ent br i0 c0 s0 Hbr Hi0) as (p & o & l & Pi & _ & Hl & Lb & N1).
    destruct (Ent br i c si Hbr Hi) as (q & o' & l' & Pj & _ & _ & _ & N2).
    pose proof (locs_located H p) as Lo'. rewrite Forall_forall in Lo'. destruct (Lo' l Hl) as [b [_ [Bb _]]]. rewrite Lb in Bb.
    destruct (Meet br i i0 b Hbr Ni) as (p' & q' & _ & _ & Pi' & Pj' & _ & _ & [->|Shp] & _);
      [eexists; exact Hi|eexists; exact Hi0|exact Bb|..].
    + apply needed_0 in N1, N2. congruence.
    + destruct (Mate br i i0 c si p' q' Hbr Hi Pi' Pj' Shp) as [c' X]. congruence.
  - intros R. apply (fair_compat (tf_bytes F) t (tf_ix F) plan (length chans)); auto; [now rewrite map_length|].
    assert (Fits : forall i p o, nth_error chans i = Some p -> nth_error outs i = Some o -> roomy_for (tf_bytes F) t H start p o ->
       fits (tf_bytes F) t (tf_ix F) i plan (map (fun o => mkPr 0 (lenN o)) outs)).
    { intros i p o Pi Oi Rf pr Hpr. rewrite nth_error_map, Oi in Hpr. injection Hpr as <-. cbn [pr_read pr_target].
      rewrite (Hn _ _ Pi), Hb, needed_samples by apply locs_located. rewrite skipn_length.
      unfold roomy_for, samples_after in Rf. unfold lenN. lia. }
    intros br b i j Hbr Bb Lay Nij Ii Ij. rewrite Hb in Bb.
    destruct (Meet br i j b Hbr Nij Ii Ij Bb) as (p & q & o & o' & Pi & Pj & Oi & Oj & _ & [X|[[Shp Lq]|[R1 R2]]]).
    + congruence.
    + left. split.
      * intros br' Hbr'. split; intros [[c s] Hx].
        -- destruct (Mate br' i j c s p q Hbr' Hx Pi Pj Shp) as [c' Y]. eexists. exact Y.
        -- destruct (Mate br' j i c s q p Hbr' Hx Pj Pi (eq_sym Shp)) as [c' Y]. eexists. exact Y.
      * rewrite !nth_error_map, Oi, Oj. cbn [option_map]. unfold lenN. now rewrite Lq.
    + right. split; [exact (Fits i p o Pi Oi R1)|exact (Fits j q o' Pj Oj R2)].
Qed.

(** Two channels always written together, a third one in segments of its own and
    with another buffer, read from sample 2. *)
Definition groups_file : list byte :=
  seg_i32 LittleE false [ch "g" "a"; ch "g" "b"] 3 [1; 2; 3; 101; 102; 103]%Z
  ++ seg_i32 BigE false [ch "h" "c"] 4 [201; 202; 203; 204]%Z
  ++ seg_i32 LittleE false [ch "g" "b"; ch "g" "a"] 3 [104; 105; 106; 4; 5; 6]%Z
  ++ seg_i32 LittleE true [ch "h" "c"] 1 [205; 206]%Z.
Definition groups_F : tfile := open_bytes dbg groups_file.
Lemma session_locs_is E f F H p ls : tdms_new E f = Ok F -> session E H F -> mentioned (all_objs H) p ->
  get_positions (tf_ix F) p = Some ls -> locs_after H p = ls.
Proof.
  intros O Se M G. destruct (C14_incremental _ _ _ Se) as [_ [_ [_ [_ [Gp _]]]]]. rewrite (Gp _ M) in G. congruence.
Qed.
Example C30_undisturbed_case :
  let chans := [ch "g" "a"; ch "h" "c"; ch "g" "b"] in
  let outs := [[0; 0; 0]; [0; 0; 0; 0; 0; 0]; [0; 0; 0]]%Z in
  (exists H, session dbg H groups_F /\ Forall (mentioned (all_objs H)) chans
     /\ Forall (stored (tf_bytes groups_F) SI32 H) chans /\ NoDup chans
     /\ forall p o q o', In (p, o) (combine chans outs) -> In (q, o') (combine chans outs) -> p <> q ->
        undisturbed (tf_bytes groups_F) SI32 H 2 p o q o')
  /\ read_channels_from dbg groups_F SI32 chans 2 outs
     = ([[3; 4; 5]; [203; 204; 205; 206; 0; 0]; [103; 104; 105]]%Z, Ok tt).
Proof.
  cbv zeta. split; [|vm_compute; reflexivity].
  assert (O : tdms_new dbg groups_file = Ok groups_F) by (vm_compute; reflexivity).
  destruct (C14_open_is_session _ _ _ O) as [H [_ [Se _]]]. exists H. split; [exact Se|].
  assert (Ga : get_positions (tf_ix groups_F) (ch "g" "a") = Some [mkLoc 0 0 3; mkLoc 2 1 3]) by (vm_compute; reflexivity).
  assert (Gb : get_positions (tf_ix groups_F) (ch "g" "b") = Some [mkLoc 0 1 3; mkLoc 2 0 3]) by (vm_compute; reflexivity).
  assert (Gc : get_positions (tf_ix groups_F) (ch "h" "c") = Some [mkLoc 1 0 4; mkLoc 3 0 2]) by (vm_compute; reflexivity).
  destruct (session_stored dbg _ _ H SI32 _ _ O Se Ga) as [Ma Sa]; [vm_compute; reflexivity|].
  destruct (session_stored dbg _ _ H SI32 _ _ O Se Gb) as [Mb Sb]; [vm_compute; reflexivity|].
  destruct (session_stored dbg _ _ H SI32 _ _ O Se Gc) as [Mc Sc]; [vm_compute; reflexivity|].
  pose proof (session_locs_is _ _ _ _ _ _ O Se Ma Ga) as La.
  pose proof (session_locs_is _ _ _ _ _ _ O Se Mb Gb) as Lb.
  pose proof (session_locs_is _ _ _ _ _ _ O Se Mc Gc) as Lc.
  split; [repeat constructor; assumption|]. split; [repeat constructor; assumption|]. split.
  { repeat constructor; cbn [In]; intuition discriminate. }
  intros p o q o' Hp Hq Npq l l' b Hl Hl' Eb _. cbn [combine In] in Hp, Hq.
  destruct Hp as [Hp|[Hp|[Hp|[]]]], Hq as [Hq|[Hq|[Hq|[]]]]; injection Hp as <- <-; injection Hq as <- <-;
    try congruence; rewrite ?La, ?Lb, ?Lc in *; cbn [In] in Hl, Hl';
    repeat match goal with X : _ \/ _ |- _ => destruct X | X : False |- _ => destruct X end; subst; try discriminate Eb;
    (split; [right; reflexivity|right; left; split; reflexivity]).
Qed.

Print Assumptions C30_undisturbed_partial.
