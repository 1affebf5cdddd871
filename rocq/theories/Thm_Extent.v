(** * Claim C97: reading a channel from blocks whose data are not whole chunks *)
From Coq Require Import Strings.String.
From Verif Require Import Base Lib DataTypes MetaData Maps DataBlock Index RawData ChannelReader TdmsFile
  SpecIndex SpecSession SpecRead SpecUneven SpecExtent Block_proofs Request_proofs Plan_proofs Read_proofs Session_proofs
  Uneven_proofs Extent_proofs Thm_Index Vectors Thm_Read Thm_Multi Thm_Uneven.
Close Scope string_scope.

Lemma ragged_planned E H F t p start plan :
  session E H F -> raggedly_stored (tf_bytes F) t H p ->
  Forall (fun br => length (br_chans br) = 1%nat /\ exists c s, In (Some (c, s)) (br_chans br)) plan ->
  planned 0 plan = needed (locs_after H p) start ->
  ragged_plan (tf_bytes F) t (tf_ix F) plan.
Proof.
  intros Se St Sh Hn. destruct (C14_incremental E H F Se) as [_ [_ [_ [Hb _]]]].
  apply Forall_forall. intros br Hbr. rewrite Forall_forall in Sh. destruct (Sh br Hbr) as [Ln [c [s Hc]]].
  destruct (br_chans br) as [|x [|]] eqn:Ec; try discriminate. destruct Hc as [->|[]].
  pose proof (planned_in 0 plan br c s Hbr ltac:(rewrite Ec; reflexivity)) as Pl. rewrite Hn in Pl.
  apply needed_in in Pl. destruct Pl as [l [Hl [Lb [Lc Lt]]]].
  unfold raggedly_stored in St. rewrite Forall_forall in St. destruct (St l Hl ltac:(lia)) as [b [m [B1 [W [M T]]]]].
  pose proof (locs_located H p) as Lo. rewrite Forall_forall in Lo. destruct (Lo l Hl) as [b' [m' [B2 [M2 L2]]]].
  rewrite B1 in B2. injection B2 as <-. rewrite M in M2. injection M2 as <-.
  exists b, c, s, m. rewrite Hb. rewrite <- Lb, <- Lc. split; [now rewrite Lc|]. do 3 (split; [assumption|]).
  split; [now apply stored_as_supports|lia].
Qed.

(** ** C97 The exact result of a single-channel read *)
Theorem C97_window : forall E H F t p start out,
  session E H F -> fixed t -> addressable E (tf_bytes F) ->
  mentioned (all_objs H) p -> raggedly_stored (tf_bytes F) t H p ->
  read_channel_from E F t p start out
  = (overlay out (firstn (length out) (obtained (tf_bytes F) t (blocks_after H) (locs_after H p) start)), Ok tt).
Proof.
  intros E H F t p start out Se Fx Ad M St. unfold read_channel_from.
  destruct (session_locs E H F p Se M) as [-> _].
  assert (Mf : Forall (mentioned (all_objs H)) [p]) by (repeat constructor; exact M).
  destruct (plan_ok E H F Se [p] start Mf) as [plan [Hp [Ps [Sh Hn]]]]. cbn [map length repeat] in Hp. rewrite Hp.
  specialize (Hn 0%nat p eq_refl). cbn [length] in Sh.
  destruct (C14_incremental E H F Se) as [_ [_ [_ [Hb _]]]].
  unfold execute_read_plan. cbn [map].
  pose proof (execute_ragged E (tf_bytes F) t (tf_ix F) Fx Ad out
    (obtained (tf_bytes F) t (blocks_after H) (locs_after H p) start) plan 0
    (ragged_planned E H F t p start plan Se St Sh Hn) (Nat.le_0_l _) (Nat.le_0_l _)) as X.
  change (N.of_nat 0) with 0 in X. cbn [firstn skipn] in X. unfold overlay at 1 in X. cbn [app length skipn] in X. rewrite X; [reflexivity|].
  rewrite Hn. unfold obtained. f_equal. apply map_ext. intros [[j i] s]. unfold tsamp, taken. rewrite Hb. reflexivity.
Qed.

(** Samples that a read from the start takes from all locations. *)
Fixpoint extents (bs : list dblock) (ls : list loc) : N :=
  match ls with
  | [] => 0
  | l :: ls => (if 0 <? l_n l then match nth_error bs (l_block l) with Some b => extent b (l_chan l) | None => 0 end else 0)
               + extents bs ls
  end.
Lemma obtained_0 f t bs ls : lenN (obtained f t bs ls 0) = extents bs ls.
Proof.
  unfold obtained. induction ls as [|l ls IH]; [reflexivity|]. cbn [needed extents].
  destruct (l_n l <=? 0) eqn:Q.
  - replace (0 <? l_n l) with false by lia. replace (0 - l_n l) with 0 by lia. rewrite IH. lia.
  - replace (0 <? l_n l) with true by lia. cbn [map concat]. unfold lenN in *. rewrite app_length, Nat2N.inj_add, IH. f_equal.
    destruct (nth_error bs (l_block l)) as [b|]; [|reflexivity]. rewrite passed_over_0. change (N.to_nat 0) with 0%nat. cbn [skipn].
    rewrite block_samples_length. apply N2Nat.id.
Qed.

(** The index counts no sample that a read does not take, and it counts all of
    them exactly if no interleaved block has rows beyond its whole chunks. *)
Definition no_rest (H : list segment) (p : str) : Prop :=
  forall l b, In l (locs_after H p) -> 0 < l_n l -> nth_error (blocks_after H) (l_block l) = Some b ->
    b_layout b = Interleaved -> rows b = l_n l.

Lemma extent_at H p f t l : raggedly_stored f t H p -> In l (locs_after H p) -> 0 < l_n l ->
  exists b m, nth_error (blocks_after H) (l_block l) = Some b /\ nth_error (b_chans b) (l_chan l) = Some m
    /\ l_n l = rm_n m * whole_chunks b /\ l_n l <= extent b (l_chan l)
    /\ (extent b (l_chan l) = l_n l <-> (b_layout b = Interleaved -> rows b = l_n l)).
Proof.
  intros St Hl Ps. unfold raggedly_stored in St. rewrite Forall_forall in St.
  destruct (St l Hl Ps) as [b [m [B1 [W [M T]]]]].
  pose proof (locs_located H p) as Lo. rewrite Forall_forall in Lo. destruct (Lo l Hl) as [b' [m' [B2 [M2 L2]]]].
  rewrite B1 in B2. injection B2 as <-. rewrite M in M2. injection M2 as <-.
  exists b, m. do 2 (split; [assumption|]). assert (L3 : l_n l = rm_n m * whole_chunks b) by lia. split; [exact L3|].
  unfold extent, ragged_block in *. rewrite M. destruct (b_layout b) eqn:Lay.
  - split; [lia|]. split; auto.
  - split; [lia|]. split; [discriminate|lia].
Qed.

Theorem C97_count : forall E H F t p,
  session E H F -> raggedly_stored (tf_bytes F) t H p ->
  let n := lenN (obtained (tf_bytes F) t (blocks_after H) (locs_after H p) 0) in
  length_after H p <= n /\ (n = length_after H p <-> no_rest H p).
Proof.
  intros E H F t p Se St. cbv zeta. rewrite obtained_0. unfold length_after. rewrite <- (locs_sum p H []). fold (locs_after H p).
  unfold no_rest.
  assert (G : forall ls, incl ls (locs_after H p) ->
     fold_right (fun l a => l_n l + a) 0 ls <= extents (blocks_after H) ls
     /\ (extents (blocks_after H) ls = fold_right (fun l a => l_n l + a) 0 ls <->
         (forall l b, In l ls -> 0 < l_n l -> nth_error (blocks_after H) (l_block l) = Some b -> b_layout b = Interleaved -> rows b = l_n l))).
  { induction ls as [|l ls IH]; intros Inc; cbn [extents fold_right].
    - split; [lia|]. split; [intros _ l b []|reflexivity].
    - destruct IH as [I1 I2]; [intros x Hx; apply Inc; now right|].
      destruct (0 <? l_n l) eqn:Q.
      + destruct (extent_at H p (tf_bytes F) t l St (Inc l (or_introl eq_refl)) ltac:(lia)) as [b [m [Hb [Hm [L3 [L4 L5]]]]]].
        rewrite Hb. split; [lia|]. split.
        * intros Eq l' b' [<-|Hl'] Ps Hb' Lay.
          -- rewrite Hb in Hb'. injection Hb' as <-. apply (proj1 L5); [lia|exact Lay].
          -- apply (proj1 I2 ltac:(lia) l' b'); auto.
        * intros A. assert (extent b (l_chan l) = l_n l).
          { apply (proj2 L5). intros Lay. apply (A l b); auto; [now left|lia]. }
          assert (extents (blocks_after H) ls = fold_right (fun l a => l_n l + a) 0 ls).
          { apply (proj2 I2). intros l' b' Hl'. apply A. now right. }
          lia.
      + split; [lia|]. assert (Z : l_n l = 0) by lia. rewrite Z, !N.add_0_l, I2. split.
        * intros A l' b' [<-|Hl'] Ps; [lia|]. now apply A.
        * intros A l' b' Hl'. apply A. now right. }
  apply (G (locs_after H p)). apply incl_refl.
Qed.

(** The claim C36 exactly: [channel_length] is the number of samples that a read
    from the start gives. *)
Theorem C97_length : forall E H F t p n,
  session E H F -> fixed t -> addressable E (tf_bytes F) ->
  mentioned (all_objs H) p -> raggedly_stored (tf_bytes F) t H p -> length_after H p < 2 ^ 64 ->
  channel_length E F p = Ok (Some n) ->
  exists vs, (forall out, read_channel E F t p out = (overlay out (firstn (length out) vs), Ok tt))
    /\ n <= lenN vs /\ (lenN vs = n <-> no_rest H p).
Proof.
  intros E H F t p n Se Fx Ad M St Lt L.
  destruct (C19_channel_length E H F p Se) as [C _]. rewrite (C Lt M) in L. injection L as <-.
  exists (obtained (tf_bytes F) t (blocks_after H) (locs_after H p) 0). split.
  - intros out. unfold read_channel. now apply (C97_window E H F).
  - exact (C97_count E H F t p Se St).
Qed.

(** All samples are those of the data, each at its place, from the start of each
    block: the samples of the index come first, the others follow them. *)
Theorem C97_rest : forall E H F t p j i b k,
  session E H F -> raggedly_stored (tf_bytes F) t H p ->
  nth_error (blocks_after H) j = Some b -> In (mkLoc j i k) (locs_after H p) -> 0 < k ->
  exists r, block_samples (tf_bytes F) t b i (extent b i) = block_samples (tf_bytes F) t b i k ++ r
    /\ lenN r = extent b i - k /\ (b_layout b = Contigious -> r = []).
Proof.
  intros E H F t p j i b k Se St Hb Hl Ps.
  destruct (extent_at H p (tf_bytes F) t _ St Hl Ps) as [b' [m [Hb' [Hm [L3 [L4 L5]]]]]]. cbn [l_block l_chan l_n] in *.
  rewrite Hb in Hb'. injection Hb' as <-.
  exists (skipn (N.to_nat k) (block_samples (tf_bytes F) t b i (extent b i))).
  assert (Fs : block_samples (tf_bytes F) t b i k = firstn (N.to_nat k) (block_samples (tf_bytes F) t b i (extent b i))).
  { unfold block_samples. replace (N.to_nat (extent b i)) with (N.to_nat k + (N.to_nat (extent b i) - N.to_nat k))%nat by lia.
    rewrite seq_app, map_app, firstn_app, map_length, seq_length, Nat.sub_diag. cbn [firstn]. rewrite app_nil_r.
    rewrite firstn_all2; [reflexivity|]. rewrite map_length, seq_length. lia. }
  split; [rewrite Fs; symmetry; apply firstn_skipn|]. split.
  - unfold lenN. rewrite skipn_length, block_samples_length. lia.
  - intros Lay. apply length_zero_iff_nil. rewrite skipn_length, block_samples_length.
    assert (extent b i = k) by (apply (proj2 L5); intros K; congruence). lia.
Qed.

(** A test for the hypothesis on concrete files. *)
Definition ragged_check (len : N) (b : dblock) (m : rawmeta) : bool :=
  match b_layout b with
  | Interleaved => forallb (fun m => 0 <? width (rm_type m)) (b_chans b) && (rm_n m * whole_chunks b <=? rows b)
                   && (b_start b + rows b * row_bytes (b_chans b) <=? len)
  | Contigious => loose_check len b
  end.
Lemma ragged_check_ok f b m : ragged_check (lenN f) b m = true -> ragged_block f b m.
Proof.
  unfold ragged_check, ragged_block. destruct (b_layout b); [|apply loose_check_ok].
  rewrite !andb_true_iff. intros [[H1 H2] H3]. split; [|split; now apply N.leb_le].
  apply Forall_forall. intros x Hx. rewrite forallb_forall in H1. apply N.ltb_lt. now apply H1.
Qed.

Lemma positions_mentioned E H F p ls : session E H F -> get_positions (tf_ix F) p = Some ls -> mentioned (all_objs H) p.
Proof.
  intros Se G. destruct (C14_incremental E H F Se) as [_ [_ [_ [_ [_ Gn]]]]].
  destruct (in_dec (list_eq_dec Byte.byte_eq_dec) p (map om_path (all_objs H))) as [|K]; [assumption|].
  rewrite (Gn p K) in G. discriminate.
Qed.

(** Interleaved, two rows in a chunk, data of three rows; then a whole segment. *)
Definition rest_file : list byte :=
  seg_i32 LittleE true [ch "g" "a"; ch "g" "b"] 2 [1; 101; 2; 102; 3; 103]%Z
  ++ seg_i32 LittleE true [ch "g" "a"; ch "g" "b"] 2 [4; 104; 5; 105]%Z.
Definition rest_F : tfile := open_bytes dbg rest_file.
Example C97_case :
  (exists H, session dbg H rest_F /\ fixed SI32 /\ addressable dbg (tf_bytes rest_F)
    /\ mentioned (all_objs H) (ch "g" "a") /\ raggedly_stored (tf_bytes rest_F) SI32 H (ch "g" "a")
    /\ ~ no_rest H (ch "g" "a") /\ length_after H (ch "g" "a") = 4
    /\ obtained (tf_bytes rest_F) SI32 (blocks_after H) (locs_after H (ch "g" "a")) 0 = [1; 2; 3; 4; 5]%Z
    /\ obtained (tf_bytes rest_F) SI32 (blocks_after H) (locs_after H (ch "g" "a")) 1 = [2; 3; 4; 5]%Z
    /\ obtained (tf_bytes rest_F) SI32 (blocks_after H) (locs_after H (ch "g" "a")) 2 = [4; 5]%Z)
  /\ channel_length dbg rest_F (ch "g" "a") = Ok (Some 4)
  /\ read_channel dbg rest_F SI32 (ch "g" "a") (repeat 0 6)%Z = ([1; 2; 3; 4; 5; 0]%Z, Ok tt)
  /\ read_channel_from dbg rest_F SI32 (ch "g" "a") 2 [0; 0; 0]%Z = ([4; 5; 0]%Z, Ok tt).
Proof.
  split; [|vm_compute; repeat split; reflexivity].
  assert (O : tdms_new dbg rest_file = Ok rest_F) by (vm_compute; reflexivity).
  destruct (C14_open_is_session _ _ _ O) as [H [_ [Se _]]]. exists H. split; [exact Se|].
  assert (G : get_positions (tf_ix rest_F) (ch "g" "a") = Some [mkLoc 0 0 2; mkLoc 1 0 2]) by (vm_compute; reflexivity).
  destruct (C14_incremental _ _ _ Se) as [_ [_ [_ [Hb _]]]].
  pose proof (positions_mentioned _ _ _ _ _ Se G) as M.
  pose proof (session_locs_is _ _ _ _ _ _ O Se M G) as Lo.
  assert (Hbs : exists b0 b1 m0 m1, blocks_after H = [b0; b1]
    /\ nth_error (b_chans b0) 0 = Some m0 /\ nth_error (b_chans b1) 0 = Some m1
    /\ rm_type m0 = I32 /\ rm_type m1 = I32 /\ ragged_check (lenN (tf_bytes rest_F)) b0 m0 = true
    /\ ragged_check (lenN (tf_bytes rest_F)) b1 m1 = true /\ b_layout b0 = Interleaved /\ rows b0 = 3).
  { rewrite <- Hb. do 4 eexists. vm_compute. repeat split; reflexivity. }
  split; [repeat split; discriminate|]. split; [vm_compute; repeat split; discriminate|]. split; [exact M|].
  split; [|split; [|split; [|]]].
  - destruct Hbs as [b0 [b1 [m0 [m1 [Eb [M0 [M1 [T0 [T1 [R0 [R1 _]]]]]]]]]]].
    unfold raggedly_stored. rewrite Lo, Eb. repeat constructor; intros _.
    + exists b0, m0. split; [reflexivity|]. split; [now apply ragged_check_ok|]. split; [exact M0|]. rewrite T0. now left.
    + exists b1, m1. split; [reflexivity|]. split; [now apply ragged_check_ok|]. split; [exact M1|]. rewrite T1. now left.
  - destruct Hbs as [b0 [b1 [m0 [m1 [Eb [_ [_ [_ [_ [_ [_ [Lay R3]]]]]]]]]]]].
    intros K. unfold no_rest in K. rewrite Lo, Eb in K.
    specialize (K (mkLoc 0 0 2) b0 (or_introl eq_refl) ltac:(reflexivity) eq_refl Lay). rewrite R3 in K. discriminate.
  - unfold length_after. rewrite <- (locs_sum _ H []). fold (locs_after H (ch "g" "a")). rewrite Lo. reflexivity.
  - rewrite Lo, <- Hb. split; [|split]; vm_compute; reflexivity.
Qed.

Print Assumptions C97_window.
Print Assumptions C97_count.
Print Assumptions C97_length.
Print Assumptions C97_rest.
