(** * Claims C65 and C66: what reads of several channels deliver exactly *)
From Coq Require Import Strings.String Sorting.Sorted Permutation.
From Verif Require Import Base Lib DataTypes MetaData Maps DataBlock Index RawData ChannelReader TdmsFile
  SpecIndex SpecSession SpecRead SpecMulti Block_proofs Request_proofs Plan_proofs Read_proofs Session_proofs
  Serve_proofs Deliver_proofs Thm_Index Thm_Read Thm_Multi Vectors.
Close Scope string_scope.

(** The channels before the read: what each needs from [start] on, nothing
    counted, its buffer. *)
Definition before_read (H : list segment) (t : sty) (chans : list str) (start : N) (outs : list (list (carrier t)))
  : list (taker t) :=
  map (fun po => mkTaker t (needed (locs_after H (fst po)) start) 0 (snd po)) (combine chans outs).

(** ** C65 What a read of several channels delivers *)
Theorem C65_exact : forall E H F t chans start outs,
  session E H F -> fixed t -> addressable E (tf_bytes F) ->
  Forall (mentioned (all_objs H)) chans -> Forall (stored (tf_bytes F) t H) chans ->
  NoDup chans -> length outs = length chans ->
  read_channels_from E F t chans start outs
  = (map (tk_buf t) (served (tf_bytes F) t (blocks_after H) (before_read H t chans start outs)), Ok tt).
Proof. intros. now apply read_exact. Qed.

(** Whatever is misaligned, no buffer receives values of another channel. *)
Theorem C65_own_samples : forall E H F t chans start outs,
  session E H F -> fixed t -> addressable E (tf_bytes F) ->
  Forall (mentioned (all_objs H)) chans -> Forall (stored (tf_bytes F) t H) chans ->
  NoDup chans -> length outs = length chans ->
  exists outs', read_channels_from E F t chans start outs = (outs', Ok tt)
    /\ length outs' = length chans
    /\ forall i p o o', nth_error chans i = Some p -> nth_error outs i = Some o -> nth_error outs' i = Some o' ->
         length o' = length o
         /\ forall a x, nth_error o' a = Some x -> nth_error o a = Some x \/ In x (samples_after (tf_bytes F) t H p).
Proof.
  intros E H F t chans start outs Se Fx Ad M St ND Lo. eexists. split; [eapply C65_exact; eassumption|].
  assert (Own : forall i p o, nth_error chans i = Some p -> nth_error outs i = Some o ->
    exists k', nth_error (served (tf_bytes F) t (blocks_after H) (before_read H t chans start outs)) i = Some k'
      /\ filled_from t o (samples_after (tf_bytes F) t H p) (tk_buf t k')).
  { intros i p o Pi Oi.
    apply (served_own (tf_bytes F) t (blocks_after H) (before_read H t chans start outs) i (mkTaker t (needed (locs_after H p) start) 0 o)).
    - unfold before_read. rewrite nth_error_map, (combine_nth _ _ _ _ _ Pi Oi). reflexivity.
    - cbn [tk_needs]. intros j c s b x Hin Hb Hx. apply needed_in in Hin. destruct Hin as [l [Hl [Lb [Lc _]]]].
      rewrite Forall_forall in St. specialize (St p (nth_error_In _ _ Pi)). unfold stored in St.
      rewrite Forall_forall in St. destruct (St l Hl) as [b1 [m [Hb1 [Hw [Hm _]]]]].
      pose proof (locs_located H p) as Ll. rewrite Forall_forall in Ll. destruct (Ll l Hl) as [b' [m' [Hb2 [Hm2 Hl2]]]].
      rewrite Lb, Hb in Hb1, Hb2. injection Hb1 as <-. injection Hb2 as <-. rewrite Hm in Hm2. injection Hm2 as <-.
      destruct Hw as [n [ck [_ [_ [_ [Fu _]]]]]]. rewrite Forall_forall in Fu.
      assert (Pb : per_block b = l_n l).
      { unfold per_block, per_chunk. rewrite Hl2, (proj1 (Fu m (nth_error_In _ _ Hm))).
        destruct (b_chans b) as [|m0 ms]; [now destruct (l_chan l)|]. rewrite (proj1 (Fu m0 (or_introl eq_refl))). lia. }
      unfold samples_after, samples_at. apply in_concat. exists (loc_samples (tf_bytes F) t (blocks_after H) l).
      split; [now apply in_map|]. unfold loc_samples. rewrite Lb, Hb, Lc, <- Pb. exact Hx. }
  assert (Ls : forall js ks, length (fold_left (fun ks j => serve (tf_bytes F) t (blocks_after H) j ks) js ks) = length ks).
  { induction js as [|j js IH]; intros ks; [reflexivity|]. cbn [fold_left]. rewrite IH. unfold serve.
    destruct (nth_error _ j); [now rewrite map_length|reflexivity]. }
  split.
  - rewrite map_length. unfold served. rewrite Ls. unfold before_read. rewrite map_length, combine_length. lia.
  - intros i p o o' Pi Oi Ri. destruct (Own i p o Pi Oi) as [k' [Ki Fi]]. rewrite nth_error_map, Ki in Ri.
    injection Ri as <-. exact Fi.
Qed.

(** A file for which the claim of C30 fails: the theorem applies to it, and the
    specification gives what the read returns. *)
Definition offset_F : tfile := open_bytes dbg (offset_file true).
Example C65_case :
  let chans := [ch "g" "a"; ch "g" "b"] in
  let outs := [[0; 0; 0; 0]; [0; 0; 0; 0]]%Z in
  (exists H, session dbg H offset_F /\ addressable dbg (tf_bytes offset_F)
     /\ Forall (mentioned (all_objs H)) chans /\ Forall (stored (tf_bytes offset_F) SI32 H) chans
     /\ NoDup chans
     /\ map (tk_buf SI32) (served (tf_bytes offset_F) SI32 (blocks_after H) (before_read H SI32 chans 2 outs))
        = [[4; 0; 5; 6]; [102; 103; 104; 105]]%Z)
  /\ read_channels_from dbg offset_F SI32 chans 2 outs = ([[4; 0; 5; 6]; [102; 103; 104; 105]]%Z, Ok tt).
Proof.
  cbv zeta. split; [|vm_compute; reflexivity].
  assert (O : tdms_new dbg (offset_file true) = Ok offset_F) by (vm_compute; reflexivity).
  destruct (C14_open_is_session _ _ _ O) as [H [_ [Se _]]]. exists H. split; [exact Se|].
  split; [split; vm_compute; congruence|].
  assert (Ga : get_positions (tf_ix offset_F) (ch "g" "a") = Some [mkLoc 0 0 1; mkLoc 1 1 3; mkLoc 2 1 3]) by (vm_compute; reflexivity).
  assert (Gb : get_positions (tf_ix offset_F) (ch "g" "b") = Some [mkLoc 1 0 3; mkLoc 2 0 3]) by (vm_compute; reflexivity).
  destruct (session_stored dbg _ _ H SI32 _ _ O Se Ga) as [Ma Sa]; [vm_compute; reflexivity|].
  destruct (session_stored dbg _ _ H SI32 _ _ O Se Gb) as [Mb Sb]; [vm_compute; reflexivity|].
  pose proof (session_locs_is _ _ _ _ _ _ O Se Ma Ga) as La.
  pose proof (session_locs_is _ _ _ _ _ _ O Se Mb Gb) as Lb.
  destruct (C14_incremental _ _ _ Se) as [_ [_ [_ [Hb _]]]].
  split; [repeat constructor; assumption|]. split; [repeat constructor; assumption|]. split.
  { repeat constructor; cbn [In]; intuition discriminate. }
  unfold before_read. cbn [combine map fst snd]. rewrite La, Lb, <- Hb. vm_compute. reflexivity.
Qed.

(** ** C66 The order in which channels are requested does not matter *)
(** Reads from the start of the channels only.  Missing: reads from a later
    sample, for which it fails ([C66_order_refuted]). *)
Theorem C66_order_partial : forall E H F t chans outs chans' outs',
  session E H F -> fixed t -> addressable E (tf_bytes F) ->
  Forall (mentioned (all_objs H)) chans -> Forall (stored (tf_bytes F) t H) chans ->
  NoDup chans -> length outs = length chans -> length outs' = length chans' ->
  Permutation (combine chans outs) (combine chans' outs') ->
  exists r r', read_channels E F t chans outs = (r, Ok tt) /\ read_channels E F t chans' outs' = (r', Ok tt)
    /\ length r = length chans /\ length r' = length chans'
    /\ Permutation (combine chans r) (combine chans' r').
Proof.
  intros E H F t chans outs chans' outs' Se Fx Ad M St ND Lo Lo' P.
  assert (Fc : forall A B (l : list A) (m : list B), length m = length l -> map fst (combine l m) = l).
  { intros A B. induction l as [|x l IH]; intros [|y m] Le; try discriminate; [reflexivity|]. cbn [combine map fst].
    rewrite IH; [reflexivity|]. cbn [length] in Le. lia. }
  assert (Sc : forall A B (l : list A) (m : list B), length m = length l -> map snd (combine l m) = m).
  { intros A B. induction l as [|x l IH]; intros [|y m] Le; try discriminate; [reflexivity|]. cbn [combine map snd].
    rewrite IH; [reflexivity|]. cbn [length] in Le. lia. }
  assert (Pc : Permutation chans chans').
  { rewrite <- (Fc _ _ chans outs Lo), <- (Fc _ _ chans' outs' Lo'). now apply Permutation_map. }
  assert (M' : Forall (mentioned (all_objs H)) chans') by (eapply Permutation_Forall; eauto).
  assert (St' : Forall (stored (tf_bytes F) t H) chans') by (eapply Permutation_Forall; eauto).
  assert (ND' : NoDup chans') by (eapply Permutation_NoDup; eauto).
  pose proof (C65_exact E H F t chans 0 outs Se Fx Ad M St ND Lo) as R.
  pose proof (C65_exact E H F t chans' 0 outs' Se Fx Ad M' St' ND' Lo') as R'.
  set (name := fun po : str * list (carrier t) => (fst po, mkTaker t (needed (locs_after H (fst po)) 0) 0 (snd po))).
  assert (Ns : forall ps, map snd (map name ps) = map (fun po => mkTaker t (needed (locs_after H (fst po)) 0) 0 (snd po)) ps).
  { intros ps. rewrite map_map. reflexivity. }
  assert (Nf : forall ps, map fst (map name ps) = map fst ps).
  { intros ps. rewrite map_map. reflexivity. }
  assert (Ap : apart t (map name (combine chans outs))).
  { split; [now rewrite Nf, Fc|]. split.
    - intros p k j c s Hin Hn. apply in_map_iff in Hin. destruct Hin as [[q o] [Eq _]]. injection Eq as <- <-.
      cbn [tk_needs fst] in Hn. eapply needed_0; eauto.
    - intros p k p' k' j c s s' H1 H2 N1 N2. apply in_map_iff in H1, H2. destruct H1 as [[q o] [Eq H1]], H2 as [[q' o'] [Eq' H2]].
      injection Eq as <- <-. injection Eq' as <- <-. cbn [tk_needs fst] in N1, N2.
      apply needed_in in N1, N2. destruct N1 as [l [Hl [Lb [Lc _]]]], N2 as [l' [Hl' [Lb' [Lc' _]]]].
      apply in_combine_l in H1, H2. destruct (list_eq_dec Byte.byte_eq_dec q q') as [|Nq]; [assumption|exfalso].
      destruct (C14_incremental E H F Se) as [_ [_ [_ [_ [Gp _]]]]].
      pose proof (C18_sessions E H F (session_any _ _ _ Se)) as Va. rewrite Forall_forall in M.
      pose proof (Gp q (M q H1)) as G1. pose proof (Gp q' (M q' H2)) as G2.
      destruct (Va q _ G1) as [_ [_ Di]]. apply (Di q' _ l l' (not_eq_sym Nq) G2 Hl Hl'); congruence. }
  destruct (served_named (tf_bytes F) t (blocks_after H) (map name (combine chans outs))) as [ts' [A [B Hp]]].
  destruct (Hp (map name (combine chans' outs')) (Permutation_map name P) Ap) as [us' [A' [B' Pp]]].
  rewrite Nf, Fc in A, A' by assumption. rewrite Ns in B, B'.
  change (map snd ts' = served (tf_bytes F) t (blocks_after H) (before_read H t chans 0 outs)) in B.
  change (map snd us' = served (tf_bytes F) t (blocks_after H) (before_read H t chans' 0 outs')) in B'.
  rewrite <- B in R. rewrite <- B' in R'. do 2 eexists. split; [exact R|]. split; [exact R'|].
  assert (Cb : forall (xs : list (str * taker t)), combine (map fst xs) (map (tk_buf t) (map snd xs)) = map (fun x => (fst x, tk_buf t (snd x))) xs).
  { induction xs as [|[p k] xs IH]; [reflexivity|]. cbn [map combine fst snd]. now rewrite IH. }
  split; [rewrite <- A; now rewrite !map_length|]. split; [rewrite <- A'; now rewrite !map_length|].
  rewrite <- A, <- A', !Cb. now apply Permutation_map.
Qed.
(** Two channels that share some of their blocks, with different buffers. *)
Example C66_order_case :
  let chans := [ch "g" "a"; ch "g" "b"] in
  let outs := [[0; 0; 0; 0]; [0; 0]]%Z in
  let chans' := [ch "g" "b"; ch "g" "a"] in
  let outs' := [[0; 0]; [0; 0; 0; 0]]%Z in
  (exists H, session dbg H offset_F /\ addressable dbg (tf_bytes offset_F)
     /\ Forall (mentioned (all_objs H)) chans /\ Forall (stored (tf_bytes offset_F) SI32 H) chans
     /\ NoDup chans /\ Permutation (combine chans outs) (combine chans' outs'))
  /\ read_channels dbg offset_F SI32 chans outs = ([[1; 2; 3; 4]; [101; 102]]%Z, Ok tt)
  /\ read_channels dbg offset_F SI32 chans' outs' = ([[101; 102]; [1; 2; 3; 4]]%Z, Ok tt).
Proof.
  cbv zeta. split; [|split; vm_compute; reflexivity].
  assert (O : tdms_new dbg (offset_file true) = Ok offset_F) by (vm_compute; reflexivity).
  destruct (C14_open_is_session _ _ _ O) as [H [_ [Se _]]]. exists H. split; [exact Se|].
  split; [split; vm_compute; congruence|].
  assert (Ga : get_positions (tf_ix offset_F) (ch "g" "a") = Some [mkLoc 0 0 1; mkLoc 1 1 3; mkLoc 2 1 3]) by (vm_compute; reflexivity).
  assert (Gb : get_positions (tf_ix offset_F) (ch "g" "b") = Some [mkLoc 1 0 3; mkLoc 2 0 3]) by (vm_compute; reflexivity).
  destruct (session_stored dbg _ _ H SI32 _ _ O Se Ga) as [Ma Sa]; [vm_compute; reflexivity|].
  destruct (session_stored dbg _ _ H SI32 _ _ O Se Gb) as [Mb Sb]; [vm_compute; reflexivity|].
  split; [repeat constructor; assumption|]. split; [repeat constructor; assumption|]. split.
  { repeat constructor; cbn [In]; intuition discriminate. }
  cbn [combine]. apply perm_swap.
Qed.
(** From a later sample the channels get each other's starting positions when
    they are not listed in the order they are stored in: only the order in which
    a and b are listed differs. *)
Theorem C66_order_refuted : exists f F o,
  tdms_new dbg f = Ok F
  /\ read_channels_from dbg F SI32 [ch "g" "a"; ch "g" "b"] 2 [o; o] = ([[4; 0; 5; 6]; [102; 103; 104; 105]]%Z, Ok tt)
  /\ read_channels_from dbg F SI32 [ch "g" "b"; ch "g" "a"] 2 [o; o] = ([[103; 0; 104; 105]; [3; 4; 5; 6]]%Z, Ok tt).
Proof.
  exists (offset_file true), (open_bytes dbg (offset_file true)), [0; 0; 0; 0]%Z.
  vm_compute. repeat split; reflexivity.
Qed.

Print Assumptions C65_exact.
Print Assumptions C65_own_samples.
Print Assumptions C66_order_partial.
Print Assumptions C66_order_refuted.
