(** * Claim C69: later calls never change what was read *)
From Coq Require Import Strings.String.
From Verif Require Import Base Lib DataTypes MetaData Maps DataBlock Index RawData ChannelReader TdmsFile
  SpecIndex SpecSession SpecRead SpecWrite Maps_proofs Index_proofs Plan_proofs Open_proofs Session_proofs History_proofs
  Program_proofs Cut_proofs Persist_proofs Vectors Thm_Open Thm_Index.
Close Scope string_scope.

Local Notation a := (ch "g" "a").
Local Notation b := (ch "g" "b").
Local Notation c := (ch "g" "c").

Lemma opened_inv E f F : tdms_new E f = Ok F -> inv (tf_ix F).
Proof.
  intros O. apply tdms_new_ok in O. destruct O as [O _]. destruct (open_history E f _ O) as [H [A _]].
  destruct (accepted_described _ _ _ A) as [Iv _]. exact Iv.
Qed.

(** The same for any file and index that have grown. *)
Lemma values_stay E F F' g t p start out0 out0' :
  inv (tf_ix F) -> grown (tf_ix F) (tf_ix F') -> tf_bytes F' = tf_bytes F ++ g ->
  read_channel_from E F t p start out0 = (out0', Ok tt) ->
  exists vs more r,
    (length vs + length more <= length out0)%nat
    /\ (forall out, length out = length out0 ->
          read_channel_from E F t p start out = (vs ++ skipn (length vs) out, Ok tt)
          /\ read_channel_from E F' t p start out = (vs ++ more ++ skipn (length vs + length more) out, r))
    /\ (0 < length out0 -> length vs = length out0 -> r = Ok tt)%nat.
Proof.
  intros Iv Gr Bg Rd.
  unfold read_channel_from in *. destruct (get_positions (tf_ix F) p) as [ls|] eqn:Gp; [|discriminate].
  pose proof (inv_earlier _ _ _ Iv Gp) as Ea. destruct Gr as [Gb Gl]. destruct (Gl _ _ Gp) as [more [Gp' La]]. rewrite Gp'.
  assert (Gr : grown (tf_ix F) (tf_ix F')) by (split; assumption).
  destruct (read_plan [ls] [start]) as [plan|x|x|] eqn:P1; try discriminate.
  assert (T2 : exists plan2, read_plan [ls ++ more] [start] = Ok plan2) by (apply plan_terminates; lia).
  destruct T2 as [plan2 P2]. rewrite P2.
  destruct (plan_more (length (ix_blocks (tf_ix F))) (S (total_locs [(ls, start)])) [(ls, start)] [more] plan) with (fuel2 := S (total_locs [(ls ++ more, start)])) (plan2 := plan2) as [extra [-> _]];
    [repeat constructor; exact Ea|repeat constructor; exact La|reflexivity|exact P1|exact P2|].
  pose proof (plan_shape _ _ _ P2) as Sh. assert (Sh1 : Forall (fun br => length (br_chans br) = 1%nat) (plan ++ extra)).
  { eapply Forall_impl; [|exact Sh]. cbn. intros br [K _]. exact K. }
  clear Sh. apply Forall_app in Sh1. destruct Sh1 as [Sh1 She].
  unfold execute_read_plan in *. cbn [map] in *. rewrite Bg.
  destruct (execute E (tf_bytes F) t (tf_ix F) plan [mkPr 0 (lenN out0)] [out0]) as [outs0 r0] eqn:Ex. injection Rd as _ ->.
  assert (Sp : forall (v out : list (carrier t)), splice out 0 v = v ++ skipn (length v) out) by reflexivity.
  assert (Ln : forall out : list (carrier t), length out = length out0 -> lenN out = lenN out0) by (intros out L; unfold lenN; now rewrite L).
  destruct (N.eq_dec (lenN out0) 0) as [Z|Z].
  - (* nothing asked for *)
    assert (Zo : forall out : list (carrier t), length out = length out0 -> out = []) by (intros [|? ?] L; [reflexivity|unfold lenN in Z; cbn [length] in L; lia]).
    destruct (execute_indep E (tf_bytes F ++ g) t (tf_ix F') (plan ++ extra) (mkPr 0 0) 0) as (v & r & Lv & Hv); [now apply Forall_app|reflexivity|cbn [pr_read]; lia|].
    destruct (execute_indep E (tf_bytes F) t (tf_ix F) plan (mkPr 0 0) 0) as (v1 & r1 & Lv1 & Hv1); [exact Sh1|reflexivity|cbn [pr_read]; lia|].
    cbn [pr_read] in *. assert (v = []) by (destruct v; [reflexivity|unfold lenN in Lv; cbn [length] in Lv; lia]).
    assert (v1 = []) by (destruct v1; [reflexivity|unfold lenN in Lv1; cbn [length] in Lv1; lia]). subst v v1.
    exists [], [], r. split; [cbn [length]; lia|]. split; [|intros K; unfold lenN in Z; lia].
    intros out L. pose proof (Zo _ L) as ->. pose proof (Zo _ eq_refl) as Q0. rewrite Q0 in Ex.
    change (lenN (@nil (carrier t))) with 0 in *. pose proof (Hv [] eq_refl) as W. pose proof (Hv1 [] eq_refl) as W1.
    rewrite W1 in Ex. injection Ex as _ ->. rewrite W, W1. split; reflexivity.
  - destruct (execute_grow E (tf_bytes F) g t (tf_ix F) (tf_ix F') extra Gr plan (mkPr 0 (lenN out0)) (lenN out0) out0 outs0 Sh1 eq_refl) as (v & Lv & Hv);
      [cbn [pr_read]; lia|reflexivity|exact Ex|]. cbn [pr_read] in *. rewrite N.add_0_l in *.
    destruct (N.eqb_spec (lenN v) (lenN out0)) as [Q|Q].
    + exists v, [], (Ok tt). split; [cbn [length]; unfold lenN in Lv; lia|]. split; [|reflexivity].
      intros out L. rewrite (Ln _ L). destruct (Hv out (Ln _ L)) as [H1 H2]. rewrite H1, H2. cbn [hd length app].
      rewrite Nat.add_0_r, !Sp. split; reflexivity.
    + destruct (execute_indep E (tf_bytes F ++ g) t (tf_ix F') extra (mkPr (lenN v) (lenN out0)) (lenN out0) She eq_refl Lv) as (w & r & Lw & Hw).
      cbn [pr_read] in *. exists v, w, r. split; [unfold lenN in Lw; lia|]. split; [|unfold lenN in Q; lia].
      intros out L. rewrite (Ln _ L). destruct (Hv out (Ln _ L)) as [H1 H2]. rewrite H1, H2. cbn [hd].
      assert (Sl : length (splice out 0 v) = length out) by (apply splice_len; rewrite (Ln _ L); lia).
      rewrite Hw by (rewrite <- (Ln _ L); unfold lenN; now rewrite Sl). cbn [hd].
      replace (splice (splice out 0 v) (lenN v) w) with (splice out 0 (v ++ w)).
      * rewrite !Sp, app_length, <- app_assoc. split; reflexivity.
      * rewrite <- (splice_splice _ out 0 v w); [reflexivity|]. rewrite (Ln _ L). lia.
Qed.

(** Whatever file is opened and whatever calls are made on it, successful or
    not: if a read of a channel succeeds and stores the values [vs] in a buffer
    (the same ones whatever the buffer held), then after any further calls the
    same read stores these values again, possibly with more after them if there
    was room; if the buffer was full, the read still succeeds. *)
Theorem C69_values_stay : forall E f F0 cs1 F rs1 cs2 F' rs2 t p start out0 out0',
  tdms_new E f = Ok F0 -> run_calls E F0 cs1 = (F, rs1) -> run_calls E F cs2 = (F', rs2) ->
  read_channel_from E F t p start out0 = (out0', Ok tt) ->
  exists vs more r,
    (length vs + length more <= length out0)%nat
    /\ (forall out, length out = length out0 ->
          read_channel_from E F t p start out = (vs ++ skipn (length vs) out, Ok tt)
          /\ read_channel_from E F' t p start out = (vs ++ more ++ skipn (length vs + length more) out, r))
    /\ (0 < length out0 -> length vs = length out0 -> r = Ok tt)%nat.
Proof.
  intros E f F0 cs1 F rs1 cs2 F' rs2 t p start out0 out0' O R1 R2 Rd.
  assert (Iv : inv (tf_ix F)).
  { pose proof (run_inv E cs1 F0 (opened_inv _ _ _ O)) as K. rewrite R1 in K. exact K. }
  pose proof (run_grown E cs2 F) as Gr. rewrite R2 in Gr. cbn [fst] in Gr.
  destruct (run_grows _ _ _ _ _ R2) as [g Bg]. exact (values_stay E F F' g t p start out0 out0' Iv Gr Bg Rd).
Qed.

(** Reads of several channels: when none of the channels was given new data,
    the whole result is the same; in particular after writing properties. *)
Lemma lookup_same ix ix' : forall chans, Forall (fun p => get_positions ix' p = get_positions ix p) chans ->
  lookup_positions ix' chans = lookup_positions ix chans.
Proof.
  induction chans as [|p chans IH]; intros A; [reflexivity|]. apply Forall_cons_iff in A. destruct A as [A0 A].
  cbn [lookup_positions]. rewrite A0. destruct (get_positions ix p); [|reflexivity]. now rewrite (IH A).
Qed.
Theorem C69_several : forall E F cs F' rs t chans start outs outs',
  run_calls E F cs = (F', rs) ->
  Forall (fun p => get_positions (tf_ix F') p = get_positions (tf_ix F) p) chans ->
  read_channels_from E F t chans start outs = (outs', Ok tt) ->
  read_channels_from E F' t chans start outs = (outs', Ok tt).
Proof.
  intros E F cs F' rs t chans start outs outs' R A Rd. pose proof (run_grown E cs F) as Gr. rewrite R in Gr. cbn [fst] in Gr.
  destruct (run_grows _ _ _ _ _ R) as [g Bg]. unfold read_channels_from, ix_read_channels_from in *. rewrite (lookup_same _ _ _ A), Bg.
  destruct (bind _ _) as [plan|x|x|]; cbn [recast] in *; try discriminate.
  unfold execute_read_plan in *. now apply (execute_same E _ g t _ _ Gr).
Qed.
Lemma props_positions E F e path kvs p ls : get_positions (tf_ix F) p = Some ls ->
  get_positions (tf_ix (fst (write_properties_e E e F path kvs))) p = Some ls.
Proof.
  intros G. unfold write_properties_e, write_segment. cbv zeta. unfold add_segment. cbn [sg_toc sg_meta toc_newlist toc_raw write_toc_flags toc_default].
  cbn [add_objects om_idx]. pose proof (meta_grown (tf_ix F) (mkObj path kvs RINone)) as M.
  assert (Mb : ix_blocks (fst (update_meta_object (tf_ix F) (mkObj path kvs RINone))) = ix_blocks (tf_ix F)
    /\ get_positions (fst (update_meta_object (tf_ix F) (mkObj path kvs RINone))) p = Some ls).
  { clear M. unfold update_meta_object. cbn [om_path]. unfold get_positions in *.
    destruct (map_get path (ix_objs (tf_ix F))) as [od|] eqn:Q.
    - destruct (od_update od _) as [od' r] eqn:U. cbn [fst set_objs ix_blocks ix_objs]. split; [reflexivity|].
      rewrite map_get_alter. destruct (str_eqb p path) eqn:K; [|exact G]. apply str_eqb_eq in K. subst path. rewrite Q in *. cbn [option_map].
      pose proof (od_update_locs od (mkObj p kvs RINone)) as X. rewrite U in X. cbn [fst] in X. rewrite X. exact G.
    - destruct (od_from _) as [od|x|x|]; try (split; [reflexivity|exact G]). destruct (map_get (o_path od) _) eqn:Q2; [split; [reflexivity|exact G]|].
      cbn [fst set_objs ix_blocks ix_objs]. split; [reflexivity|]. rewrite map_get_insert. destruct (str_eqb p (o_path od)) eqn:K; [|exact G].
      apply str_eqb_eq in K. subst p. rewrite Q2 in G. discriminate. }
  destruct (update_meta_object _ _) as [ix1 r]. cbn [fst] in Mb. destruct Mb as [_ Mb].
  destruct r as [u|x|x|]; cbn [fst tf_ix recast]; try exact Mb.
  destruct (total_size_bytes _) as [n|x|x|]; cbn [fst tf_ix recast]; try exact Mb. destruct (checked_add _ _); exact Mb.
Qed.
Theorem C69_properties : forall E F cs F' rs t chans start outs outs',
  Forall (fun cl => exists e path kvs, cl = CallProps e path kvs) cs ->
  run_calls E F cs = (F', rs) ->
  read_channels_from E F t chans start outs = (outs', Ok tt) ->
  read_channels_from E F' t chans start outs = (outs', Ok tt).
Proof.
  intros E F cs F' rs t chans start outs outs' A R Rd. apply (C69_several E F cs F' rs t chans start outs outs' R); [|exact Rd].
  assert (Kn : forall l ls, lookup_positions (tf_ix F) l = Ok ls -> Forall (fun p => exists q, get_positions (tf_ix F) p = Some q) l).
  { induction l as [|p l IH]; intros ls L; constructor; cbn [lookup_positions] in L; destruct (get_positions (tf_ix F) p) eqn:G; try discriminate; [eauto|].
    apply bind_ok in L. destruct L as [x [L _]]. exact (IH _ L). }
  unfold read_channels_from, ix_read_channels_from in Rd. destruct (lookup_positions (tf_ix F) chans) as [ls|x|x|] eqn:L; cbn [bind recast] in Rd; try discriminate.
  specialize (Kn _ _ L). eapply Forall_impl; [|exact Kn]. cbn. intros p [q Q]. rewrite Q. clear -A R Q.
  revert F rs A R q Q. induction cs as [|cl cs IH]; intros F rs A R q Q; cbn [run_calls] in R; [injection R as <- _; exact Q|].
  apply Forall_cons_iff in A. destruct A as [(e & path & kvs & ->) A]. cbn [do_call] in R.
  pose proof (props_positions E F e path kvs p q Q) as P. destruct (write_properties_e E e F path kvs) as [F1 x]. cbn [fst] in P.
  destruct (run_calls E F1 cs) as [F2 xs] eqn:R2. injection R as <- _. exact (IH _ _ A R2 _ P).
Qed.
(** A file read back, then more written to it, among it a call that is refused
    and one that writes other channels. *)
Definition C69_more : list call :=
  [CallChans LittleE SI32 [a; b] [20; 21; 22; 23]%Z Interleaved;
   CallChans LittleE SI32 [a; b] [20; 21; 22]%Z Interleaved;
   CallProps BigE a [(B "unit", PString (B "A"))];
   CallChans BigE SF64 [c] [4607182418800017408] Contigious].
Example C69_case :
  let F := open_bytes dbg (tf_bytes C14_file) in
  let F' := fst (run_calls dbg F C69_more) in
  snd (run_calls dbg F C69_more) = [Ok tt; Err (EBadDataBlockLength 3 2); Ok tt; Ok tt]
  /\ read_channel_from dbg F SI32 a 1 [0; 0; 0; 0; 0; 0]%Z = ([3; 5; 9; 10; 0; 0]%Z, Ok tt)
  /\ read_channel_from dbg F' SI32 a 1 [0; 0; 0; 0; 0; 0]%Z = ([3; 5; 9; 10; 20; 22]%Z, Ok tt)
  /\ read_channel_from dbg F SI32 a 1 [0; 0; 0; 0]%Z = ([3; 5; 9; 10]%Z, Ok tt)
  /\ read_channel_from dbg F' SI32 a 1 [0; 0; 0; 0]%Z = ([3; 5; 9; 10]%Z, Ok tt).
Proof. vm_compute. repeat split; reflexivity. Qed.
(** The conclusion for this case, from the theorem. *)
Example C69_use : exists vs more r, (length vs + length more <= 6)%nat
  /\ forall out, length out = 6%nat ->
       read_channel_from dbg (open_bytes dbg (tf_bytes C14_file)) SI32 a 1 out = (vs ++ skipn (length vs) out, Ok tt)
       /\ read_channel_from dbg (fst (run_calls dbg (open_bytes dbg (tf_bytes C14_file)) C69_more)) SI32 a 1 out
          = (vs ++ more ++ skipn (length vs + length more) out, r).
Proof.
  destruct (C69_values_stay dbg (tf_bytes C14_file) (open_bytes dbg (tf_bytes C14_file)) [] (open_bytes dbg (tf_bytes C14_file)) []
    C69_more (fst (run_calls dbg (open_bytes dbg (tf_bytes C14_file)) C69_more)) (snd (run_calls dbg (open_bytes dbg (tf_bytes C14_file)) C69_more))
    SI32 a 1 [0; 0; 0; 0; 0; 0]%Z [3; 5; 9; 10; 0; 0]%Z) as (vs & more & r & L & H & _);
    [vm_compute; reflexivity|reflexivity|apply surjective_pairing|vm_compute; reflexivity|].
  exists vs, more, r. split; [exact L|exact H].
Qed.
Example C69_properties_case :
  let F := open_bytes dbg (tf_bytes C14_file) in
  let cs := [CallProps BigE a [(B "unit", PString (B "A"))]; CallProps LittleE (B "/") []] in
  Forall (fun cl => exists e path kvs, cl = CallProps e path kvs) cs
  /\ snd (run_calls dbg F cs) = [Ok tt; Ok tt]
  /\ read_channels_from dbg F SI32 [b; a] 1 [[0; 0]; [0; 0]]%Z = ([[4; 6]; [3; 5]]%Z, Ok tt)
  /\ Forall (fun p => get_positions (tf_ix (fst (run_calls dbg F cs))) p = get_positions (tf_ix F) p) [b; a].
Proof.
  cbv zeta. split; [repeat constructor; eauto|]. split; [vm_compute; reflexivity|]. split; [vm_compute; reflexivity|].
  repeat constructor; vm_compute; reflexivity.
Qed.
Print Assumptions C69_values_stay.
Print Assumptions C69_several.
Print Assumptions C69_properties.
