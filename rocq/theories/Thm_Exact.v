(** * C77 Exactly which data calls are served *)
From Coq Require Import Strings.String.
From Verif Require Import Base Lib DataTypes MetaData Maps DataBlock Index RawData ChannelReader TdmsFile Vectors
  SpecCodec SpecIndex SpecSession SpecRead SpecWrite Codec_proofs Segment_proofs Index_proofs History_proofs
  Session_proofs Block_proofs Request_proofs Plan_proofs Read_proofs Add_proofs Thm_Index Thm_Read Write_proofs
  Step_proofs Program_proofs Thm_Write SpecExact Exact_proofs.
Close Scope string_scope.
Local Notation a := (ch "g" "a").
Local Notation b := (ch "g" "b").
Local Notation c := (ch "g" "c").

(** A call without metadata can be served only if its channels are the current
    ones and their formats are for values of its type and divide the number of
    values.  This is so for each single call, whatever its values. *)
Theorem C77_only_if : forall E e H F t lay k chans vs F' r,
  session E H F -> fixed t -> NoDup chans -> chans <> [] -> 0 < k ->
  sized_now H -> room E F t k chans -> (forall q, length_after H q < 2 ^ 63) ->
  continues (active_after H) chans -> values_for t k chans vs ->
  write_channels_e E e t F chans vs lay = (F', r) -> served E H F t lay chans vs F' r ->
  active_after H = chans
  /\ exists n, 0 < n /\ k mod n = 0
       /\ Forall (fun p => exists d, last_format (all_objs H) p = Some (mkRaw d n None) /\ In d (stored_as t)) chans.
Proof.
  intros E e H F t lay k chans vs F' r Se Fx Nd Ne Pk Sd Rm Ls Co Vf Ew Sv.
  pose proof Sv as [Rk [Sin _]].
  destruct (continued E e H F t lay k chans Se Fx Nd Ne Pk Sd Rm Ls Co vs F' r Vf Ew Rk)
    as [s [bs [Se' [Eb [Ad [Dv [Dk [Nv [Traw [Tint [Tbig [Snext [Ebyt [Lbs [Ac0 [Af [Ao [Out [Inn Lt]]]]]]]]]]]]]]]]]]].
  destruct (served_gains E e H F t lay k chans Se Pk Ls vs F' r Vf Ew Sv s Se' Ao Lt) as [Gin Gout].
  destruct (active_good E H F Se) as [Na Am].
  destruct (session_accepted _ _ _ Se') as [Ac' Pl'].
  set (w := whole_chunks (block_of H s)) in *.
  assert (Fm : forall i q, nth_error (active_after H) i = Some q -> exists m, nth_error (active_formats H) i = Some m /\ 0 < rm_n m).
  { intros i q Hi. unfold sized_now in Sd. rewrite Forall_forall in Sd.
    unfold active_formats at 1. rewrite nth_error_map, Hi. eexists. split; [reflexivity|].
    apply Sd. unfold active_formats. apply in_map_iff. exists q. split; [reflexivity|]. eapply nth_error_In; eauto. }
  assert (Hd : exists q, nth_error (active_after H) 0 = Some q /\ In q chans).
  { destruct Co as [Ha [[x Hx]|[x Hx]]].
    - destruct (active_after H) as [|q l]; [congruence|]. exists q. split; [reflexivity|]. rewrite Hx. now left.
    - destruct chans as [|q l]; [congruence|]. exists q. rewrite Hx. split; [reflexivity|now left]. }
  destruct Hd as [q0 [H0 Hq0]]. destruct (Fm 0%nat q0 H0) as [m0 [M0 P0]].
  assert (Pw : rm_n m0 * w = k) by (pose proof (Inn _ _ _ H0 M0); rewrite (Gin q0 Hq0) in *; lia).
  assert (Eq : active_after H = chans).
  { destruct Co as [Ha [[x Hx]|[x Hx]]].
    - destruct x as [|y x]; [now rewrite app_nil_r in Hx|]. exfalso.
      assert (Hy : In y chans) by (rewrite Hx; apply in_or_app; right; now left).
      assert (Ny : ~ In y (active_after H)).
      { rewrite Hx in Nd. apply NoDup_remove_2 in Nd. intros X. apply Nd. apply in_or_app. now left. }
      pose proof (Gin y Hy). rewrite (Out y Ny) in *. lia.
    - destruct x as [|y x]; [now rewrite app_nil_r in Hx|]. exfalso.
      assert (Hy : nth_error (active_after H) (length chans) = Some y) by (rewrite Hx, nth_error_app2, Nat.sub_diag by lia; reflexivity).
      assert (Ny : ~ In y chans).
      { rewrite Hx in Na. apply NoDup_remove_2 in Na. intros X. apply Na. apply in_or_app. now left. }
      destruct (Fm _ _ Hy) as [m [Hm Pm]]. pose proof (Inn _ _ _ Hy Hm) as G.
      rewrite (Gout y (nth_error_In _ _ Hy) Ny) in G. nia. }
  split; [exact Eq|]. exists (rm_n m0). split; [exact P0|]. split; [rewrite <- Pw, N.mul_comm; apply N.mod_mul; lia|].
  apply Forall_forall. intros p Hp. apply In_nth_error in Hp. destruct Hp as [i Hi]. change (@nth_error str chans i = Some p) in Hi.
  pose proof Hi as Ha. rewrite <- Eq in Ha. destruct (Fm i p Ha) as [m [Hm Pm]].
  assert (Nm : rm_n m = rm_n m0).
  { pose proof (Inn i p m Ha Hm) as G. rewrite (Gin p (nth_error_In _ _ Hi)) in G. assert (0 < w) by nia. nia. }
  assert (Mp : mentioned (all_objs H) p) by (apply Am; eapply nth_error_In; eauto).
  assert (Lfm : exists d, last_format (all_objs H) p = Some (mkRaw d (rm_n m0) None) /\ d = rm_type m).
  { unfold active_formats in Hm. rewrite nth_error_map, Ha in Hm. injection Hm as Hm.
    destruct (last_format (all_objs H) p) as [x|] eqn:L.
    - subst x. exists (rm_type m). split; [|reflexivity]. destruct m as [d n o]. cbn [rm_n rm_type] in *. rewrite Nm.
      f_equal. f_equal.
      assert (P : Forall (fun m => rm_total m = None) (active_formats H)).
      { apply active_formats_plain. apply Forall_app in Pl'. apply Pl'. }
      rewrite Forall_forall in P. apply (P (mkRaw d n o)).
      unfold active_formats. apply in_map_iff. exists p. rewrite L. split; [reflexivity|]. eapply nth_error_In; eauto.
    - subst m. cbn [rm_n] in Pm. lia. }
  destruct Lfm as [d [Ld ->]]. exists (rm_type m). split; [exact Ld|].
  destruct (in_dec dtype_eq_dec (rm_type m) (stored_as t)) as [|Nt]; [assumption|]. exfalso.
  destruct (two_values t Fx) as [v0 _].
  assert (Nl : needed (locs_after (H ++ [s]) p) (length_after H p) = [(length (blocks_after H), i, 0)]).
  { unfold locs_after at 1. rewrite locs_from_snoc. cbn [app]. fold (locs_after H p). unfold length_after.
    rewrite <- (locs_sum p H []). fold (locs_after H p). rewrite needed_app, Traw.
    change (b_chans (block_of H s)) with (active_formats (H ++ [s])). rewrite Ac0, Af. fold w.
    assert (L : forall act ms i j0, NoDup act -> nth_error act i = Some p -> nth_error ms i = Some m ->
       locs_in p (length (blocks_after H)) j0 w act ms = [mkLoc (length (blocks_after H)) (j0 + i) (rm_n m * w)]).
    { clear. induction act as [|x act IH]; intros [|m1 ms] [|i] j0 Na Hi Hm; try discriminate; cbn [nth_error locs_in] in *;
        inversion Na as [|? ? Hx Na']; subst.
      - injection Hi as ->. injection Hm as ->. rewrite str_eqb_refl, Nat.add_0_r. cbn [app]. f_equal.
        revert Hx. generalize (S j0). revert ms. clear. induction act as [|y act IH]; intros [|m1 ms] j1 Hx; try reflexivity. cbn [locs_in].
        destruct (str_eqb p y) eqn:K; [apply str_eqb_eq in K; exfalso; apply Hx; now left|]. cbn [app]. apply IH.
        intros X. apply Hx. now right.
      - destruct (str_eqb p x) eqn:K; [apply str_eqb_eq in K; subst x; exfalso; apply Hx; eapply nth_error_In; eauto|].
        cbn [app]. rewrite (IH ms i (S j0) Na' Hi Hm). do 2 f_equal. lia. }
    rewrite (L _ _ i 0%nat Na Ha Hm). cbn [needed l_n l_block l_chan plus].
    replace (rm_n m * w <=? 0) with false by (rewrite Nm; lia). reflexivity. }
  destruct (Sin i p Hi) as [_ Rd].
  specialize (Rd (length_after H p) [v0]).
  rewrite (C32_wrong_type E (H ++ [s]) F' t p (length_after H p) [v0] (length (blocks_after H)) i 0 [] (block_of H s) m Se') in Rd.
  - discriminate.
  - now rewrite Ao.
  - discriminate.
  - exact Nl.
  - rewrite blocks_after_snoc, Traw, nth_error_app2 by lia. now rewrite Nat.sub_diag.
  - change (b_chans (block_of H s)) with (active_formats (H ++ [s])). now rewrite Af.
  - exact Nt.
Qed.

Theorem C77_exactly : forall E e H F t lay k chans,
  session E H F -> exact_end H F -> fixed t -> NoDup chans -> chans <> [] -> 0 < k ->
  sized_now H -> room E F t k chans -> (forall q, length_after H q < 2 ^ 63) ->
  Forall (stored (tf_bytes F) t H) chans ->
  (forall vs F' r, values_for t k chans vs -> write_channels_e E e t F chans vs lay = (F', r) ->
     addressable E (tf_bytes F') -> served E H F t lay chans vs F' r)
  <-> described_call H t lay k chans.
Proof.
  intros E e H F t lay k chans Se Ex Fx Nd Ne Pk Sd Rm Ls St.
  assert (Pc : 0 < lenN chans) by (destruct chans; [congruence|rewrite lenN_cons; lia]).
  assert (Vk : forall vs, values_for t k chans vs -> lenN vs mod lenN chans = 0 /\ lenN vs / lenN chans = k /\ vs <> []).
  { intros vs [_ Lv]. rewrite Lv, N.mul_comm, N.mod_mul, N.div_mul by lia. split; [reflexivity|]. split; [reflexivity|].
    intros ->. change (lenN (@nil (carrier t))) with 0 in Lv. nia. }
  split.
  - intros Sv.
    destruct (two_values t Fx) as [v0 [v1 [R0 [R1 Nv01]]]].
    set (len := N.to_nat (lenN chans * k)).
    assert (Serve : forall vs, values_for t k chans vs -> continues (active_after H) chans ->
       exists F', write_channels_e E e t F chans vs lay = (F', Ok tt) /\ served E H F t lay chans vs F' (Ok tt)).
    { intros vs Vf Co. destruct (write_channels_e E e t F chans vs lay) as [F' r] eqn:Ew.
      destruct (Vk vs Vf) as [Dv [_ _]].
      destruct (the_segment E e H F t chans vs lay Se Fx Nd Ne Dv)
        as [omit [s [bs [Est [Ho [_ [_ [_ [_ [Snext [_ [Lbs [_ [_ Rz]]]]]]]]]]]]]].
      assert (omit = true) as -> by now apply Ho. specialize (Rz eq_refl).
      assert (Ad : addressable E (tf_bytes F')).
      { assert (Eb : tf_bytes F' = tf_bytes F ++ bs).
        { unfold write_channels_e in Ew. rewrite Est in Ew. destruct (add_segment E (tf_ix F) s). injection Ew as <- _. reflexivity. }
        destruct Rm as [X1 X2]. destruct Vf as [_ Lv]. rewrite Eb. unfold addressable. rewrite !lenN_app, Lbs, Snext, Rz, Lv. split; lia. }
      pose proof (Sv vs F' r Vf Ew Ad) as S1. pose proof S1 as [-> _]. eauto. }
    assert (V0 : values_for t k chans (repeat v0 len)).
    { split; [apply Forall_forall; intros x Hx; apply repeat_spec in Hx; now subst|].
      unfold lenN at 1. rewrite repeat_length. unfold len. lia. }
    assert (Dc : continues (active_after H) chans \/ ~ continues (active_after H) chans).
    { destruct (call_stream e t (tf_ix F) chans (repeat v0 len) lay Ne (proj1 (Vk _ V0))) as [omit [Ho _]].
      destruct (session_accepted _ _ _ Se) as [Ac _]. destruct (accepted_described _ _ _ Ac) as [_ [_ [_ [Ha _]]]].
      rewrite Ha in Ho. destruct omit; [left; now apply Ho|right; intros X; apply Ho in X; discriminate]. }
    destruct Dc as [Co|Nc]; [|now left]. right.
    destruct (Serve _ V0 Co) as [F0 [Ew0 S0]].
    destruct (C77_only_if E e H F t lay k chans _ F0 _ Se Fx Nd Ne Pk Sd Rm Ls Co V0 Ew0 S0) as [Eq [n [Pn [Dn Fm]]]].
    split; [exact Eq|]. exists n. split; [|exact Fm]. split; [exact Pn|]. split; [exact Dn|].
    destruct lay; [now left|]. right.
    destruct (Nat.eq_dec (length chans) 1) as [|L1]; [now left|right].
    destruct (N.eq_dec k n) as [|Kn]; [assumption|exfalso].
    assert (Kc : k = n * (k / n)) by (pose proof (N.div_mod k n); lia).
    assert (C2 : 2 <= k / n) by (destruct (N.lt_ge_cases (k / n) 2) as [Q|]; [assert (Q2 : k / n = 0 \/ k / n = 1) by lia; destruct Q2 as [Q2|Q2]; rewrite Q2 in Kc; lia|assumption]).
    assert (Lc : 2 <= lenN chans) by (unfold lenN in *; lia).
    assert (B1 : n < k) by nia. assert (B2 : n < lenN chans * n) by nia. assert (B3 : lenN chans * n < lenN chans * k) by nia.
    (* one value differs: sample [n] of the first channel *)
    set (vs := repeat v0 (N.to_nat n) ++ v1 :: repeat v0 (len - N.to_nat n - 1)).
    assert (Hlen : (N.to_nat n < len)%nat) by (unfold len; assert (n < lenN chans * k) by nia; lia).
    assert (V1 : values_for t k chans vs).
    { split.
      - unfold vs. apply Forall_app. split; [|constructor; [exact R1|]];
          apply Forall_forall; intros x Hx; apply repeat_spec in Hx; now subst.
      - unfold vs, lenN at 1. rewrite app_length. cbn [length]. rewrite !repeat_length. unfold len in *. lia. }
    destruct (Serve _ V1 Co) as [F1 [Ew1 S1]].
    destruct (continued E e H F t Contigious k chans Se Fx Nd Ne Pk Sd Rm Ls Co vs F1 _ V1 Ew1 eq_refl)
      as [s [bs [Se' [Eb [Ad [Dv [Dk [Nv [Traw [Tint [Tbig [Snext [Ebyt [Lbs [Ac0 [Af [Ao _]]]]]]]]]]]]]]]]].
    assert (Ec : exists p0 cs, chans = p0 :: cs) by (destruct chans; [congruence|eauto]). destruct Ec as [p0 [cs Ec]].
    assert (H0 : nth_error chans 0 = Some p0) by now rewrite Ec.
    assert (Um : Forall (fun x => rm_n x = n /\ In (rm_type x) (stored_as t)) (active_formats (H ++ [s]))).
    { rewrite Af. unfold active_formats. rewrite Eq. apply Forall_forall. intros x Hx. apply in_map_iff in Hx.
      destruct Hx as [p [<- Hp]]. rewrite Forall_forall in Fm. destruct (Fm p Hp) as [d [-> Hd]]. cbn [rm_n rm_type]. auto. }
    assert (Act : active_after (H ++ [s]) = chans) by now rewrite Ac0.
    assert (Dn' : (lenN vs / lenN chans) mod n = 0) by now rewrite Dk.
    assert (St0 : stored (tf_bytes F) t H p0) by (rewrite Forall_forall in St; apply St; rewrite Ec; now left).
    destruct V1 as [Rv1 Lv1].
    destruct (uniform_stored E e H F t chans vs Contigious Se Ex Fx Nd Ne Nv Dv s bs n Traw Tint Snext Lbs Act Pn Dn' Um 0%nat p0 H0 St0) as [S2 Q2].
    destruct S1 as [_ [Sin _]]. destruct (Sin 0%nat p0 H0) as [_ Rd].
    set (old := samples_after (tf_bytes F) t H p0) in *.
    specialize (Rd (lenN old + n) [v0]).
    assert (Mp : mentioned (all_objs (H ++ [s])) p0).
    { rewrite Ao. apply (active_good E H F Se). rewrite Eq, Ec. now left. }
    rewrite (C28_window E (H ++ [s]) F1 t p0 _ [v0] Se' Fx Ad Mp) in Rd by (rewrite Eb; exact S2).
    rewrite Eb, Q2, Dk in Rd. apply (f_equal fst) in Rd. cbn [fst] in Rd. unfold overlay in Rd. cbn [length] in Rd.
    assert (Sk : forall l : list (carrier t), skipn (N.to_nat (lenN old + n)) (old ++ l) = skipn (N.to_nat n) l).
    { intros l. rewrite skipn_app, skipn_all2 by (unfold lenN; lia). cbn [app]. f_equal. unfold lenN. lia. }
    rewrite !Sk in Rd.
    assert (One : forall (l : list (carrier t)) v, nth_error l (N.to_nat n) = Some v -> firstn 1 (skipn (N.to_nat n) l) = [v]).
    { intros l v Hl. now rewrite (skipn_nth l _ v Hl). }
    assert (Hil : (0 < length chans)%nat) by (rewrite Ec; cbn [length]; lia).
    assert (A1 : nth_error (block_samples (tf_bytes F ++ bs) t (block_of H s) 0 k) (N.to_nat n) = Some v0).
    { unfold block_samples. rewrite nth_error_map.
      assert (Hs : nth_error (seq 0 (N.to_nat k)) (N.to_nat n) = Some (N.to_nat n)).
      { rewrite (nth_error_nth' _ 0%nat) by (rewrite seq_length; lia). f_equal. rewrite seq_nth by lia. reflexivity. }
      rewrite Hs. cbn [option_map]. f_equal. rewrite N2Nat.id.
      apply (new_sample e H F t chans vs Contigious Ex Fx Rv1 Dv s bs n Tint Tbig Snext Ebyt Lbs Act Pn Dn' Um 0%nat n v0 Hil).
      unfold place. rewrite N.div_same, N.mod_same by lia. change (N.of_nat 0) with 0.
      replace (1 * (lenN chans * n) + 0 * n + 0) with (lenN chans * n) by lia.
      unfold vs. rewrite nth_error_app2 by (rewrite repeat_length; lia). rewrite repeat_length.
      destruct (N.to_nat (lenN chans * n) - N.to_nat n)%nat as [|z] eqn:Ez; [lia|]. cbn [nth_error].
      apply nth_error_repeat. unfold len. lia. }
    assert (A2 : nth_error (dealt Contigious (length chans) 0 vs) (N.to_nat n) = Some v1).
    { rewrite (proj2 (C48_positions _ (length chans) (N.to_nat k) 0 (N.to_nat n) vs ltac:(unfold lenN in *; lia) Hil ltac:(lia))).
      cbn [Nat.mul plus]. unfold vs. rewrite nth_error_app2 by (rewrite repeat_length; lia).
      rewrite repeat_length, Nat.sub_diag. reflexivity. }
    rewrite (One _ _ A1), (One _ _ A2) in Rd. cbn [app] in Rd. injection Rd as Rd. now apply Nv01.
  - intros Ds vs F' r Vf Ew Ad. destruct (Vk vs Vf) as [Dv [Dk Nv]]. destruct Vf as [Rv Lv].
    assert (Ds' : described_call H t lay (lenN vs / lenN chans) chans) by now rewrite Dk.
    pose proof Ad as [A1 A2].
    destruct (write_step E e H F t chans vs lay Se Ex Fx Rv Nd Ne Nv Dv Ds' F' r Ew) as [-> [s [bs St']]].
    { etransitivity; [exact A1|reflexivity]. }
    destruct St' as [Wr [Eb [Lb [Ex1 [_ [_ [_ [_ [_ [Men [Sin [Lo _]]]]]]]]]]]].
    assert (Se' : session E (H ++ [s]) F') by (eapply ss_write; eauto).
    split; [reflexivity|]. split.
    + intros i p Hi all.
      assert (Hp : In p chans) by (eapply nth_error_In; eauto).
      assert (Sp : stored (tf_bytes F) t H p) by (rewrite Forall_forall in St; now apply St).
      destruct (Sin i p Hi Sp) as [S1 Q]. fold all in Q.
      assert (M : mentioned (all_objs (H ++ [s])) p) by (apply Men; now right).
      split.
      * destruct (C19_channel_length E _ F' p Se') as [C1 _]. rewrite <- (C36_samples_count (tf_bytes F') t), Q in C1. apply C1; [|exact M].
        unfold all. rewrite lenN_app, C36_samples_count. pose proof (dealt_len lay (length chans) i vs) as Dl.
        specialize (Ls p). rewrite Eb, lenN_app in A1. change (2 ^ 64) with (2 ^ 63 + 2 ^ 63). lia.
      * intros start out. now rewrite (C28_window E _ F' t p start out Se' Fx Ad M S1), Q.
    + intros q Hq. rewrite !length_positions.
      destruct (C14_incremental E H F Se) as [_ [_ [_ [_ [P1 P2]]]]].
      destruct (C14_incremental E _ F' Se') as [_ [_ [_ [_ [P1' P2']]]]].
      destruct (in_dec (list_eq_dec Byte.byte_eq_dec) q (map om_path (all_objs H))) as [M|M].
      * assert (M' : mentioned (all_objs (H ++ [s])) q) by (apply Men; now left).
        now rewrite (P1 q M), (P1' q M'), (Lo q Hq).
      * assert (M' : ~ mentioned (all_objs (H ++ [s])) q) by (intros X; apply Men in X; destruct X; auto).
        now rewrite (P2 q M), (P2' q M').
Qed.

(** One call of two values each for [a] and [b].  Afterwards the hypotheses are
    met; twice as many values in one more call are kept if interleaved, and not
    if contiguous. *)
Definition C77_F : tfile := fst (write_channels dbg SI32 empty_file [a; b] [1; 2; 3; 4]%Z Contigious).
Definition C77_s : segment :=
  match stream_segment LittleE SI32 (tf_ix empty_file) [a; b] [1; 2; 3; 4]%Z Contigious with
  | Ok (_, s) => s
  | _ => mkSeg toc_default 0 0 None
  end.
Example C77_case : let H := [C77_s] in let F := C77_F in
  session dbg H F /\ exact_end H F /\ fixed SI32 /\ NoDup [a; b] /\ sized_now H /\ room dbg F SI32 4 [a; b]
  /\ (forall q, length_after H q < 2 ^ 63) /\ Forall (stored (tf_bytes F) SI32 H) [a; b]
  /\ continues (active_after H) [a; b] /\ values_for SI32 4 [a; b] [11; 12; 13; 14; 15; 16; 17; 18]%Z
  /\ described_call H SI32 Interleaved 4 [a; b] /\ ~ described_call H SI32 Contigious 4 [a; b]
  /\ ~ described_call H SI32 Interleaved 3 [a; b] /\ ~ described_call H SF32 Interleaved 4 [a; b]
  /\ ~ described_call H SI32 Interleaved 4 [a] /\ ~ described_call H SI32 Interleaved 4 [a; b; c]
  /\ (let '(F', r) := write_channels dbg SI32 F [a; b] [11; 12; 13; 14; 15; 16; 17; 18]%Z Contigious in
      r = Ok tt /\ read_channel dbg F' SI32 a (repeat 0%Z 6) = ([1; 2; 11; 12; 15; 16]%Z, Ok tt)).
Proof.
  assert (O : tdms_new dbg [] = Ok empty_file) by (vm_compute; reflexivity).
  assert (S0 : session dbg [] empty_file).
  { apply (ss_open dbg [] empty_file []); [|exact O]. split; [intros [|i] s X; discriminate|left; reflexivity]. }
  assert (Se : session dbg ([] ++ [C77_s]) C77_F).
  { apply (ss_write dbg [] empty_file C77_s C77_F S0).
    eapply (wrote_chans dbg empty_file LittleE SI32 [a; b] [1; 2; 3; 4]%Z Contigious); vm_compute; reflexivity. }
  cbn [app] in Se.
  assert (Lf : forall p, last_format (all_objs [C77_s]) p =
     if str_eqb p b then Some (mkRaw I32 2 None) else if str_eqb p a then Some (mkRaw I32 2 None) else None) by reflexivity.
  assert (Ac : active_after [C77_s] = [a; b]) by (vm_compute; reflexivity).
  assert (Nd : NoDup [a; b]) by (repeat constructor; cbn; intuition discriminate).
  assert (Fixed : fixed SI32) by (repeat split; discriminate).
  assert (Nst : forall t k lay chans, described_call [C77_s] t lay k chans -> continues [a; b] chans ->
     chans = [a; b] /\ (lay = Interleaved \/ k = 2) /\ k mod 2 = 0 /\ In I32 (stored_as t)).
  { intros t k lay chans [N|[A [x [[P [D L]] Fm]]]] Co; rewrite Ac in *; [now exfalso|]. subst chans.
    inversion Fm as [|? ? [d [X Hd]] _]; subst. rewrite Lf in X. injection X as <- <-.
    split; [reflexivity|]. split; [|auto]. destruct L as [L|[L|L]]; [now left|discriminate|now right]. }
  cbv zeta. split; [exact Se|]. split; [vm_compute; reflexivity|]. split; [exact Fixed|]. split; [exact Nd|].
  split; [repeat constructor|]. split; [split; vm_compute; [reflexivity|discriminate]|]. split.
  { intros q. change (length_after [C77_s] q) with
      (((if str_eqb q a then 2 else 0) + ((if str_eqb q b then 2 else 0) + 0)) + 0).
    destruct (str_eqb q a), (str_eqb q b); reflexivity. }
  split.
  { assert (O1 : tdms_new dbg (tf_bytes C77_F) = Ok C77_F) by (vm_compute; reflexivity).
    constructor; [|constructor; [|constructor]].
    - apply (session_stored dbg _ _ _ SI32 a [mkLoc 0 0 2] O1 Se); vm_compute; reflexivity.
    - apply (session_stored dbg _ _ _ SI32 b [mkLoc 0 1 2] O1 Se); vm_compute; reflexivity. }
  split; [rewrite Ac; split; [discriminate|left; now exists []]|].
  split; [split; [repeat (apply Forall_cons || apply Forall_nil); cbn; unfold in_signed; lia|reflexivity]|].
  split.
  { right. split; [exact Ac|]. exists 2. split; [split; [reflexivity|]; split; [reflexivity|now left]|].
    repeat constructor; exists I32; (split; [rewrite Lf; reflexivity|now left]). }
  assert (Pr : continues [a; b] [a; b]) by (split; [discriminate|left; now exists []]).
  split; [intros X; apply Nst in X; [|exact Pr]; destruct X as [_ [[X|X] _]]; discriminate|].
  split; [intros X; apply Nst in X; [|exact Pr]; destruct X as [_ [_ [X _]]]; discriminate|].
  split; [intros X; apply Nst in X; [|exact Pr]; destruct X as [_ [_ [_ X]]]; cbn in X; intuition discriminate|].
  split; [intros X; apply Nst in X; [|split; [discriminate|right; now exists [b]]]; destruct X as [X _]; discriminate|].
  split; [intros X; apply Nst in X; [|split; [discriminate|left; now exists [c]]]; destruct X as [X _]; discriminate|].
  vm_compute. split; reflexivity.
Qed.

Print Assumptions C77_only_if.
Print Assumptions C77_exactly.
