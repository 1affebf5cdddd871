(** * C80 Exactly which data calls survive closing and opening; C39 again *)
From Coq Require Import Strings.String.
From Verif Require Import Base Lib Utf8 DataTypes MetaData Maps DataBlock Index RawData ChannelReader TdmsFile Vectors
  SpecCodec SpecIndex SpecSession SpecRead SpecWrite SpecLocal SpecVerdict Codec_proofs Segment_proofs Index_proofs History_proofs
  Session_proofs Block_proofs Request_proofs Plan_proofs Read_proofs Add_proofs Thm_Index Thm_Read Write_proofs
  Step_proofs Program_proofs Thm_Write SpecExact Exact_proofs Thm_Exact Verdict_proofs Thm_Verdict Open_proofs Reopen_proofs.
Close Scope string_scope.
Local Notation a := (ch "g" "a").
Local Notation b := (ch "g" "b").
Local Notation c := (ch "g" "c").

(** ** The outcome of every data call *)
Lemma founded : forall os before,
  (forall o, In o os -> om_idx o = RIMatch -> last_format before (om_path o) <> None) -> unfounded before os = false.
Proof.
  induction os as [|o os IH]; intros before Hf; [reflexivity|]. cbn [unfounded].
  assert (Q : unfounded (before ++ [o]) os = false).
  { apply IH. intros o' Ho Hm. specialize (Hf o' (or_intror Ho) Hm). unfold last_format in *. rewrite fold_left_app.
    cbn [fold_left]. unfold fmt_obj at 1. destruct (str_eqb (om_path o') (om_path o)); [|exact Hf].
    destruct (om_idx o); [exact Hf|exact Hf|discriminate]. }
  destruct (om_idx o) eqn:Ei; try exact Q. destruct (last_format before (om_path o)) eqn:L; [exact Q|].
  exfalso. now apply (Hf o (or_introl eq_refl) Ei).
Qed.

(** As long as the formats of the current channels are for fixed-size values and
    one chunk of them is below 2^64 bytes, a data call succeeds exactly if there
    are channels, the values can be dealt to them, and there are values. *)
Theorem C39_outcome : forall E e H F t chans vs lay F' r,
  session E H F -> exact_end H F -> fixed t -> Forall (rust_value t) vs -> NoDup chans ->
  sized_now H -> chunk_bytes (active_formats H) < 2 ^ 64 ->
  write_channels_e E e t F chans vs lay = (F', r) -> lenN (tf_bytes F') < 2 ^ 64 ->
  r = (if lenN chans =? 0 then Err ENoChannels
       else if lenN vs mod lenN chans =? 0
            then if lenN vs =? 0 then Err EZeroLengthDataBlock else Ok tt
            else Err (EBadDataBlockLength (lenN vs) (lenN chans))).
Proof.
  intros E e H F t chans vs lay F' r Se Ex Fx Rv Nd Sd Ck Ew Lf.
  destruct (lenN chans =? 0) eqn:Cz.
  { destruct chans; [|rewrite lenN_cons in Cz; lia]. rewrite C38_no_channels in Ew. now injection Ew as _ <-. }
  assert (Ne : chans <> []) by (intros ->; discriminate).
  destruct (lenN vs mod lenN chans =? 0) eqn:Dv.
  2: { apply N.eqb_neq in Dv. rewrite C38_bad_length in Ew by assumption. now injection Ew as _ <-. }
  apply N.eqb_eq in Dv.
  destruct (the_segment E e H F t chans vs lay Se Fx Nd Ne Dv)
    as [omit [s [bs [Est [Ho [_ [Traw [_ [_ [Snext [_ [Lbs [So [Ac R0]]]]]]]]]]]]]].
  assert (Wr : wrote E F s F' r) by (eapply wrote_chans; eauto).
  assert (Eb : tf_bytes F' = tf_bytes F ++ bs).
  { unfold write_channels_e in Ew. rewrite Est in Ew. destruct (add_segment E (tf_ix F) s). injection Ew as <- _. reflexivity. }
  rewrite Eb, lenN_app, Lbs in Lf. unfold exact_end in Ex.
  pose proof (C71_write E H F s F' r Se Wr) as V. unfold verdict in V. cbv zeta in V. cbn [first_of] in V.
  rewrite Traw in V. cbn [andb] in V.
  assert (Uf : unfounded (all_objs H) (seg_objs s) = false).
  { apply founded. intros o Hin Hm. rewrite So in Hin. destruct omit; [destruct Hin|]. unfold call_objs in Hin.
    apply in_map_iff in Hin. destruct Hin as [p [<- Hp]]. cbn [om_idx om_path] in *.
    destruct (C14_incremental E H F Se) as [_ [Hf _]]. rewrite <- Hf.
    destruct (channel_format (tf_ix F) p); discriminate. }
  assert (Na : lenN (active_after (H ++ [s])) =? 0 = false).
  { rewrite Ac. destruct omit; [|exact Cz]. assert (Co : continues (active_after H) chans) by now apply Ho.
    destruct Co as [Co _]. destruct (active_after H); [congruence|rewrite lenN_cons; lia]. }
  rewrite Uf, Na in V. replace (sg_next s <? sg_raw s) with false in V by lia.
  destruct (lenN vs =? 0) eqn:Vz.
  { apply N.eqb_eq in Vz. replace (sg_next s =? sg_raw s) with true in V by (rewrite Snext, Vz; lia). exact V. }
  assert (Nv : vs <> []) by (intros ->; discriminate).
  destruct omit.
  2: { eapply write_step; eauto.
       - left. intros X. apply Ho in X. discriminate.
       - rewrite Eb, lenN_app, Lbs. exact Lf. }
  specialize (R0 eq_refl).
  assert (Sz : 0 < size_bytes t) by (destruct Fx as [A [B C]]; destruct t; try congruence; reflexivity).
  replace (sg_next s =? sg_raw s) with false in V by nia.
  replace (2 ^ 64 <=? offset H + 28 + sg_raw s) with false in V by lia. rewrite andb_false_r in V.
  assert (Af : active_formats (H ++ [s]) = active_formats H).
  { unfold active_formats. rewrite Ac, all_objs_snoc, So, app_nil_r. reflexivity. }
  rewrite Af in V. replace (2 ^ 64 <=? chunk_bytes (active_formats H)) with false in V by lia.
  assert (Eb2 : existsb (fun m => 2 ^ 64 <=? rm_n m * whole_chunks (block_of H s)) (active_formats H) = false).
  { apply Bool.not_true_is_false. intros X. apply existsb_exists in X. destruct X as [m [Hm X]].
    apply N.leb_le in X. apply In_nth_error in Hm. destruct Hm as [i Hm].
    pose proof (chunk_bound _ _ _ Hm) as Cb. unfold sized_now in Sd. rewrite Forall_forall in Sd.
    destruct (Sd m (nth_error_In _ _ Hm)) as [_ Wm]. rewrite (width_dtype (rm_type m) Wm) in Cb.
    unfold whole_chunks in X. change (b_chans (block_of H s)) with (active_formats (H ++ [s])) in X. rewrite Af in X.
    destruct (chunk_bytes (active_formats H) =? 0) eqn:Z; [rewrite N.mul_0_r in X; now apply X|].
    change (b_len (block_of H s)) with (sg_next s - sg_raw s) in X.
    pose proof (N.mul_div_le (sg_next s - sg_raw s) (chunk_bytes (active_formats H)) ltac:(lia)) as D.
    assert (Q : rm_n m * ((sg_next s - sg_raw s) / chunk_bytes (active_formats H)) <= sg_next s - sg_raw s).
    { etransitivity; [|exact D]. apply N.mul_le_mono_r. nia. }
    lia. }
  rewrite Eb2 in V. replace (2 ^ 64 <=? offset H + 28 + sg_next s) with false in V by lia. exact V.
Qed.

Lemma reopen_refused E f ix bs s ix' x :
  build_index E f = Ok ix -> ix_next ix = lenN f -> lenN f <= seek_max E ->
  segment_read E (f ++ bs) (lenN f) = Ok s -> add_segment E ix s = (ix', Err x) ->
  build_index E (f ++ bs) = Err x.
Proof.
  intros Bd Hn Hm R A.
  rewrite (open_extend E f ix bs Bd) with (fuel := S (S (length bs)));
    [|rewrite Hn; exact Hm|lia|rewrite Hn, lenN_app; unfold lenN; lia].
  rewrite Hn. cbn [build_loop]. now rewrite R, A.
Qed.

(** A call without values never leaves the file usable: it fails, and the file
    can no longer be opened. *)
Theorem C39_no_values_always : forall E e F t chans lay F' r,
  tdms_new E (tf_bytes F) = Ok F -> ix_next (tf_ix F) = lenN (tf_bytes F) -> lenN (tf_bytes F) <= seek_max E ->
  NoDup chans -> chans <> [] -> fixed t -> good_call E (CallChans e t chans [] lay) ->
  write_channels_e E e t F chans [] lay = (F', r) -> lenN (tf_bytes F') < 2 ^ 64 ->
  r = Err EZeroLengthDataBlock /\ exists x, tdms_new E (tf_bytes F') = Err x.
Proof.
  intros E e F t chans lay F' r Op Hn Hm Nd Ne Fx Gc Ew Lf.
  destruct (C14_open_is_session _ _ _ Op) as [H [_ [Se _]]].
  assert (Dv : lenN (@nil (carrier t)) mod lenN chans = 0) by (apply N.mod_0_l; destruct chans; [congruence|rewrite lenN_cons; lia]).
  destruct (the_segment E e H F t chans [] lay Se Fx Nd Ne Dv)
    as [omit [s [bs [Est [Ho [Ebs [Traw [_ [_ [Snext [_ [Lbs [So [Ac R0]]]]]]]]]]]]]].
  assert (Eb : tf_bytes F' = tf_bytes F ++ bs).
  { unfold write_channels_e in Ew. rewrite Est in Ew. destruct (add_segment E (tf_ix F) s). injection Ew as <- _. reflexivity. }
  destruct (session_accepted _ _ _ Se) as [Acc Pl].
  assert (Wr : wrote E F s F' r) by (eapply wrote_chans; eauto).
  pose proof (C71_write E H F s F' r Se Wr) as V.
  assert (Vd : verdict (overflow_checks E) H s = Err EZeroLengthDataBlock).
  { unfold verdict. cbv zeta. cbn [first_of]. rewrite Traw. cbn [andb].
    assert (Uf : unfounded (all_objs H) (seg_objs s) = false).
    { apply founded. intros o Hin Hi. rewrite So in Hin. destruct omit; [destruct Hin|]. unfold call_objs in Hin.
      apply in_map_iff in Hin. destruct Hin as [p [<- Hp]]. cbn [om_idx om_path] in *.
      destruct (C14_incremental E H F Se) as [_ [Hf _]]. rewrite <- Hf.
      destruct (channel_format (tf_ix F) p); discriminate. }
    assert (Na : lenN (active_after (H ++ [s])) =? 0 = false).
    { rewrite Ac. destruct omit.
      - assert (Co : continues (active_after H) chans) by now apply Ho.
        destruct Co as [Co _]. destruct (active_after H); [congruence|rewrite lenN_cons; lia].
      - destruct chans; [congruence|rewrite lenN_cons; lia]. }
    rewrite Uf, Na. change (lenN (@nil (carrier t))) with 0 in Snext.
    replace (sg_next s <? sg_raw s) with false by lia. replace (sg_next s =? sg_raw s) with true by lia. reflexivity. }
  rewrite Vd in V. split; [exact V|].
  pose proof (wrote_plain _ _ _ _ _ Wr) as Ps.
  pose proof (C71_verdict E H (tf_ix F) s Acc Pl Ps) as Va. rewrite Vd in Va.
  destruct (add_segment E (tf_ix F) s) as [ix' ra] eqn:Ad. cbn [snd] in Va. subst ra.
  apply tdms_new_iff in Op. destruct Op as [Bd _].
  assert (Rs : (exists x, build_index E (tf_bytes F') = Err x) -> exists x, tdms_new E (tf_bytes F') = Err x).
  { intros [x X]. exists x. unfold tdms_new. now rewrite X. }
  apply Rs. rewrite Eb. pose proof (f_equal fst Ebs) as B1. pose proof (f_equal snd Ebs) as B2. cbn [fst snd] in B1, B2.
  destruct omit.
  - exists (EIo UnexpectedEof). apply (reopen_err E _ _ _ _ Bd Hn Hm); [|discriminate].
    rewrite B1, <- (app_nil_r (fst _)). rewrite segment_no_meta by reflexivity. reflexivity.
  - exists EZeroLengthDataBlock. apply (reopen_refused E _ _ _ s ix' _ Bd Hn Hm); [|exact Ad].
    rewrite B1, B2, <- (app_nil_r (fst _)). apply segment_round_trip.
    + exact (good_call_meta E F _ Gc).
    + rewrite B2 in Lbs, Snext. change (sg_next (snd ?x)) with (sg_next (snd x)) in *.
      cbn [slice_block wb_size]. rewrite Eb, lenN_app, Lbs in Lf.
      unfold write_segment in Lf. cbn [snd sg_next slice_block wb_size] in Lf. lia.
Qed.

(** ** Data that is never taken for metadata *)
Lemma dec4_repeat e x n : dec_uint e 4 (repeat x n)
  = if Nat.ltb n 4 then Err (EIo UnexpectedEof) else Ok (uint_val e [x; x; x; x], repeat x (n - 4)).
Proof.
  unfold dec_uint, read_exact. change (N.of_nat 4) with 4.
  assert (L : lenN (repeat x n) = N.of_nat n) by (unfold lenN; now rewrite repeat_length). rewrite L.
  destruct (Nat.ltb n 4) eqn:Q.
  - replace (4 <=? N.of_nat n) with false by (apply Nat.ltb_lt in Q; lia). reflexivity.
  - apply Nat.ltb_ge in Q. replace (4 <=? N.of_nat n) with true by lia.
    assert (E4 : n = (4 + (n - 4))%nat) by lia. change (N.to_nat 4) with 4%nat.
    rewrite E4 at 1 2. rewrite repeat_app. reflexivity.
Qed.
Lemma unread E e x n : x = xff \/ x = x01 -> exists y, read_metadata E e (repeat x n) = Err y /\ y <> EEndOfFile.
Proof.
  intros Hx. unfold read_metadata. rewrite dec4_repeat.
  destruct (Nat.ltb n 4); [cbn [bind]; eexists; split; [reflexivity|discriminate]|]. cbn [bind].
  set (w := uint_val e [x; x; x; x]).
  assert (Hw : x = xff /\ w = 4294967295 \/ x = x01 /\ w = 16843009).
  { unfold w. destruct Hx as [-> | ->], e; vm_compute; auto. }
  assert (Wp : 0 < w) by lia.
  destruct (alloc_ok E AObjects w); [|eexists; split; [reflexivity|discriminate]].
  cbn [read_objs]. replace (w =? 0) with false by lia.
  unfold read_obj, dec, dec_str. rewrite dec4_repeat. fold w.
  destruct (Nat.ltb _ 4); [cbn [bind]; eexists; split; [reflexivity|discriminate]|]. cbn [bind].
  destruct (alloc_ok E AString w); [|cbn [bind]; eexists; split; [reflexivity|discriminate]].
  unfold read_exact. destruct (w <=? _) eqn:Lw; [|cbn [bind]; eexists; split; [reflexivity|discriminate]]. cbn [bind].
  set (k := (n - 4 - 4)%nat) in *.
  assert (Lk : (N.to_nat w <= k)%nat) by (unfold lenN in Lw; rewrite repeat_length in Lw; lia).
  assert (Ek : k = (N.to_nat w + (k - N.to_nat w))%nat) by lia.
  assert (Ef : firstn (N.to_nat w) (repeat x k) = repeat x (N.to_nat w)).
  { rewrite Ek, repeat_app, firstn_app, repeat_length, Nat.sub_diag, firstn_all2 by (rewrite repeat_length; lia).
    cbn [firstn]. apply app_nil_r. }
  assert (Es : skipn (N.to_nat w) (repeat x k) = repeat x (k - N.to_nat w)).
  { rewrite Ek at 1. rewrite repeat_app, skipn_app, repeat_length, Nat.sub_diag, skipn_all2 by (rewrite repeat_length; lia). reflexivity. }
  rewrite Ef, Es.
  destruct (utf8_valid (repeat x (N.to_nat w))) eqn:U; [|cbn [bind]; eexists; split; [reflexivity|discriminate]]. cbn [bind].
  destruct Hw as [[-> Hw]|[-> Hw]].
  { exfalso. destruct (N.to_nat w) as [|j] eqn:Ej; [lia|]. cbn [repeat utf8_valid] in U. vm_compute in U. discriminate. }
  unfold read_rawidx. rewrite dec4_repeat.
  destruct (Nat.ltb _ 4); [cbn [bind]; eexists; split; [reflexivity|discriminate]|]. cbn [bind]. fold w. rewrite Hw.
  cbn [N.eqb Pos.eqb]. change (1762787328 <=? 16843009) with false. change (1762852864 <=? 16843009) with false. cbn [andb].
  unfold read_dtype. rewrite dec4_repeat.
  destruct (Nat.ltb _ 4); [cbn [bind]; eexists; split; [reflexivity|discriminate]|]. cbn [bind]. fold w. rewrite Hw.
  change (dtype_of_code 16843009) with (@None dtype). cbn [bind]. eexists; split; [reflexivity|discriminate].
Qed.

Lemma unread_value t : fixed t -> exists (v : carrier t) x n, (x = xff \/ x = x01) /\ rust_value t v /\ forall e, enc e t v = repeat x n.
Proof.
  intros [A [B C]]. destruct t; try congruence;
    first [ exists (-1)%Z, xff, 1%nat; split; [now left|]; split; [unfold rust_value, in_signed; cbn; lia|intros []; vm_compute; reflexivity]
          | exists (-1)%Z, xff, 2%nat; split; [now left|]; split; [unfold rust_value, in_signed; cbn; lia|intros []; vm_compute; reflexivity]
          | exists (-1)%Z, xff, 4%nat; split; [now left|]; split; [unfold rust_value, in_signed; cbn; lia|intros []; vm_compute; reflexivity]
          | exists (-1)%Z, xff, 8%nat; split; [now left|]; split; [unfold rust_value, in_signed; cbn; lia|intros []; vm_compute; reflexivity]
          | exists 255, xff, 1%nat; split; [now left|]; split; [reflexivity|intros []; vm_compute; reflexivity]
          | exists 65535, xff, 2%nat; split; [now left|]; split; [reflexivity|intros []; vm_compute; reflexivity]
          | exists 4294967295, xff, 4%nat; split; [now left|]; split; [reflexivity|intros []; vm_compute; reflexivity]
          | exists 18446744073709551615, xff, 8%nat; split; [now left|]; split; [reflexivity|intros []; vm_compute; reflexivity]
          | exists true, x01, 1%nat; split; [now right|]; split; [exact Logic.I|intros []; vm_compute; reflexivity]
          | exists (4294967295, 4294967295), xff, 8%nat; split; [now left|]; split; [split; reflexivity|intros []; vm_compute; reflexivity]
          | exists (18446744073709551615, 18446744073709551615), xff, 16%nat; split; [now left|]; split; [split; reflexivity|intros []; vm_compute; reflexivity] ].
Qed.
Lemma unread_values e t (v : carrier t) x n m : enc e t v = repeat x n ->
  concat (map (enc e t) (repeat v m)) = repeat x (m * n).
Proof.
  intros Hv. induction m as [|m IH]; [reflexivity|]. cbn [repeat map concat Nat.mul]. now rewrite IH, Hv, repeat_app.
Qed.

(** ** C80 *)
(** A call with the current channels, in the same number, succeeds for every
    choice of values; for some of them the file can no longer be opened. *)
Theorem C80_lost : forall E e H F t lay k chans,
  session E H F -> tdms_new E (tf_bytes F) = Ok F -> exact_end H F ->
  fixed t -> NoDup chans -> chans <> [] -> 0 < k ->
  sized_now H -> chunk_bytes (active_formats H) < 2 ^ 64 -> room E F t k chans ->
  continues (active_after H) chans ->
  exists vs F' x, values_for t k chans vs /\ write_channels_e E e t F chans vs lay = (F', Ok tt)
    /\ tdms_new E (tf_bytes F') = Err x.
Proof.
  intros E e H F t lay k chans Se Op Ex Fx Nd Ne Pk Sd Ck Rm Co.
  destruct (unread_value t Fx) as [v [x [n [Hx [Rv He]]]]].
  set (m := N.to_nat (lenN chans * k)). set (vs := repeat v m).
  assert (Pc : 0 < lenN chans) by (destruct chans; [congruence|rewrite lenN_cons; lia]).
  assert (Lv : lenN vs = lenN chans * k) by (unfold vs, lenN at 1; rewrite repeat_length; unfold m; lia).
  assert (Vf : values_for t k chans vs).
  { split; [|exact Lv]. apply Forall_forall. intros y Hy. apply repeat_spec in Hy. now subst. }
  assert (Dv : lenN vs mod lenN chans = 0) by (rewrite Lv, N.mul_comm, N.mod_mul; lia).
  destruct (write_channels_e E e t F chans vs lay) as [F' r] eqn:Ew.
  destruct (the_segment E e H F t chans vs lay Se Fx Nd Ne Dv)
    as [omit [s [bs [Est [Ho [Ebs [_ [_ [_ [Snext [_ [Lbs [_ [_ Rz]]]]]]]]]]]]]].
  assert (omit = true) as -> by now apply Ho. specialize (Rz eq_refl).
  assert (Eb : tf_bytes F' = tf_bytes F ++ bs).
  { unfold write_channels_e in Ew. rewrite Est in Ew. destruct (add_segment E (tf_ix F) s). injection Ew as <- _. reflexivity. }
  destruct Rm as [X1 X2].
  assert (Lf : lenN (tf_bytes F') = lenN (tf_bytes F) + 28 + lenN chans * k * size_bytes t).
  { rewrite Eb, lenN_app, Lbs, Snext, Rz, Lv. lia. }
  assert (Kp : 0 < lenN chans * k) by nia.
  pose proof (C39_outcome E e H F t chans vs lay F' r Se Ex Fx (proj1 Vf) Nd Sd Ck Ew ltac:(lia)) as R.
  replace (lenN chans =? 0) with false in R by lia. rewrite Dv in R. cbn [N.eqb] in R.
  replace (lenN vs =? 0) with false in R by (rewrite Lv; lia). subst r.
  destruct (unread E e x (m * n) Hx) as [y [Ry Ny]].
  exists vs, F', y. split; [exact Vf|]. split; [exact Ew|].
  assert (Hn : ix_next (tf_ix F) = lenN (tf_bytes F)).
  { destruct (session_accepted _ _ _ Se) as [Ac _]. destruct (accepted_described _ _ _ Ac) as [_ [Hn _]].
    rewrite Hn. exact Ex. }
  apply tdms_new_iff in Op. destruct Op as [Bd _].
  unfold tdms_new. rewrite Eb. pose proof (f_equal fst Ebs) as B1. cbn [fst] in B1.
  rewrite (reopen_err E _ _ bs y Bd Hn); [reflexivity|lia| |exact Ny].
  rewrite B1, <- (app_nil_r (fst _)). rewrite segment_no_meta.
  - cbn [slice_block wb_bytes]. rewrite app_nil_r. unfold vs. rewrite (unread_values e t v x n m (He e)), Ry. reflexivity.
  - cbn [slice_block wb_size]. rewrite Lv. lia.
Qed.

Theorem C80_exactly : forall E e H F t lay k chans,
  session E H F -> tdms_new E (tf_bytes F) = Ok F -> exact_end H F ->
  fixed t -> NoDup chans -> chans <> [] -> 0 < k ->
  sized_now H -> chunk_bytes (active_formats H) < 2 ^ 64 -> room E F t k chans ->
  (forall vs, values_for t k chans vs -> good_call E (CallChans e t chans vs lay)) ->
  (forall vs F', values_for t k chans vs -> write_channels_e E e t F chans vs lay = (F', Ok tt) ->
     tdms_new E (tf_bytes F') = Ok F')
  <-> ~ continues (active_after H) chans.
Proof.
  intros E e H F t lay k chans Se Op Ex Fx Nd Ne Pk Sd Ck Rm Gc. split.
  - intros Sv Co. destruct (C80_lost E e H F t lay k chans Se Op Ex Fx Nd Ne Pk Sd Ck Rm Co) as [vs [F' [x [Vf [Ew Er]]]]].
    rewrite (Sv vs F' Vf Ew) in Er. discriminate.
  - intros Nc vs F' Vf Ew.
    destruct (session_accepted _ _ _ Se) as [Ac _]. destruct (accepted_described _ _ _ Ac) as [_ [Hn [_ [Ha _]]]].
    refine (proj1 (reopen_call E F (CallChans e t chans vs lay) F' Op _ _ (Gc vs Vf) _ Ew)).
    + rewrite Hn. exact Ex.
    + destruct Rm. lia.
    + left. now rewrite Ha.
Qed.

(** After the two values each of [C77_F]: a call for [b] and [a] in this order
    survives; one for [a] and [b] may not. *)
Definition C80_chans (swap : bool) : list str := if swap then [b; a] else [a; b].
Example C80_case : let H := [C77_s] in let F := C77_F in
  session dbg H F /\ tdms_new dbg (tf_bytes F) = Ok F /\ exact_end H F /\ fixed SI32
  /\ sized_now H /\ chunk_bytes (active_formats H) < 2 ^ 64
  /\ (forall swap, let chans := C80_chans swap in
        NoDup chans /\ chans <> [] /\ room dbg F SI32 2 chans
        /\ (forall vs, values_for SI32 2 chans vs -> good_call dbg (CallChans LittleE SI32 chans vs Contigious))
        /\ (continues (active_after H) chans <-> swap = false))
  /\ (let '(F', r) := write_channels dbg SI32 F [b; a] [-1; -1; -1; -1]%Z Contigious in
      r = Ok tt /\ tdms_new dbg (tf_bytes F') = Ok F')
  /\ (let '(F', r) := write_channels dbg SI32 F [a; b] [-1; -1; -1; -1]%Z Contigious in
      r = Ok tt /\ tdms_new dbg (tf_bytes F') = Err EVecAllocationFailed).
Proof.
  destruct C77_case as [Se [Ex [Fx [Nd [Sd _]]]]]. cbv zeta.
  split; [exact Se|]. split; [vm_compute; reflexivity|]. split; [exact Ex|]. split; [exact Fx|]. split; [exact Sd|].
  split; [vm_compute; reflexivity|]. split.
  { intros swap.
    assert (Ac : active_after [C77_s] = [a; b]) by (vm_compute; reflexivity). rewrite Ac.
    assert (Gs : Forall (good_str dbg) [b; a]).
    { repeat (apply Forall_cons || apply Forall_nil); (split; [apply utf8_valid_iff; vm_compute; reflexivity|split; vm_compute; reflexivity]). }
    split; [destruct swap; [|exact Nd]; cbn [C80_chans]; apply NoDup_cons; [cbn; intuition discriminate|apply NoDup_cons; [intros []|apply NoDup_nil]]|].
    split; [destruct swap; discriminate|].
    split; [destruct swap; split; vm_compute; [reflexivity|discriminate|reflexivity|discriminate]|].
    split.
    - intros vs [_ Lv].
      assert (L4 : lenN vs = 4) by (rewrite Lv; destruct swap; reflexivity).
      cbn [good_call]. split.
      + destruct swap; [exact Gs|]. inversion Gs as [|? ? G1 G2]; subst. inversion G2; subst. cbn [C80_chans].
        repeat (apply Forall_cons || apply Forall_nil); assumption.
      + rewrite L4. destruct swap; repeat split; try discriminate; vm_compute; reflexivity.
    - destruct swap; cbn [C80_chans]; split; try discriminate.
      + intros [_ [[r X]|[r X]]]; discriminate.
      + reflexivity.
      + intros _. split; [discriminate|left; now exists []]. }
  split; vm_compute; split; reflexivity.
Qed.

(** The four outcomes of data calls on the same file. *)
Example C39_outcome_case : let H := [C77_s] in let F := C77_F in
  session dbg H F /\ exact_end H F /\ sized_now H /\ chunk_bytes (active_formats H) < 2 ^ 64
  /\ snd (write_channels dbg SI32 F [] [1]%Z Interleaved) = Err ENoChannels
  /\ snd (write_channels dbg SI32 F [a; b] [1; 2; 3]%Z Interleaved) = Err (EBadDataBlockLength 3 2)
  /\ snd (write_channels dbg SI32 F [a; b] [] Interleaved) = Err EZeroLengthDataBlock
  /\ snd (write_channels dbg SF64 F [b; a; c] [1; 2; 3] Interleaved) = Ok tt.
Proof.
  destruct C77_case as [Se [Ex [_ [_ [Sd _]]]]]. cbv zeta. repeat (split; [assumption|]).
  split; [vm_compute; reflexivity|]. repeat split; vm_compute; reflexivity.
Qed.

(** A call without values on the same file, with and without metadata. *)
Example C39_no_values_always_case : let F := C77_F in
  tdms_new dbg (tf_bytes F) = Ok F /\ ix_next (tf_ix F) = lenN (tf_bytes F)
  /\ (let '(F', r) := write_channels dbg SI32 F [a; b] [] Contigious in
      r = Err EZeroLengthDataBlock /\ tdms_new dbg (tf_bytes F') = Err (EIo UnexpectedEof))
  /\ (let '(F', r) := write_channels dbg SI32 F [c] [] Contigious in
      r = Err EZeroLengthDataBlock /\ tdms_new dbg (tf_bytes F') = Err EZeroLengthDataBlock).
Proof. cbv zeta. repeat split; vm_compute; reflexivity. Qed.

Print Assumptions C39_outcome.
Print Assumptions C39_no_values_always.
Print Assumptions C80_lost.
Print Assumptions C80_exactly.
