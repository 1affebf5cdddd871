(** * C85 Exactly which element types can be written *)
From Coq Require Import Strings.String.
From Verif Require Import Base Lib DataTypes MetaData Maps DataBlock Index RawData ChannelReader TdmsFile Vectors
  SpecCodec SpecIndex SpecSession SpecRead SpecWrite Codec_proofs Segment_proofs Index_proofs History_proofs
  Session_proofs Block_proofs Request_proofs Plan_proofs Read_proofs Add_proofs Thm_Index Thm_Read Write_proofs
  Step_proofs Program_proofs Thm_Write SpecExact Exact_proofs Thm_Exact SpecAppend Thm_Append.
Close Scope string_scope.
Local Notation a := (ch "g" "a").
Local Notation b := (ch "g" "b").
Local Notation c := (ch "g" "c").

(** A call with metadata, for any element type. *)
Lemma any_segment E e H F t chans vs lay F' : session E H F -> NoDup chans -> chans <> [] -> lenN vs mod lenN chans = 0 ->
  ~ continues (active_after H) chans -> write_channels_e E e t F chans vs lay = (F', Ok tt) ->
  exists s, session E (H ++ [s]) F' /\ sg_next s = sg_raw s + lenN vs * size_bytes t /\ toc_raw (sg_toc s) = true
  /\ active_after (H ++ [s]) = chans
  /\ active_formats (H ++ [s]) = map (fun _ => mkRaw (natural t) (lenN vs / lenN chans) None) chans
  /\ (forall p, In p chans -> mentioned (all_objs (H ++ [s])) p)
  /\ lenN (tf_bytes F') = lenN (tf_bytes F) + 28 + sg_raw s + lenN (concat (map (enc e t) vs))
  /\ ix_next (tf_ix F') = ix_next (tf_ix F) + 28 + sg_next s.
Proof.
  intros Se Nd Ne Dv Nc Ew. destruct (session_accepted _ _ _ Se) as [Ac Pl].
  destruct (accepted_described _ _ _ Ac) as [_ [Hn [_ [Ha [_ [Hf _]]]]]].
  destruct (call_stream e t (tf_ix F) chans vs lay Ne Dv) as [omit [Ho Es]]. rewrite Ha in Ho.
  assert (omit = false) as -> by (destruct omit; [exfalso; apply Nc; now apply Ho|reflexivity]).
  set (m := call_meta t vs chans) in *. set (md := Some (call_objs (tf_ix F) m chans)) in *.
  set (w := write_segment e (call_toc lay false) md (Some (slice_block e t vs))) in *.
  exists (snd w).
  assert (Ss : snd w = mkSeg (write_toc_flags e (call_toc lay false) true true)
      (metadata_size (call_objs (tf_ix F) m chans) + lenN vs * size_bytes t)
      (metadata_size (call_objs (tf_ix F) m chans)) md) by reflexivity.
  assert (So : seg_objs (snd w) = call_objs (tf_ix F) m chans) by (rewrite Ss; reflexivity).
  assert (Se' : session E (H ++ [snd w]) F').
  { eapply ss_write; [exact Se|]. eapply wrote_chans; [rewrite Es; f_equal; apply surjective_pairing|exact Ew]. }
  assert (Act : active_after (H ++ [snd w]) = chans).
  { rewrite active_after_snoc. unfold act_seg. rewrite So, Ss.
    change (toc_newlist (sg_toc _)) with true. cbv iota.
    unfold call_objs. apply (fold_act chans _ []); [|exact Nd].
    intros p. destruct (channel_format (tf_ix F) p) as [l|]; [destruct (rawmeta_eqb l m)|]; discriminate. }
  split; [exact Se'|]. split; [rewrite Ss; reflexivity|]. split; [rewrite Ss; reflexivity|]. split; [exact Act|].
  split.
  { unfold active_formats. rewrite Act. apply map_ext_in. intros p Hp.
    rewrite all_objs_snoc. unfold last_format. rewrite fold_left_app, So.
    fold (last_format (all_objs H) p).
    destruct (fold_fmt_call p m (tf_ix F) (last_format (all_objs H) p) (eq_sym (Hf p)) chans _ (or_introl eq_refl)) as [A _].
    now rewrite (A Hp). }
  split.
  { intros p Hp. unfold mentioned. rewrite all_objs_snoc, map_app. apply in_or_app. rewrite So. right.
    unfold call_objs. rewrite map_map. cbn [om_path]. now rewrite map_id. }
  split.
  { assert (Wl : lenN (fst w) = LEAD_IN + metadata_size (call_objs (tf_ix F) m chans) + lenN (concat (map (enc e t) vs)))
      by apply write_segment_len.
    rewrite Ss. cbn [sg_raw]. clear Ss So. clearbody w.
    unfold write_channels_e in Ew. rewrite Es in Ew. destruct w as [bs s]. destruct (add_segment E (tf_ix F) s) as [ix' r'].
    apply (f_equal fst) in Ew. cbn [fst] in Ew, Wl. subst F'. cbn [tf_bytes]. rewrite lenN_app, Wl. unfold LEAD_IN. lia. }
  destruct (session_accepted _ _ _ Se') as [Ac' _]. destruct (accepted_described _ _ _ Ac') as [_ [Hn' _]].
  rewrite Hn', Hn, offset_snoc. unfold LEAD_IN. lia.
Qed.

Lemma chunk_same m : forall (chans : list str), chunk_bytes (map (fun _ => m) chans) = lenN chans * (rm_n m * dtype_size (rm_type m)).
Proof.
  induction chans as [|x chans IH]; [reflexivity|]. cbn [map chunk_bytes fold_right]. fold (chunk_bytes (map (fun _ => m) chans)).
  rewrite IH, lenN_cons. lia.
Qed.

(** How many values per value written the channels gain. *)
Definition per_value (t : sty) : N := match t with STime => 2 | SStr => 0 | _ => 1 end.
Theorem C85_gains : forall E e H F t lay k chans vs F' p,
  session E H F -> NoDup chans -> chans <> [] -> 0 < k -> ~ continues (active_after H) chans ->
  lenN vs = lenN chans * k -> write_channels_e E e t F chans vs lay = (F', Ok tt) ->
  In p chans -> length_after H p + 2 * k < 2 ^ 64 ->
  channel_length E F' p = Ok (Some (length_after H p + per_value t * k)).
Proof.
  intros E e H F t lay k chans vs F' p Se Nd Ne Pk Nc Lv Ew Hp Le.
  assert (Pc : 0 < lenN chans) by (destruct chans; [congruence|rewrite lenN_cons; lia]).
  assert (Dv : lenN vs mod lenN chans = 0) by (rewrite Lv, N.mul_comm; apply N.mod_mul; lia).
  assert (Dk : lenN vs / lenN chans = k) by (rewrite Lv, N.mul_comm; apply N.div_mul; lia).
  destruct (any_segment E e H F t chans vs lay F' Se Nd Ne Dv Nc Ew) as [s [Se' [Sn [Tr [Act [Af [Me _]]]]]]].
  rewrite Dk in Af.
  assert (Ga : length_after (H ++ [s]) p = length_after H p + per_value t * k).
  { rewrite length_after_snoc, Tr, Act. unfold samples_in.
    change (b_chans (block_of H s)) with (active_formats (H ++ [s])). rewrite Af.
    pose proof Hp as Hi. apply In_nth_error in Hi. destruct Hi as [i Hi]. change (@nth_error str chans i = Some p) in Hi.
    rewrite (samples_in_nth p _ chans _ i (mkRaw (natural t) k None) Nd Hi)
      by (exact (map_nth_error (fun _ => mkRaw (natural t) k None) i chans Hi)).
    cbn [rm_n]. f_equal. unfold whole_chunks. change (b_chans (block_of H s)) with (active_formats (H ++ [s])).
    rewrite Af, chunk_same. cbn [rm_n rm_type].
    assert (Bl : b_len (block_of H s) = lenN chans * k * size_bytes t) by (unfold block_of; cbn [b_len]; rewrite Sn, Lv; lia).
    rewrite Bl, (N.mul_assoc (lenN chans) k).
    assert (Px : 0 < lenN chans * k) by (clear -Pc Pk; nia). set (x := lenN chans * k) in *. clearbody x.
    assert (Q : forall d q, 0 < d -> (if x * d =? 0 then 0 else x * (q * d) / (x * d)) = q).
    { intros d q Pd. replace (x * d =? 0) with false by nia. replace (x * (q * d)) with (q * (x * d)) by lia.
      apply N.div_mul. nia. }
    enough (W : (if x * dtype_size (natural t) =? 0 then 0 else x * size_bytes t / (x * dtype_size (natural t))) = per_value t)
      by (rewrite W; lia).
    destruct t; first [exact (Q 1 1 eq_refl)|exact (Q 2 1 eq_refl)|exact (Q 4 1 eq_refl)|exact (Q 8 1 eq_refl)
      |exact (Q 16 1 eq_refl)|exact (Q 8 2 eq_refl)|cbn [natural dtype_size]; rewrite N.mul_0_r; reflexivity]. }
  destruct (C19_channel_length E _ F' p Se') as [C _]. rewrite Ga in C. apply C; [|now apply Me].
  destruct t; cbn [per_value]; lia.
Qed.

(** Bytes announced but not written: the next segment is expected beyond the
    end of what was written, by 6 bytes per extended float. *)
Theorem C85_extended_short : forall E e H F lay k chans vs F',
  session E H F -> NoDup chans -> chans <> [] -> 0 < k -> ~ continues (active_after H) chans ->
  lenN vs = lenN chans * k -> write_channels_e E e SExt F chans vs lay = (F', Ok tt) ->
  ix_next (tf_ix F') + lenN (tf_bytes F) = ix_next (tf_ix F) + lenN (tf_bytes F') + 6 * (lenN chans * k).
Proof.
  intros E e H F lay k chans vs F' Se Nd Ne Pk Nc Lv Ew.
  assert (Pc : 0 < lenN chans) by (destruct chans; [congruence|rewrite lenN_cons; lia]).
  assert (Dv : lenN vs mod lenN chans = 0) by (rewrite Lv, N.mul_comm; apply N.mod_mul; lia).
  destruct (any_segment E e H F SExt chans vs lay F' Se Nd Ne Dv Nc Ew) as [s [_ [Sn [_ [_ [_ [_ [Lb Nx]]]]]]]].
  assert (D : lenN (concat (map (enc e SExt) vs)) = 10 * lenN vs).
  { clear. induction vs as [|v vs IH]; [reflexivity|]. cbn [map concat]. rewrite lenN_app, IH, enc_size, lenN_cons. cbn [val_size]. lia. }
  rewrite Nx, Lb, Sn, D, Lv. cbn [size_bytes]. lia.
Qed.

Theorem C85_exactly : forall E e H F t lay k chans,
  session E H F -> exact_end H F -> NoDup chans -> chans <> [] -> 0 < k -> ~ continues (active_after H) chans ->
  (forall q, length_after H q < 2 ^ 63) -> k < 2 ^ 60 ->
  (fixed t -> roomy E e H F t lay k chans) -> sized_now H -> Forall (stored (tf_bytes F) t H) chans ->
  (forall vs F' r, values_for t k chans vs -> write_channels_e E e t F chans vs lay = (F', r) ->
     served E H F t lay chans vs F' r /\ ix_next (tf_ix F') = lenN (tf_bytes F')) <-> fixed t.
Proof.
  intros E e H F t lay k chans Se Ex Nd Ne Pk Nc Ls Kb Rm Sd St.
  assert (Pc : 0 < lenN chans) by (destruct chans; [congruence|rewrite lenN_cons; lia]).
  destruct (session_accepted _ _ _ Se) as [Ac Pl]. destruct (accepted_described _ _ _ Ac) as [_ [Hn _]].
  split.
  - intros K.
    assert (V : exists v, rust_value t v).
    { destruct t; cbn [rust_value carrier]; try (exists 0; reflexivity); try (exists 0%Z; unfold in_signed; lia).
      - now exists true.
      - exists []. apply utf8_valid_iff. reflexivity.
      - exists (0, 0); split; reflexivity.
      - exists (0, 0); split; reflexivity. }
    destruct V as [v Rv]. set (vs := repeat v (N.to_nat (lenN chans * k))).
    assert (Lv : lenN vs = lenN chans * k) by (unfold vs, lenN at 1; rewrite repeat_length; lia).
    assert (Vf : values_for t k chans vs).
    { split; [apply Forall_forall; intros y Hy; apply repeat_spec in Hy; now subst|exact Lv]. }
    destruct (write_channels_e E e t F chans vs lay) as [F' r] eqn:Ew.
    destruct (K vs F' r Vf Ew) as [[-> [Sv _]] Nx].
    assert (Hx : exists p cc, chans = p :: cc) by (destruct chans; [congruence|eauto]). destruct Hx as [p [cc Hx]].
    assert (Hp : In p chans) by (rewrite Hx; now left).
    destruct (Sv O p ltac:(rewrite Hx; reflexivity)) as [L1 _].
    assert (Lp : length_after H p + 2 * k < 2 ^ 64) by (specialize (Ls p); change (2 ^ 64) with (2 ^ 63 + 2 ^ 63); lia).
    rewrite (C85_gains E e H F t lay k chans vs F' p Se Nd Ne Pk Nc Lv Ew Hp Lp) in L1.
    injection L1 as L1. rewrite lenN_app, C36_samples_count in L1.
    assert (Ld : lenN (dealt lay (length chans) 0 vs) = k).
    { unfold lenN. rewrite (dealt_length lay (length chans) (N.to_nat k) 0 vs); [lia|rewrite Hx; cbn [length]; lia|].
      unfold lenN in Lv. nia. }
    split; [|split]; intros ->.
    + pose proof (C85_extended_short E e H F lay k chans vs F' Se Nd Ne Pk Nc Lv Ew) as Q.
      rewrite Hn, Nx, Ex in Q. clear -Q Pc Pk. nia.
    + cbn [per_value] in L1. lia.
    + cbn [per_value] in L1. lia.
  - intros Fx vs F' r Vf Ew. pose proof (proj2 (C82_exactly E e H F t lay k chans Se Fx Nd Ne Pk Sd (Rm Fx) Ls St) (conj Ex (or_introl Nc)) vs F' r Vf Ew) as Sv.
    split; [exact Sv|]. destruct Sv as [-> _]. destruct (val_count t k chans Nd Ne Pk vs Vf) as [Dv _].
    destruct (any_segment E e H F t chans vs lay F' Se Nd Ne Dv Nc Ew) as [s [_ [Sn [_ [_ [_ [_ [Lb Nx]]]]]]]].
    rewrite Nx, Lb, Sn, (data_len e t vs Fx), Hn, Ex. lia.
Qed.

(** On the file of C77, for a new channel: all hypotheses hold for every type;
    two timestamps, extended floats, strings. *)
Example C85_case : let H := [C77_s] in let F := C77_F in
  session dbg H F /\ exact_end H F /\ ~ continues (active_after H) [c] /\ (forall q, length_after H q < 2 ^ 63) /\ sized_now H
  /\ (forall t, fixed t -> roomy dbg LittleE H F t Contigious 2 [c]) /\ (forall t, Forall (stored (tf_bytes F) t H) [c])
  /\ (let '(F', r) := write_channels_e dbg LittleE STime F [c] [1; 2] Contigious in
      r = Ok tt /\ channel_length dbg F' c = Ok (Some 4))
  /\ (let '(F', r) := write_channels_e dbg LittleE SStr F [c] [B "ab"; B "c"] Contigious in
      r = Ok tt /\ channel_length dbg F' c = Ok (Some 0))
  /\ (let '(F', r) := write_channels_e dbg LittleE SExt F [c] [1; 2] Contigious in
      r = Ok tt /\ channel_length dbg F' c = Ok (Some 2) /\ ix_next (tf_ix F') = lenN (tf_bytes F') + 12).
Proof.
  destruct C77_case as [Se [Ex [_ [_ [Sd [_ [Ls _]]]]]]]. cbv zeta.
  split; [exact Se|]. split; [exact Ex|].
  split; [change (active_after [C77_s]) with [a; b]; intros [_ [[x X]|[x X]]]; discriminate|].
  split; [exact Ls|]. split; [exact Sd|]. split.
  { intros t Fx. assert (Nd : NoDup [c]) by (repeat constructor; cbn; intuition discriminate).
    assert (Z : size_bytes t <= 24) by (destruct t; cbn; lia).
    assert (Mz : metadata_size (call_objs (tf_ix C77_F) (mkRaw (natural t) 2 None) [c]) < 1000) by (destruct t; vm_compute; reflexivity).
    assert (L1 : lenN (tf_bytes C77_F) < 1000) by (vm_compute; reflexivity).
    assert (O1 : offset [C77_s] < 1000) by (vm_compute; reflexivity).
    assert (S1 : seek_max dbg = 2 ^ 64 - 1) by (vm_compute; reflexivity).
    change (lenN [c] * 2) with 2 in *.
    apply roomy_bound; try assumption; try discriminate; try reflexivity; change (lenN [c] * 2) with 2; rewrite ?S1; lia. }
  split; [intros t; constructor; [|constructor]; unfold stored; change (locs_after [C77_s] c) with (@nil loc); constructor|].
  vm_compute. repeat split.
Qed.

Print Assumptions C85_gains.
Print Assumptions C85_extended_short.
Print Assumptions C85_exactly.
