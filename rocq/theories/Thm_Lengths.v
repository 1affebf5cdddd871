(** * C84 The lengths of all channels after any data call *)
From Coq Require Import Strings.String.
From Verif Require Import Base Lib DataTypes MetaData Maps DataBlock Index RawData ChannelReader TdmsFile Vectors
  SpecCodec SpecIndex SpecSession SpecRead SpecWrite Codec_proofs Segment_proofs Index_proofs History_proofs
  Session_proofs Block_proofs Request_proofs Plan_proofs Read_proofs Add_proofs Thm_Index Thm_Read Write_proofs
  Step_proofs Program_proofs Thm_Write SpecExact Exact_proofs Thm_Exact SpecAppend Thm_Append.
Close Scope string_scope.
Local Notation a := (ch "g" "a").
Local Notation b := (ch "g" "b").
Local Notation c := (ch "g" "c").

Section Lengths.
Context (E : env) (e : endian) (H : list segment) (F : tfile) (t : sty) (lay : layout) (k : N) (chans : list str).
Context (Se : session E H F) (Fx : fixed t) (Nd : NoDup chans) (Ne : chans <> []) (Pk : 0 < k)
  (Rm : room E F t k chans) (Ls : forall q, length_after H q < 2 ^ 63).

(** A call that does not continue the channel list. *)
Lemma new_list vs F' : values_for t k chans vs -> write_channels_e E e t F chans vs lay = (F', Ok tt) ->
  ~ continues (active_after H) chans ->
  exists s, session E (H ++ [s]) F'
  /\ (forall q, In q chans -> mentioned (all_objs (H ++ [s])) q /\ length_after (H ++ [s]) q = length_after H q + k)
  /\ (forall q, ~ In q chans -> (mentioned (all_objs (H ++ [s])) q <-> mentioned (all_objs H) q)
                                /\ locs_after (H ++ [s]) q = locs_after H q).
Proof.
  intros Vf Ew Nc. destruct (val_count t k chans Nd Ne Pk vs Vf) as [Dv [Dk Nv]].
  destruct (the_segment E e H F t chans vs lay Se Fx Nd Ne Dv)
    as [omit [s [bs [Est [Ho [Ebs [Traw [Tint [Tbig [Snext [Ebyt [Lbs [So [Ac0 R0]]]]]]]]]]]]]].
  assert (omit = false) as -> by (destruct omit; [exfalso; apply Nc; now apply Ho|reflexivity]).
  destruct (the_described E H F t chans vs lay Se Fx Ne Dv Nv (or_introl Nc) false s Ho So Ac0)
    as [Act [_ [LfN [_ [_ [_ Men]]]]]].
  destruct (natural_size t Fx) as [_ [_ [_ Sa]]].
  assert (Um : Forall (fun x => rm_n x = k /\ In (rm_type x) (stored_as t)) (active_formats (H ++ [s]))).
  { unfold active_formats. rewrite Act. apply Forall_forall. intros x Hx. apply in_map_iff in Hx.
    destruct Hx as [p [<- Hp]]. rewrite (LfN Nc p Hp). unfold call_meta. cbn [rm_n rm_type]. auto. }
  assert (Dn : (lenN vs / lenN chans) mod k = 0) by (rewrite Dk; apply N.mod_same; lia).
  exists s. split; [eapply ss_write; [exact Se|]; eapply wrote_chans; eauto|]. split.
  - intros q Hq. split; [now apply Men|]. apply In_nth_error in Hq. destruct Hq as [i Hi]. change (@nth_error str chans i = Some q) in Hi.
    destruct (uniform_locs e H t chans vs lay Fx Nd Ne Nv Dv s k Traw Tint Snext Act Pk Dn Um q) as [Lo _].
    specialize (Lo i Hi). unfold length_after. rewrite <- (locs_sum q (H ++ [s]) []), <- (locs_sum q H []).
    fold (locs_after (H ++ [s]) q). fold (locs_after H q). rewrite Lo, fold_right_app. cbn [fold_right l_n]. rewrite Dk.
    clear. induction (locs_after H q) as [|l ls IH]; cbn [fold_right]; lia.
  - intros q Hq. destruct (uniform_locs e H t chans vs lay Fx Nd Ne Nv Dv s k Traw Tint Snext Act Pk Dn Um q) as [_ Lo].
    split; [|now apply Lo]. rewrite all_objs_snoc, So. unfold mentioned. rewrite map_app, in_app_iff. split; [|now left].
    intros [X|X]; [exact X|]. exfalso. apply Hq. unfold call_objs in X. rewrite map_map, map_id in X. exact X.
Qed.
Lemma same_length F' s q : session E (H ++ [s]) F' -> (mentioned (all_objs (H ++ [s])) q <-> mentioned (all_objs H) q) ->
  length_after (H ++ [s]) q = length_after H q -> channel_length E F' q = channel_length E F q.
Proof.
  intros Se' Me Le. destruct (C19_channel_length E H F q Se) as [A1 A2]. destruct (C19_channel_length E _ F' q Se') as [B1 B2].
  specialize (Ls q).
  destruct (in_dec (list_eq_dec Byte.byte_eq_dec) q (map om_path (all_objs H))) as [M|M].
  - rewrite A1, B1; [now rewrite Le| |now apply Me| |exact M]; rewrite ?Le; etransitivity; try apply Ls; reflexivity.
  - transitivity (@Ok (option N) None); [|symmetry; now apply A2]. apply B2. now rewrite Me.
Qed.
End Lengths.

Theorem C84_lengths : forall E e H F t lay k chans vs F',
  session E H F -> fixed t -> NoDup chans -> chans <> [] -> 0 < k -> sized_now H -> room E F t k chans ->
  (forall q, length_after H q < 2 ^ 63) ->
  values_for t k chans vs -> write_channels_e E e t F chans vs lay = (F', Ok tt) ->
  forall q,
  (~ continues (active_after H) chans ->
     (In q chans -> channel_length E F' q = Ok (Some (length_after H q + k)))
     /\ (~ In q chans -> channel_length E F' q = channel_length E F q))
  /\ (continues (active_after H) chans ->
     (forall i m, nth_error (active_after H) i = Some q -> nth_error (active_formats H) i = Some m ->
        channel_length E F' q
        = Ok (Some (length_after H q + rm_n m * (lenN chans * k * size_bytes t / chunk_bytes (active_formats H)))))
     /\ (~ In q (active_after H) -> channel_length E F' q = channel_length E F q)).
Proof.
  intros E e H F t lay k chans vs F' Se Fx Nd Ne Pk Sd Rm Ls Vf Ew q. split.
  - intros Nc. destruct (new_list E e H F t lay k chans Se Fx Nd Ne Pk Ls vs F' Vf Ew Nc) as [s [Se' [Pi Po]]]. split.
    + intros Hq. destruct (Pi q Hq) as [Me Le]. destruct (C19_channel_length E _ F' q Se') as [B _]. rewrite Le in B.
      apply B; [|exact Me]. specialize (Ls q). destruct Rm as [R1 _]. destruct (natural_size t Fx) as [_ [_ [Ps _]]].
      assert (Pc : 0 < lenN chans) by (destruct chans; [congruence|rewrite lenN_cons; lia]).
      assert (k <= lenN chans * k * size_bytes t) by (clear -Pc Ps; rewrite <- N.mul_assoc, (N.mul_comm k), N.mul_assoc;
        rewrite <- (N.mul_1_l k) at 1; apply N.mul_le_mono_r; nia). change (2 ^ 64) with (2 ^ 63 + 2 ^ 63). lia.
    + intros Hq. destruct (Po q Hq) as [Me Lo]. apply (same_length E H F Se Ls F' s q Se' Me).
      unfold length_after. rewrite <- (locs_sum q (H ++ [s]) []), <- (locs_sum q H []).
      fold (locs_after (H ++ [s]) q). fold (locs_after H q). now rewrite Lo.
  - intros Co. destruct (continued E e H F t lay k chans Se Fx Nd Ne Pk Sd Rm Ls Co vs F' (Ok tt) Vf Ew eq_refl)
      as [s [bs [Se' [_ [_ [_ [_ [_ [_ [_ [_ [Sn [_ [_ [Ac [Af [Ao [Out [Inn Lt]]]]]]]]]]]]]]]]]]].
    destruct (active_good E H F Se) as [Na Am]. split.
    + intros i m Hi Hm. destruct (C19_channel_length E _ F' q Se') as [B _]. specialize (Lt q). rewrite (Inn i q m Hi Hm) in B, Lt.
      rewrite B; [|exact Lt|rewrite Ao; apply Am; eapply nth_error_In; eauto]. do 3 f_equal.
      unfold whole_chunks. change (b_chans (block_of H s)) with (active_formats (H ++ [s])). rewrite Af.
      assert (Bl : b_len (block_of H s) = lenN chans * k * size_bytes t).
      { unfold block_of. cbn [b_len]. destruct Vf as [_ Lv]. rewrite Sn, Lv. lia. }
      rewrite Bl. destruct (chunk_bytes (active_formats H) =? 0) eqn:Z; [|reflexivity].
      replace (chunk_bytes (active_formats H)) with 0 by lia. now destruct (lenN chans * k * size_bytes t).
    + intros Hq. apply (same_length E H F Se Ls F' s q Se'); [now rewrite Ao|now apply Out].
Qed.

Theorem C84_others_exactly : forall E e H F t lay k chans vs F',
  session E H F -> fixed t -> NoDup chans -> chans <> [] -> 0 < k -> sized_now H -> room E F t k chans ->
  (forall q, length_after H q < 2 ^ 63) ->
  values_for t k chans vs -> write_channels_e E e t F chans vs lay = (F', Ok tt) ->
  (forall q, ~ In q chans -> channel_length E F' q = channel_length E F q)
  <-> (~ continues (active_after H) chans
       \/ (exists more, chans = active_after H ++ more)
       \/ lenN chans * k * size_bytes t < chunk_bytes (active_formats H)).
Proof.
  intros E e H F t lay k chans vs F' Se Fx Nd Ne Pk Sd Rm Ls Vf Ew.
  pose proof (C84_lengths E e H F t lay k chans vs F' Se Fx Nd Ne Pk Sd Rm Ls Vf Ew) as L.
  destruct (active_good E H F Se) as [Na Am].
  assert (Dc : continues (active_after H) chans \/ ~ continues (active_after H) chans).
  { destruct (val_count t k chans Nd Ne Pk vs Vf) as [Dv _].
    destruct (the_segment E e H F t chans vs lay Se Fx Nd Ne Dv) as [omit [s [bs [_ [Ho _]]]]].
    destruct omit; [left; now apply Ho|right; intros X; apply Ho in X; discriminate]. }
  split.
  - intros O. destruct Dc as [Co|Nc]; [right|now left]. pose proof Co as [Na0 [[more X]|[more X]]]; [left; now exists more|].
    destruct more as [|x more]; [left; exists []; rewrite app_nil_r in X; rewrite app_nil_r; congruence|]. right.
    assert (Hx : ~ In x chans).
    { intros Hin. rewrite X in Na. apply NoDup_remove_2 in Na. apply Na. apply in_or_app. now left. }
    assert (Hi : nth_error (active_after H) (length chans) = Some x) by (rewrite X, nth_error_app2, Nat.sub_diag by lia; reflexivity).
    destruct (nth_error (active_formats H) (length chans)) as [m|] eqn:Hm.
    2: { apply nth_error_None in Hm. unfold active_formats in Hm. rewrite map_length, X, app_length in Hm. cbn [length] in Hm. lia. }
    destruct (L x) as [_ Lc]. destruct (Lc Co) as [Lc1 _]. specialize (Lc1 _ m Hi Hm). rewrite (O x Hx) in Lc1.
    destruct (C19_channel_length E H F x Se) as [A _]. specialize (Ls x).
    rewrite A in Lc1; [|etransitivity; [apply Ls|reflexivity]|apply Am; eapply nth_error_In; eauto].
    injection Lc1 as Lc1. unfold sized_now in Sd. rewrite Forall_forall in Sd. destruct (Sd m (nth_error_In _ _ Hm)) as [Pm Wm].
    pose proof (chunk_bound _ _ _ Hm) as Cb. rewrite (width_dtype (rm_type m) Wm) in Cb.
    assert (Pc : 0 < chunk_bytes (active_formats H)) by nia.
    assert (Z : lenN chans * k * size_bytes t / chunk_bytes (active_formats H) = 0) by nia.
    apply N.div_small_iff in Z; lia.
  - intros D q Hq. destruct (L q) as [Ln Lc]. destruct Dc as [Co|Nc]; [|now apply Ln].
    destruct (Lc Co) as [L1 L2].
    destruct (in_dec (list_eq_dec Byte.byte_eq_dec) q (active_after H)) as [Hin|Hin]; [|now apply L2].
    destruct D as [Nc|[[more X]|D]]; [contradiction|exfalso; apply Hq; rewrite X; apply in_or_app; now left|].
    pose proof (Am q Hin) as Me. apply In_nth_error in Hin. destruct Hin as [i Hi]. change (@nth_error str (active_after H) i = Some q) in Hi.
    destruct (nth_error (active_formats H) i) as [m|] eqn:Hm.
    2: { apply nth_error_None in Hm. unfold active_formats in Hm. rewrite map_length in Hm.
         assert (nth_error (active_after H) i = None) by now apply nth_error_None. congruence. }
    rewrite (L1 i m Hi Hm), N.div_small by exact D. rewrite N.mul_0_r, N.add_0_r.
    destruct (C19_channel_length E H F q Se) as [A _]. symmetry. apply A; [|exact Me]. etransitivity; [apply Ls|reflexivity].
Qed.

(** After the call of C77 (two values each for [a] and [b], 16 bytes a chunk):
    writing three values to [a] alone leaves [b] as it was (and [a] too), four
    values make both longer by two, and [a; b; c] gives nothing to [c]. *)
Example C84_case : let H := [C77_s] in let F := C77_F in
  session dbg H F /\ fixed SI32 /\ sized_now H /\ (forall q, length_after H q < 2 ^ 63)
  /\ Forall (fun kc => room dbg F SI32 (fst kc) (snd kc)) [(3, [a]); (4, [a]); (2, [a; b; c]); (2, [c])]
  /\ active_after H = [a; b] /\ chunk_bytes (active_formats H) = 16
  /\ values_for SI32 3 [a] [5; 6; 7]%Z /\ values_for SI32 4 [a] [5; 6; 7; 8]%Z
  /\ (let '(F', r) := write_channels_e dbg LittleE SI32 F [a] [5; 6; 7]%Z Contigious in
      r = Ok tt /\ channel_length dbg F' a = Ok (Some 2) /\ channel_length dbg F' b = Ok (Some 2))
  /\ (let '(F', r) := write_channels_e dbg LittleE SI32 F [a] [5; 6; 7; 8]%Z Contigious in
      r = Ok tt /\ channel_length dbg F' a = Ok (Some 4) /\ channel_length dbg F' b = Ok (Some 4))
  /\ (let '(F', r) := write_channels_e dbg LittleE SI32 F [a; b; c] [5; 6; 7; 8; 9; 10]%Z Contigious in
      r = Ok tt /\ channel_length dbg F' a = Ok (Some 4) /\ channel_length dbg F' c = Ok None)
  /\ (let '(F', r) := write_channels_e dbg LittleE SI32 F [c] [5; 6]%Z Contigious in
      r = Ok tt /\ channel_length dbg F' a = Ok (Some 2) /\ channel_length dbg F' c = Ok (Some 2)).
Proof.
  destruct C77_case as [Se [_ [Fx [_ [Sd [_ [Ls _]]]]]]]. cbv zeta.
  split; [exact Se|]. split; [exact Fx|]. split; [exact Sd|]. split; [exact Ls|].
  split; [repeat (apply Forall_cons || apply Forall_nil); (split; [vm_compute; reflexivity|vm_compute; discriminate])|].
  split; [vm_compute; reflexivity|]. split; [vm_compute; reflexivity|].
  split; [split; [repeat (apply Forall_cons || apply Forall_nil); cbn; unfold in_signed; lia|reflexivity]|].
  split; [split; [repeat (apply Forall_cons || apply Forall_nil); cbn; unfold in_signed; lia|reflexivity]|].
  vm_compute. repeat split.
Qed.

Print Assumptions C84_lengths.
Print Assumptions C84_others_exactly.
