(** * C83 Exactly which programs keep everything they write *)
From Coq Require Import Strings.String.
From Verif Require Import Base Lib DataTypes MetaData Maps DataBlock Index RawData ChannelReader TdmsFile Vectors
  SpecCodec SpecIndex SpecSession SpecRead SpecWrite Codec_proofs Segment_proofs Index_proofs History_proofs
  Session_proofs Block_proofs Request_proofs Plan_proofs Read_proofs Add_proofs Thm_Index Thm_Read Write_proofs
  Step_proofs Program_proofs Thm_Write SpecExact Exact_proofs Thm_Exact SpecKept.
Close Scope string_scope.
Local Notation a := (ch "g" "a").
Local Notation b := (ch "g" "b").

Lemma refill_same ty c : sound ty c -> refill c c.
Proof. destruct c as [|e t chans vs lay]; [constructor|]. intros [[_ [Rv _]] _]. now constructor. Qed.
Lemma refill_all ty cs : Forall (sound ty) cs -> Forall2 refill cs cs.
Proof. induction 1 as [|c cs Hc _ IH]; constructor; [eapply refill_same; eauto|exact IH]. Qed.
Lemma refill_sound ty c c' : refill c c' -> sound ty c -> sound ty c'.
Proof.
  intros [e path kvs|e t chans vs vs' lay Rv Lv]; [auto|]. intros [[Fx [_ [Nd [Ne [Nv Dv]]]]] Ft]. split; [|exact Ft].
  split; [exact Fx|]. split; [exact Rv|]. split; [exact Nd|]. split; [exact Ne|]. split; [|now rewrite Lv].
  intros ->. destruct vs; [congruence|]. rewrite lenN_cons in Lv. change (lenN (@nil (carrier t))) with 0 in Lv. lia.
Qed.
Lemma refill_sequenced : forall cs cs' prev, Forall2 refill cs cs' -> sequenced prev cs -> sequenced prev cs'.
Proof.
  induction cs as [|c cs IH]; intros cs' prev R Sq; inversion R as [|? c' ? r' R1 R2]; subst; [exact Sq|].
  pose proof (refill_sound (fun _ => SI8) c c' R1) as So.
  destruct R1 as [e path kvs|e t chans vs vs' lay Rv Lv]; cbn [sequenced] in *; [now apply IH|].
  destruct Sq as [G Sq]. split.
  - destruct G as [Fx [_ [Nd [Ne [Nv Dv]]]]]. split; [exact Fx|]. split; [exact Rv|]. split; [exact Nd|].
    split; [exact Ne|]. split; [|now rewrite Lv].
    intros ->. destruct vs; [congruence|]. rewrite lenN_cons in Lv. change (lenN (@nil (carrier t))) with 0 in Lv. lia.
  - rewrite Lv. destruct prev as [[[d n] chans0]|]; [|now apply IH].
    destruct Sq as [[A B]|[A [B [C D]]]]; [left; split; [exact A|now apply IH]|right]. auto.
Qed.
Lemma sequenced_app : forall past rest prev, sequenced prev (past ++ rest) -> sequenced prev past.
Proof.
  induction past as [|c past IH]; intros rest prev Sq; [exact Logic.I|].
  destruct c as [e path kvs|e t chans vs lay]; cbn [app sequenced] in *; [eapply IH; eauto|].
  destruct Sq as [G Sq]. split; [exact G|]. destruct prev as [[[d n] chans0]|]; [|eapply IH; eauto].
  destruct Sq as [[A B]|[A [B [C D]]]]; [left; split; [exact A|eapply IH; eauto]|right]. repeat (split; [assumption|]). eapply IH; eauto.
Qed.
Lemma exact_last H prev : exact_shape H prev -> last_shape H prev.
Proof. destruct prev as [[[d n] chans]|]; [|auto]. intros [A [_ [_ B]]]. split; [exact A|now right]. Qed.
Lemma exact_sized H prev : exact_shape H prev -> sized_now H.
Proof.
  unfold sized_now, active_formats. destruct prev as [[[d n] chans]|]; cbn [exact_shape].
  - intros [-> [Pn [Pw Fm]]]. apply Forall_forall. intros x Hx. apply in_map_iff in Hx. destruct Hx as [p [<- Hp]].
    rewrite Forall_forall in Fm. rewrite (Fm p Hp). auto.
  - intros ->. constructor.
Qed.
Lemma run_app E : forall cs1 cs2 F F1 rs1, run_calls E F cs1 = (F1, rs1) ->
  fst (run_calls E F (cs1 ++ cs2)) = fst (run_calls E F1 cs2).
Proof.
  induction cs1 as [|c cs1 IH]; intros cs2 F F1 rs1 Er; cbn [run_calls app] in *; [now injection Er as <- _|].
  destruct (do_call E F c) as [Fa x]. destruct (run_calls E Fa cs1) as [Fb xs] eqn:E1. injection Er as <- _.
  specialize (IH cs2 Fa Fb xs E1). destruct (run_calls E Fa (cs1 ++ cs2)) as [Fc ys]. exact IH.
Qed.
Lemma run_prefix_addressable E past rest F F1 rs :
  addressable E (tf_bytes (fst (run_calls E F (past ++ rest)))) -> run_calls E F past = (F1, rs) -> addressable E (tf_bytes F1).
Proof.
  intros Ad Er. rewrite (run_app E past rest F F1 rs Er) in Ad. destruct (run_calls E F1 rest) as [F2 ys] eqn:E2.
  destruct (run_grows _ _ _ _ _ E2) as [bs Eb]. cbn [fst] in Ad. destruct Ad as [A1 A2]. rewrite Eb, lenN_app in A1, A2.
  split; lia.
Qed.
Lemma mention_dec (os : list objmeta) (p : str) : mentioned os p \/ ~ mentioned os p.
Proof. destruct (in_dec (list_eq_dec Byte.byte_eq_dec) p (map om_path os)); auto. Qed.

(** Other values make the same index and files of the same length. *)
Lemma same_stream e t ix chans vs vs' lay : fixed t -> lenN vs' = lenN vs ->
  match stream_segment e t ix chans vs lay, stream_segment e t ix chans vs' lay with
  | Ok (bs, s), Ok (bs', s') => s = s' /\ lenN bs = lenN bs'
  | Ok _, _ => False
  | _, Ok _ => False
  | _, _ => True
  end.
Proof.
  intros Fx L. unfold stream_segment, check_write_values, slice_structure. rewrite L.
  destruct chans as [|c0 cs]; [exact Logic.I|]. set (chans := c0 :: cs) in *.
  destruct (negb (lenN vs mod lenN chans =? 0)); [exact Logic.I|].
  destruct (write_segment _ _ _ (Some (slice_block e t vs))) as [bs s] eqn:E1.
  destruct (write_segment _ _ _ (Some (slice_block e t vs'))) as [bs' s'] eqn:E2.
  pose proof (f_equal snd E1) as S1. pose proof (f_equal snd E2) as S2.
  pose proof (f_equal fst E1) as B1. pose proof (f_equal fst E2) as B2. cbn [fst snd] in *. subst s s' bs bs'. split.
  - unfold write_segment. cbn [snd slice_block wb_size]. now rewrite L.
  - rewrite !write_segment_len. cbn [slice_block wb_bytes]. now rewrite !data_len, L by exact Fx.
Qed.
Lemma same_call E ty c c' F G : sound ty c -> refill c c' -> tf_ix F = tf_ix G -> lenN (tf_bytes F) = lenN (tf_bytes G) ->
  tf_ix (fst (do_call E F c)) = tf_ix (fst (do_call E G c')) /\ lenN (tf_bytes (fst (do_call E F c))) = lenN (tf_bytes (fst (do_call E G c'))).
Proof.
  intros So R Ei El. destruct R as [e path kvs|e t chans vs vs' lay Rv L]; cbn [do_call].
  - unfold write_properties_e. destruct (write_segment _ _ _ _) as [bs s]. rewrite Ei. destruct (add_segment E (tf_ix G) s).
    cbn [fst tf_ix tf_bytes]. rewrite !lenN_app. split; [reflexivity|lia].
  - destruct So as [[Fx _] _]. unfold write_channels_e. rewrite Ei. pose proof (same_stream e t (tf_ix G) chans vs vs' lay Fx L) as X.
    destruct (stream_segment e t (tf_ix G) chans vs lay) as [[bs s]|k0| |], (stream_segment e t (tf_ix G) chans vs' lay) as [[bs' s']|k1| |];
      try contradiction; cbn [fst]; try (split; [exact Ei|exact El]).
    destruct X as [-> X]. destruct (add_segment E (tf_ix G) s'). cbn [fst tf_ix tf_bytes]. rewrite !lenN_app. split; [reflexivity|lia].
Qed.
Lemma same_run E ty : forall cs cs' F G, Forall (sound ty) cs -> Forall2 refill cs cs' ->
  tf_ix F = tf_ix G -> lenN (tf_bytes F) = lenN (tf_bytes G) ->
  lenN (tf_bytes (fst (run_calls E F cs))) = lenN (tf_bytes (fst (run_calls E G cs'))).
Proof.
  induction cs as [|c cs IH]; intros cs' F G So R Ei El; inversion R as [|? c' ? r' R1 R2]; subst; [exact El|].
  inversion So as [|? ? Sc Ss]; subst. cbn [run_calls].
  destruct (same_call E ty c c' F G Sc R1 Ei El) as [A B].
  destruct (do_call E F c) as [F1 x], (do_call E G c') as [G1 y]. cbn [fst] in A, B.
  specialize (IH r' F1 G1 Ss R2 A B). destruct (run_calls E F1 cs), (run_calls E G1 r'). exact IH.
Qed.

Section Kept.
Context (E : env) (ty : str -> sty) (Ft : forall p, fixed (ty p)).

(** Programs with a proper sequence keep everything. *)
Lemma kept_if cs H F prev : session E H F -> exact_end H F -> last_shape H prev -> sequenced prev cs ->
  (forall p, stored (tf_bytes F) (ty p) H p) -> (forall q, length_after H q <= lenN (tf_bytes F)) ->
  addressable E (tf_bytes (fst (run_calls E F cs))) -> kept E ty H F cs.
Proof.
  intros Se Ex Ls Sq St Le Ad past rest F1 rs -> Er.
  pose proof (run_prefix_addressable E past rest F F1 rs Ad Er) as Ad1. pose proof Ad1 as [A1 A2].
  pose proof (sequenced_app _ _ _ Sq) as Sq1.
  destruct (program E past H F F1 rs prev Se Ex Ls Sq1 Er) as [Rs [H' [Se' [Ex' [Men [_ Sam]]]]]].
  { etransitivity; [exact A1|reflexivity]. }
  split; [exact Rs|]. intros t p vss <- G all. destruct (Sam (ty p) p vss (St p) G) as [Z [S1 Q]]. fold all in Q. split.
  - intros Hn. split.
    + destruct (C19_channel_length E H' F1 p Se') as [C1 _].
      rewrite <- (C36_samples_count (tf_bytes F1) (ty p)), Q in C1. apply C1; [|now apply Men].
      unfold all. rewrite lenN_app, C36_samples_count. specialize (Le p). change (2 ^ 64) with (2 ^ 63 + 2 ^ 63). lia.
    + intros start out. now rewrite (C28_window E H' F1 (ty p) p start out Se' (Ft p) Ad1 (proj2 (Men p) Hn) S1), Q.
  - intros Hn. destruct (C19_channel_length E H' F1 p Se') as [_ C2]. apply C2. intros X. apply Hn. now apply Men.
Qed.

(** One data call: what it does to the claims. *)
Lemma served_if_kept e H F t chans vs lay cs F1 r : 
  kept E ty H F (CallChans e t chans vs lay :: cs) -> Forall (fun p => ty p = t) chans ->
  write_channels_e E e t F chans vs lay = (F1, r) -> served E H F t lay chans vs F1 r.
Proof.
  intros K Ty Ew. rewrite Forall_forall in Ty.
  destruct (K [] (CallChans e t chans vs lay :: cs) F [] eq_refl eq_refl) as [_ K0].
  destruct (K [CallChans e t chans vs lay] cs F1 [r] eq_refl) as [Rs K1].
  { cbn [run_calls do_call]. now rewrite Ew. }
  inversion Rs as [|? ? R1 _]; subst r. split; [reflexivity|]. split.
  - intros i p Hi. destruct (K1 t p [dealt lay (length chans) i vs]) as [X _].
    + apply Ty. eapply nth_error_In; eauto.
    + constructor; [now constructor|constructor].
    + cbn [concat] in X. rewrite app_nil_r in X. apply X. right. constructor. cbn [names]. eapply nth_error_In; eauto.
  - intros q Hq. destruct (K0 (ty q) q [] eq_refl ltac:(constructor)) as [X1 X2].
    destruct (K1 (ty q) q [[]] eq_refl) as [Y1 Y2]; [constructor; [now constructor|constructor]|].
    cbn [concat app] in *.
    destruct (mention_dec (all_objs H) q) as [M|M].
    + destruct (X1 (or_introl M)) as [-> _]. destruct (Y1 (or_introl M)) as [-> _]. reflexivity.
    + rewrite X2, Y2; [reflexivity| |]; intros [X|X]; auto; inversion X; subst; auto.
      match goal with Hx : Exists _ [] |- _ => inversion Hx end.
Qed.

Lemma kept_only_if : forall cs H F prev, session E H F -> exact_end H F -> exact_shape H prev ->
  (forall p, stored (tf_bytes F) (ty p) H p) -> (forall q, length_after H q <= lenN (tf_bytes F)) ->
  Forall (sound ty) cs ->
  (forall cs', Forall2 refill cs cs' -> addressable E (tf_bytes (fst (run_calls E F cs')))) ->
  (forall cs', Forall2 refill cs cs' -> kept E ty H F cs') -> sequenced prev cs.
Proof.
  induction cs as [|c cs IH]; intros H F prev Se Ex Sh St Le So Ad K; [exact Logic.I|].
  inversion So as [|? ? Sc Ss]; subst.
  pose proof (refill_all ty cs Ss) as Ra. pose proof (refill_same ty c Sc) as Rc.
  destruct (do_call E F c) as [F1 r] eqn:E1.
  assert (Ad1 : addressable E (tf_bytes F1)).
  { apply (run_prefix_addressable E [c] cs F F1 [r]); [apply Ad; now constructor|]. cbn [run_calls]. now rewrite E1. }
  assert (Hl1 : lenN (tf_bytes F1) < 2 ^ 64) by (destruct Ad1 as [A1 _]; etransitivity; [exact A1|reflexivity]).
  assert (Adr : forall cs', Forall2 refill cs cs' -> addressable E (tf_bytes (fst (run_calls E F1 cs')))).
  { intros cs' R. specialize (Ad (c :: cs') (Forall2_cons _ _ Rc R)). cbn [run_calls] in Ad. rewrite E1 in Ad.
    destruct (run_calls E F1 cs'). exact Ad. }
  destruct c as [e path kvs|e t chans vs lay]; cbn [do_call sequenced] in *.
  - destruct (props_step _ _ _ _ _ _ _ _ Se Ex E1 Hl1) as [-> [s [bs [Wr [Eb [Ex1 [Act [_ [Lo [Lf [_ [Men Sam]]]]]]]]]]]].
    apply (IH (H ++ [s]) F1 prev); auto.
    + eapply ss_write; eauto.
    + destruct prev as [[[d n] ch0]|]; cbn [exact_shape] in *; rewrite Act; [|exact Sh].
      destruct Sh as [A [B [C D]]]. repeat (split; [assumption|]). eapply Forall_impl; [|exact D]. intros q Hq. now rewrite Lf.
    + intros p. now apply Sam.
    + intros q. unfold length_after. rewrite <- (locs_sum q (H ++ [s]) []). fold (locs_after (H ++ [s]) q).
      rewrite Lo. unfold locs_after. rewrite (locs_sum q H []). fold (length_after H q). rewrite Eb, lenN_app. specialize (Le q). lia.
    + intros cs' R past rest F2 rs -> Er.
      destruct (K (CallProps e path kvs :: past ++ rest) (Forall2_cons _ _ Rc R) (CallProps e path kvs :: past) rest F2 (Ok tt :: rs) eq_refl) as [Rs Hd].
      { cbn [run_calls do_call]. rewrite E1, Er. reflexivity. }
      split; [now inversion Rs|]. intros t p vss Et G all.
      destruct (Hd t p ([] :: vss) Et ltac:(constructor; [constructor|exact G])) as [X1 X2]. cbn [concat app] in X1, X2.
      assert (Sp : stored (tf_bytes F) t H p) by (subst t; apply St).
      destruct (Sam t p Sp) as [_ Q]. unfold all. rewrite Q.
      assert (Nm : (mentioned (all_objs H) p \/ Exists (names p) (CallProps e path kvs :: past))
                   <-> (mentioned (all_objs (H ++ [s])) p \/ Exists (names p) past)).
      { rewrite Men, Exists_cons. cbn [names]. split; [intros [A|[A|A]]|intros [[A|A]|A]]; subst; auto. }
      split; intros Z; [apply X1; now apply Nm|apply X2; intros Y; apply Z; now apply Nm].
  - destruct Sc as [Gv Ty]. pose proof Gv as [Fx [Rv [Nd [Ne [Nv Dv]]]]].
    assert (Pc : 0 < lenN chans) by (destruct chans; [congruence|rewrite lenN_cons; lia]).
    set (k := lenN vs / lenN chans) in *.
    assert (Lv : lenN vs = lenN chans * k) by (unfold k; pose proof (N.div_mod (lenN vs) (lenN chans)); lia).
    assert (Pk : 0 < k). { destruct (N.eq_dec k 0) as [Z|]; [|lia]. rewrite Z, N.mul_0_r in Lv. destruct vs; [congruence|rewrite lenN_cons in Lv; lia]. }
    destruct (the_segment E e H F t chans vs lay Se Fx Nd Ne Dv)
      as [omit [s0 [bs0 [Est [_ [_ [_ [_ [_ [Snext [_ [Lbs _]]]]]]]]]]]].
    assert (Eb0 : tf_bytes F1 = tf_bytes F ++ bs0).
    { unfold write_channels_e in E1. rewrite Est in E1. destruct (add_segment E (tf_ix F) s0). injection E1 as <- _. reflexivity. }
    assert (Rm : room E F t k chans).
    { destruct Ad1 as [A1 A2]. rewrite Eb0, lenN_app, Lbs, Snext, Lv in A1, A2. split; lia. }
    assert (Ll : forall q, length_after H q < 2 ^ 63).
    { intros q. specialize (Le q). destruct Ad1 as [A1 _]. rewrite Eb0, lenN_app in A1. lia. }
    assert (Ds : described_call H t lay k chans).
    { apply (C77_exactly E e H F t lay k chans Se Ex Fx Nd Ne Pk (exact_sized _ _ Sh) Rm Ll).
      - rewrite Forall_forall in *. intros p Hp. specialize (St p). now rewrite (Ty p Hp) in St.
      - intros vs' F' r' [Rv' Lv'] Ew _. apply (served_if_kept e H F t chans vs' lay cs F' r'); [|exact Ty|exact Ew].
        apply K. constructor; [|exact Ra]. constructor; [exact Rv'|congruence]. }
    destruct (write_step E e H F t chans vs lay Se Ex Fx Rv Nd Ne Nv Dv Ds F1 r E1 Hl1)
      as [-> [s [bs [Wr [Eb [Lb [Ex1 [Act [LfN [LfC [_ [_ [Men [Sin [Lo Sout]]]]]]]]]]]]]]].
    assert (Se1 : session E (H ++ [s]) F1) by (eapply ss_write; eauto).
    assert (Kr : forall cs', Forall2 refill cs cs' -> kept E ty (H ++ [s]) F1 cs').
    { intros cs' R past rest F2 rs -> Er.
      destruct (K (CallChans e t chans vs lay :: past ++ rest) (Forall2_cons _ _ Rc R) (CallChans e t chans vs lay :: past) rest F2 (Ok tt :: rs) eq_refl) as [Rs Hd].
      { cbn [run_calls do_call]. rewrite E1, Er. reflexivity. }
      split; [now inversion Rs|]. intros t' p vss Et G all.
      assert (Ws : exists ws, gives t' p (CallChans e t chans vs lay) ws
         /\ samples_after (tf_bytes F1) t' (H ++ [s]) p = samples_after (tf_bytes F) t' H p ++ ws).
      { assert (Sp : stored (tf_bytes F) t' H p) by (subst t'; apply St).
        destruct (in_dec (list_eq_dec Byte.byte_eq_dec) p chans) as [Hp|Hp].
        - apply In_nth_error in Hp. destruct Hp as [i Hi]. change (@nth_error str chans i = Some p) in Hi.
          rewrite Forall_forall in Ty. assert (t' = t) by (rewrite <- Et; apply Ty; eapply nth_error_In; eauto). subst t'.
          rewrite H0 in *. exists (dealt lay (length chans) i vs). split; [now constructor|]. now apply Sin.
        - exists []. split; [now constructor|]. rewrite app_nil_r. now apply Sout. }
      destruct Ws as [ws [Gw Q]].
      destruct (Hd t' p (ws :: vss) Et ltac:(constructor; [exact Gw|exact G])) as [X1 X2]. cbn [concat] in X1, X2.
      unfold all. rewrite Q, <- app_assoc.
      assert (Nm : (mentioned (all_objs H) p \/ Exists (names p) (CallChans e t chans vs lay :: past))
                   <-> (mentioned (all_objs (H ++ [s])) p \/ Exists (names p) past)).
      { rewrite Men, Exists_cons. cbn [names]. tauto. }
      split; intros Z; [apply X1; now apply Nm|apply X2; intros Y; apply Z; now apply Nm]. }
    assert (Str : forall p, stored (tf_bytes F1) (ty p) (H ++ [s]) p).
    { intros p. destruct (in_dec (list_eq_dec Byte.byte_eq_dec) p chans) as [Hp|Hp]; [|now apply Sout].
      apply In_nth_error in Hp. destruct Hp as [i Hi]. change (@nth_error str chans i = Some p) in Hi.
      pose proof (St p) as Sp. rewrite Forall_forall in Ty. rewrite (Ty p (nth_error_In _ _ Hi)) in *. now apply (Sin i p Hi). }
    assert (Ler : forall q, length_after (H ++ [s]) q <= lenN (tf_bytes F1)).
    { intros q. rewrite Eb, lenN_app. specialize (Le q).
      destruct (in_dec (list_eq_dec Byte.byte_eq_dec) q chans) as [Hp|Hp].
      - apply In_nth_error in Hp. destruct Hp as [i Hi]. change (@nth_error str chans i = Some q) in Hi.
        pose proof (St q) as Sp. rewrite Forall_forall in Ty. rewrite (Ty q (nth_error_In _ _ Hi)) in Sp.
        destruct (Sin i q Hi Sp) as [_ Q]. apply (f_equal lenN) in Q. rewrite lenN_app, !C36_samples_count in Q.
        pose proof (dealt_len lay (length chans) i vs). lia.
      - unfold length_after. rewrite <- (locs_sum q (H ++ [s]) []). fold (locs_after (H ++ [s]) q).
        rewrite (Lo q Hp). unfold locs_after. rewrite (locs_sum q H []). fold (length_after H q). lia. }
    split; [exact Gv|].
    assert (New : ~ continues (active_after H) chans -> sequenced (Some (natural t, k, chans)) cs).
    { intros Nc. apply (IH (H ++ [s]) F1); auto. cbn [exact_shape].
      destruct (natural_size t Fx) as [_ [Wn [Pz _]]].
      split; [exact Act|]. split; [exact Pk|]. split; [rewrite Wn; exact Pz|].
      apply Forall_forall. exact (LfN Nc). }
    destruct prev as [[[d n] ch0]|]; cbn [exact_shape] in Sh.
    + destruct Sh as [A [B [C D]]].
      assert (Dc : continues (active_after H) chans \/ ~ continues (active_after H) chans).
      { destruct (call_stream e t (tf_ix F) chans vs lay Ne Dv) as [om [Ho _]].
        destruct (session_accepted _ _ _ Se) as [Ac _]. destruct (accepted_described _ _ _ Ac) as [_ [_ [_ [Ha _]]]].
        rewrite Ha in Ho. destruct om; [left; now apply Ho|right; intros X; apply Ho in X; discriminate]. }
      destruct Dc as [Co|Nc]; [right|left; split; [now rewrite A in Nc|now apply New]].
      destruct Ds as [Nc|[Eq [n' [Ck Fm]]]]; [contradiction|].
      assert (Ec : ch0 = chans) by congruence.
      assert (Hx : exists p0 cc, chans = p0 :: cc) by (destruct chans; [congruence|eauto]). destruct Hx as [p0 [cc Hx]].
      assert (Hin : In p0 chans) by (rewrite Hx; now left).
      rewrite Forall_forall in Fm, D. rewrite Ec in D. destruct (Fm p0 Hin) as [d' [L1 Hd']]. rewrite (D p0 Hin) in L1. injection L1 as -> ->.
      split; [exact Ec|]. split; [exact Hd'|]. split; [exact Ck|].
      apply (IH (H ++ [s]) F1); auto. cbn [exact_shape]. rewrite Act. split; [congruence|]. split; [exact B|]. split; [exact C|].
      apply Forall_forall. intros q Hq. rewrite (LfC Co). apply D. now rewrite <- Ec.
    + apply New. rewrite Sh. intros [X _]. congruence.
Qed.
End Kept.

Theorem C83_exactly : forall E ty H F prev cs,
  session E H F -> exact_end H F -> exact_shape H prev ->
  (forall p, fixed (ty p)) -> (forall p, stored (tf_bytes F) (ty p) H p) ->
  (forall q, length_after H q <= lenN (tf_bytes F)) -> Forall (sound ty) cs ->
  addressable E (tf_bytes (fst (run_calls E F cs))) ->
  (forall cs', Forall2 refill cs cs' -> kept E ty H F cs') <-> sequenced prev cs.
Proof.
  intros E ty H F prev cs Se Ex Sh Ft St Le So Ad0.
  assert (Ad : forall cs', Forall2 refill cs cs' -> addressable E (tf_bytes (fst (run_calls E F cs')))).
  { intros cs' R. unfold addressable. rewrite <- (same_run E ty cs cs' F F So R eq_refl eq_refl). exact Ad0. }
  split.
  - intros K. now apply (kept_only_if E ty Ft cs H F prev).
  - intros Sq cs' R. apply (kept_if E ty Ft cs' H F prev Se Ex (exact_last _ _ Sh)); auto.
    now apply (refill_sequenced cs).
Qed.

(** From an empty file, where nothing is left to assume about the state. *)
Theorem C83_new_file : forall E ty cs, (forall p, fixed (ty p)) -> Forall (sound ty) cs ->
  addressable E (tf_bytes (fst (run_calls E empty_file cs))) ->
  (forall cs', Forall2 refill cs cs' -> kept E ty [] empty_file cs') <-> sequenced None cs.
Proof.
  intros E ty cs Ft So Ad. apply C83_exactly; auto.
  - apply fresh_session.
  - reflexivity.
  - reflexivity.
  - intros p. constructor.
  - intros q. vm_compute. discriminate.
Qed.

(** A program with a proper sequence (properties in between, a continued call,
    then another list) keeps everything whatever its values; a program whose
    second call leaves a channel out does not. *)
Definition C83_good : list call :=
  [CallChans LittleE SI32 [a; b] [1; 2; 3; 4]%Z Interleaved; CallProps LittleE (B "/'g'") [(B "unit", PString (B "V"))];
   CallChans BigE SI32 [a; b] [5; 6; 7; 8]%Z Interleaved; CallChans LittleE SI32 [b; a] [9; 10]%Z Contigious].
Definition C83_bad : list call :=
  [CallChans LittleE SI32 [a; b] [1; 2; 3; 4]%Z Interleaved; CallChans LittleE SI32 [a] [5; 6]%Z Contigious;
   CallChans LittleE SI32 [a; b] [5; 6]%Z Contigious].
Lemma good_i32 chans vs : NoDup chans -> chans <> [] -> vs <> [] -> lenN vs mod lenN chans = 0 ->
  forallb (fun z => (-2147483648 <=? z) && (z <? 2147483648))%Z vs = true -> good_values SI32 chans vs.
Proof.
  intros Nd Ne Nv Dv Rv. split; [repeat split; discriminate|]. split; [|auto].
  apply Forall_forall. intros z Hz. rewrite forallb_forall in Rv. specialize (Rv z Hz). cbn. unfold in_signed. lia.
Qed.
Example C83_case :
  Forall (sound (fun _ => SI32)) C83_good /\ addressable dbg (tf_bytes (fst (run_calls dbg empty_file C83_good)))
  /\ (forall cs', Forall2 refill C83_good cs' -> kept dbg (fun _ => SI32) [] empty_file cs')
  /\ Forall (sound (fun _ => SI32)) C83_bad /\ addressable dbg (tf_bytes (fst (run_calls dbg empty_file C83_bad)))
  /\ ~ (forall cs', Forall2 refill C83_bad cs' -> kept dbg (fun _ => SI32) [] empty_file cs').
Proof.
  assert (Nab : NoDup [a; b]) by (repeat constructor; cbn; intuition discriminate).
  assert (Nba : NoDup [b; a]) by (repeat constructor; cbn; intuition discriminate).
  assert (Na : NoDup [a]) by (repeat constructor; cbn; intuition discriminate).
  assert (Sg : Forall (sound (fun _ => SI32)) C83_good).
  { unfold C83_good. repeat (apply Forall_cons || apply Forall_nil); cbn [sound]; try exact Logic.I;
      (split; [apply good_i32; try assumption; try discriminate; reflexivity|repeat constructor]). }
  assert (Sb : Forall (sound (fun _ => SI32)) C83_bad).
  { unfold C83_bad. repeat (apply Forall_cons || apply Forall_nil); cbn [sound]; try exact Logic.I;
      (split; [apply good_i32; try assumption; try discriminate; reflexivity|repeat constructor]). }
  assert (Ag : addressable dbg (tf_bytes (fst (run_calls dbg empty_file C83_good)))) by (vm_compute; split; [reflexivity|discriminate]).
  assert (Ab : addressable dbg (tf_bytes (fst (run_calls dbg empty_file C83_bad)))) by (vm_compute; split; [reflexivity|discriminate]).
  assert (Fx : forall p : str, fixed ((fun _ => SI32) p)) by (intros p; repeat split; discriminate).
  split; [exact Sg|]. split; [exact Ag|]. split.
  { apply (C83_new_file dbg (fun _ => SI32) C83_good Fx Sg Ag). unfold C83_good. cbn [sequenced].
    split; [apply good_i32; try assumption; try discriminate; reflexivity|].
    split; [apply good_i32; try assumption; try discriminate; reflexivity|].
    right. split; [reflexivity|]. split; [now left|]. split; [split; [reflexivity|]; split; [reflexivity|now left]|].
    split; [apply good_i32; try assumption; try discriminate; reflexivity|].
    left. split; [|exact Logic.I]. intros [_ [[x X]|[x X]]]; discriminate. }
  split; [exact Sb|]. split; [exact Ab|]. intros K.
  apply (C83_new_file dbg (fun _ => SI32) C83_bad Fx Sb Ab) in K. unfold C83_bad in K. cbn [sequenced] in K.
  destruct K as [_ [_ [[X _]|[X _]]]]; [|discriminate].
  apply X. split; [discriminate|]. right. exists [b]. reflexivity.
Qed.

(** On a file that already holds data: the file of C77. *)
Example C83_session_case : let H := [C77_s] in let F := C77_F in let ty := fun _ : str => SI32 in
  let cs := [CallChans LittleE SI32 [a; b] [5; 6; 7; 8; 9; 10; 11; 12]%Z Interleaved] in
  session dbg H F /\ exact_end H F /\ exact_shape H (Some (I32, 2, [a; b])) /\ (forall p, fixed (ty p))
  /\ (forall p, stored (tf_bytes F) (ty p) H p) /\ (forall q, length_after H q <= lenN (tf_bytes F))
  /\ Forall (sound ty) cs /\ addressable dbg (tf_bytes (fst (run_calls dbg F cs)))
  /\ sequenced (Some (I32, 2, [a; b])) cs.
Proof.
  destruct C77_case as [Se [Ex [Fx [Nd [_ [_ [_ [St _]]]]]]]]. cbv zeta.
  split; [exact Se|]. split; [exact Ex|].
  split; [split; [vm_compute; reflexivity|]; split; [reflexivity|]; split; [reflexivity|]; repeat constructor|].
  split; [intros _; exact Fx|]. split.
  { intros p. destruct (in_dec (list_eq_dec Byte.byte_eq_dec) p [a; b]) as [Hp|Hp].
    - rewrite Forall_forall in St. now apply St.
    - unfold stored. change (locs_after [C77_s] p) with
        (((if str_eqb p a then [mkLoc 0 0 2] else []) ++ ((if str_eqb p b then [mkLoc 0 1 2] else []) ++ [])) ++ []).
      destruct (str_eqb p a) eqn:Ea; [apply str_eqb_eq in Ea; exfalso; apply Hp; now left|].
      destruct (str_eqb p b) eqn:Eb; [apply str_eqb_eq in Eb; exfalso; apply Hp; right; now left|]. constructor. }
  split.
  { intros q. change (length_after [C77_s] q) with
      (((if str_eqb q a then 2 else 0) + ((if str_eqb q b then 2 else 0) + 0)) + 0).
    destruct (str_eqb q a), (str_eqb q b); vm_compute; discriminate. }
  assert (G : good_values SI32 [a; b] [5; 6; 7; 8; 9; 10; 11; 12]%Z)
    by (apply good_i32; try assumption; try discriminate; reflexivity).
  split; [constructor; [split; [exact G|repeat constructor]|constructor]|].
  split; [vm_compute; split; [reflexivity|discriminate]|].
  cbn [sequenced]. split; [exact G|]. right. split; [reflexivity|]. split; [now left|].
  split; [split; [reflexivity|]; split; [reflexivity|now left]|exact Logic.I].
Qed.

Print Assumptions C83_exactly.
Print Assumptions C83_new_file.
