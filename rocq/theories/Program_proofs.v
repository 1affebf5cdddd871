(** * Programs of write calls *)
From Coq Require Import Eqdep_dec.
From Verif Require Import Base Lib DataTypes MetaData Maps DataBlock Index RawData ChannelReader TdmsFile
  SpecCodec SpecIndex SpecSession SpecRead SpecWrite Codec_proofs Segment_proofs Index_proofs History_proofs
  Session_proofs Block_proofs Request_proofs Plan_proofs Read_proofs Add_proofs Thm_Index Thm_Read Write_proofs
  Step_proofs.

(** ** Writing properties *)
Lemma props_step E e H F path kvs F' r : session E H F -> exact_end H F ->
  write_properties_e E e F path kvs = (F', r) -> lenN (tf_bytes F') < 2 ^ 64 ->
  r = Ok tt /\ exists s bs,
    wrote E F s F' (Ok tt)
    /\ tf_bytes F' = tf_bytes F ++ bs
    /\ exact_end (H ++ [s]) F'
    /\ active_after (H ++ [s]) = active_after H
    /\ blocks_after (H ++ [s]) = blocks_after H
    /\ (forall p, locs_after (H ++ [s]) p = locs_after H p)
    /\ (forall p, last_format (all_objs (H ++ [s])) p = last_format (all_objs H) p)
    /\ (forall p name, last_prop (all_objs (H ++ [s])) p name
          = if str_eqb p path then fold_left (prop_step name) kvs (last_prop (all_objs H) p name)
            else last_prop (all_objs H) p name)
    /\ (forall p, mentioned (all_objs (H ++ [s])) p <-> mentioned (all_objs H) p \/ p = path)
    /\ (forall t p, stored (tf_bytes F) t H p ->
         stored (tf_bytes F') t (H ++ [s]) p
         /\ samples_after (tf_bytes F') t (H ++ [s]) p = samples_after (tf_bytes F) t H p).
Proof.
  intros Se Ex Ew Hlen. destruct (session_accepted _ _ _ Se) as [Ac Pl].
  destruct (write_segment e toc_default (Some [mkObj path kvs RINone]) None) as [bs s] eqn:Es.
  assert (Wr : wrote E F s F' r) by (eapply wrote_props; eauto).
  destruct (wrote_add _ _ _ _ _ Wr) as [bs0 [rn [Eb0 [Ead Er]]]].
  assert (Eb : tf_bytes F' = tf_bytes F ++ bs).
  { unfold write_properties_e in Ew. rewrite Es in Ew. destruct (add_segment E (tf_ix F) s). injection Ew as <- _. reflexivity. }
  assert (Ss : s = snd (write_segment e toc_default (Some [mkObj path kvs RINone]) None)) by now rewrite Es.
  rewrite snd_write in Ss.
  assert (So : seg_objs s = [mkObj path kvs RINone]) by now rewrite Ss.
  assert (Sr : toc_raw (sg_toc s) = false) by now rewrite Ss.
  assert (Sn : toc_newlist (sg_toc s) = false) by now rewrite Ss.
  assert (Lbs : lenN bs = 28 + sg_next s).
  { replace bs with (fst (write_segment e toc_default (Some [mkObj path kvs RINone]) None)) by now rewrite Es.
    rewrite write_segment_len, Ss. cbn [sg_next]. unfold LEAD_IN. unfold lenN; cbn [length N.of_nat]. lia. }
  assert (Hl : offset H + 28 + sg_next s < two64).
  { rewrite Eb, lenN_app, Lbs in Hlen. unfold exact_end in Ex. rewrite Ex. unfold two64. lia. }
  destruct (add_segment_ok E H (tf_ix F) s Ac Pl (wrote_plain _ _ _ _ _ Wr)
              (wrote_resolvable _ _ _ _ _ _ (accepted_told _ _ _ Ac) Wr) Hl) as [ix' Ead'].
  { rewrite Sr. discriminate. }
  rewrite Ead' in Ead. injection Ead as Eix <-. cbn [bind] in Er. subst r. split; [reflexivity|].
  exists s, bs. split; [exact Wr|]. split; [exact Eb|]. split.
  { unfold exact_end in *. rewrite offset_snoc, Eb, lenN_app, Lbs. lia. }
  split. { rewrite active_after_snoc. unfold act_seg. rewrite So, Sn. reflexivity. }
  assert (Bl : blocks_after (H ++ [s]) = blocks_after H) by (rewrite blocks_after_snoc, Sr; apply app_nil_r).
  split; [exact Bl|].
  assert (Lo : forall p, locs_after (H ++ [s]) p = locs_after H p).
  { intros p. unfold locs_after. rewrite locs_from_snoc, Sr. apply app_nil_r. }
  split; [exact Lo|]. split.
  { intros p. rewrite all_objs_snoc, So. unfold last_format. rewrite fold_left_app. cbn [fold_left]. unfold fmt_obj at 1.
    cbn [om_path om_idx]. now destruct (str_eqb p path). }
  split.
  { intros p name. rewrite all_objs_snoc, So. unfold last_prop. rewrite fold_left_app. reflexivity. }
  split.
  { intros p. unfold mentioned. rewrite all_objs_snoc, So, map_app. cbn [map om_path]. rewrite in_app_iff. cbn [In].
    split; [intros [A|[A|[]]]; [now left|right; congruence]|intros [A|A]; [now left|right; left; congruence]]. }
  intros t p S0. rewrite Eb. split.
  - pose proof (old_stored H F bs t p S0) as S1. unfold stored in *. rewrite Lo, Bl. exact S1.
  - rewrite <- (old_samples E H F bs t p Se Ex S0). unfold samples_after. now rewrite Lo, Bl.
Qed.

(** ** Values given by type *)
Lemma sty_eq_dec (a b : sty) : {a = b} + {a <> b}.
Proof. decide equality. Defined.
Lemma chans_inj e t chans (vs : list (carrier t)) lay e' chans' vs' lay' :
  CallChans e t chans vs lay = CallChans e' t chans' vs' lay' ->
  e = e' /\ chans = chans' /\ vs = vs' /\ lay = lay'.
Proof.
  intros Q. injection Q as -> -> X ->. repeat split. now apply inj_pair2_eq_dec in X; [|exact sty_eq_dec].
Qed.
Lemma gives_inv t p e t' chans vs lay ws : gives t p (CallChans e t' chans vs lay) ws ->
  (~ In p chans /\ ws = []) \/
  exists (Q : t' = t) i, nth_error chans i = Some p
     /\ ws = dealt lay (length chans) i (eq_rect t' (fun x => list (carrier x)) vs t Q).
Proof.
  intros G. remember (CallChans e t' chans vs lay) as c eqn:Ec. destruct G as [| |e0 chans0 vs0 lay0 i Hi].
  - discriminate.
  - injection Ec as -> -> -> X ->. now left.
  - right. assert (Et : t' = t) by (injection Ec; congruence). subst t'. exists eq_refl, i. cbn [eq_rect].
    apply chans_inj in Ec. destruct Ec as [_ [-> [-> ->]]]. auto.
Qed.

(** ** Bytes only grow *)
Lemma do_call_grows E F c F' r : do_call E F c = (F', r) -> exists bs, tf_bytes F' = tf_bytes F ++ bs.
Proof.
  destruct c as [e path kvs|e t chans vs lay]; cbn [do_call]; intros Ew.
  - unfold write_properties_e in Ew. destruct (write_segment _ _ _ _) as [bs s].
    destruct (add_segment E (tf_ix F) s). injection Ew as <- _. now exists bs.
  - unfold write_channels_e in Ew. destruct (stream_segment _ _ _ _ _ _) as [[bs s]|x|x|]; try (injection Ew as <- _; exists []; now rewrite app_nil_r).
    destruct (add_segment E (tf_ix F) s). injection Ew as <- _. now exists bs.
Qed.
Lemma run_grows E : forall cs F F' rs, run_calls E F cs = (F', rs) -> exists bs, tf_bytes F' = tf_bytes F ++ bs.
Proof.
  induction cs as [|c cs IH]; intros F F' rs Er; cbn [run_calls] in Er.
  - injection Er as <- _. exists []. now rewrite app_nil_r.
  - destruct (do_call E F c) as [F1 x] eqn:E1. destruct (run_calls E F1 cs) as [F2 xs] eqn:E2. injection Er as <- _.
    destruct (do_call_grows _ _ _ _ _ E1) as [b1 B1]. destruct (IH _ _ _ E2) as [b2 B2].
    exists (b1 ++ b2). rewrite B2, B1, app_assoc. reflexivity.
Qed.

Lemma last_shape_described H prev t lay k chans : last_shape H prev -> 
  (match prev with None => True | Some (d0, n, chans0) =>
     ~ continues chans0 chans \/ (chans0 = chans /\ In d0 (stored_as t) /\ chunked lay n k chans) end) ->
  described_call H t lay k chans.
Proof.
  intros Hs Hp. destruct prev as [[[d0 k0] chans0]|]; cbn [last_shape] in Hs.
  - destruct Hs as [Ha Hf]. destruct Hp as [Hp|[-> [Hd Ck]]]; [left; now rewrite Ha|right].
    split; [exact Ha|]. exists k0. split; [exact Ck|]. destruct Hf as [Hf|Hf]; [destruct Ck; lia|].
    eapply Forall_impl; [|exact Hf]. intros p Hp. exists d0. auto.
  - left. rewrite Hs. intros [X _]. congruence.
Qed.

Lemma dealt_len {A} lay n i (vs : list A) : lenN (dealt lay n i vs) <= lenN vs.
Proof.
  unfold dealt, lenN. cbv zeta. destruct lay.
  - assert (L : forall l, (length (flat_map (fun j => match nth_error vs (j * n + i) with Some v => [v] | None => [] end) l) <= length l)%nat).
    { induction l as [|j l IH]; [reflexivity|]. cbn [flat_map length]. rewrite app_length.
      destruct (nth_error vs (j * n + i)); cbn [length]; lia. }
    specialize (L (seq 0 (length vs / n))). rewrite seq_length in L.
    destruct n; [change (length vs / 0)%nat with 0%nat in *; lia|].
    assert (length vs / S n <= length vs)%nat by (apply Nat.div_le_upper_bound; nia).
    lia.
  - rewrite firstn_length, skipn_length. generalize (i * (length vs / n))%nat, (length vs / n)%nat. intros. lia.
Qed.

Lemma dealt_length {A} lay n k i (vs : list A) : (i < n)%nat -> length vs = (n * k)%nat ->
  length (dealt lay n i vs) = k.
Proof.
  intros Hi Hl. unfold dealt. cbv zeta. rewrite Hl, (Nat.mul_comm n k), Nat.div_mul by lia. destruct lay.
  - assert (L : forall l, (forall j, In j l -> (j < k)%nat) ->
      length (flat_map (fun j => match nth_error vs (j * n + i) with Some v => [v] | None => [] end) l) = length l).
    { induction l as [|j l IH]; intros Hj; [reflexivity|]. cbn [flat_map length]. rewrite app_length, IH by (intros; apply Hj; now right).
      destruct (nth_error vs (j * n + i)) eqn:Hn; [reflexivity|]. apply nth_error_None in Hn.
      specialize (Hj j (or_introl eq_refl)). nia. }
    rewrite L; [apply seq_length|]. intros j Hj. apply in_seq in Hj. lia.
  - rewrite firstn_length, skipn_length. nia.
Qed.

(** ** The whole program *)
Lemma program E : forall cs H F F' rs prev, session E H F -> exact_end H F -> last_shape H prev ->
  sequenced prev cs -> run_calls E F cs = (F', rs) -> lenN (tf_bytes F') < 2 ^ 64 ->
  Forall (eq (Ok tt)) rs
  /\ exists H', session E H' F' /\ exact_end H' F'
    /\ (forall p, mentioned (all_objs H') p <-> mentioned (all_objs H) p \/ Exists (names p) cs)
    /\ (forall p name, last_prop (all_objs H') p name = fold_left (prop_call p name) cs (last_prop (all_objs H) p name))
    /\ (forall t p vss, stored (tf_bytes F) t H p -> Forall2 (gives t p) cs vss ->
          lenN (tf_bytes F) + lenN (concat vss) <= lenN (tf_bytes F')
          /\ stored (tf_bytes F') t H' p
          /\ samples_after (tf_bytes F') t H' p = samples_after (tf_bytes F) t H p ++ concat vss).
Proof.
  induction cs as [|c cs IH]; intros H F F' rs prev Se Ex Ls Sq Er Hlen; cbn [run_calls] in Er.
  - injection Er as <- <-. split; [constructor|]. exists H. split; [exact Se|]. split; [exact Ex|]. split.
    + intros p. split; [now left|intros [A|A]; [exact A|inversion A]].
    + split; [reflexivity|]. intros t p vss S0 G. inversion G; subst. cbn [concat]. rewrite app_nil_r.
      split; [unfold lenN; cbn [length N.of_nat]; lia|auto].
  - destruct (do_call E F c) as [F1 x] eqn:E1. destruct (run_calls E F1 cs) as [F2 xs] eqn:E2. injection Er as <- <-.
    destruct (run_grows _ _ _ _ _ E2) as [b2 B2].
    assert (Hl1 : lenN (tf_bytes F1) < 2 ^ 64) by (rewrite B2, lenN_app in Hlen; lia).
    destruct c as [e path kvs|e t0 chans vs lay]; cbn [do_call sequenced] in E1, Sq.
    + destruct (props_step _ _ _ _ _ _ _ _ Se Ex E1 Hl1) as [-> [s [bs [Wr [Eb [Ex1 [Act [_ [_ [Lf [Lp [Men Sam]]]]]]]]]]]].
      assert (Se1 : session E (H ++ [s]) F1) by (eapply ss_write; eauto).
      assert (Ls1 : last_shape (H ++ [s]) prev).
      { destruct prev as [[[d k] ch]|]; cbn [last_shape] in *; rewrite Act; [|exact Ls].
        destruct Ls as [A [B|B]]; (split; [exact A|]); [now left|right]. eapply Forall_impl; [|exact B]. intros q Hq. now rewrite Lf. }
      destruct (IH _ _ _ _ _ Se1 Ex1 Ls1 Sq E2 Hlen) as [Rs [H' [Se' [Ex' [Men' [Lp' Sam']]]]]].
      split; [now constructor|]. exists H'. split; [exact Se'|]. split; [exact Ex'|]. split.
      * intros p. rewrite Men', Men, Exists_cons. cbn [names].
        split; [intros [[A|A]|A]|intros [A|[A|A]]]; subst; auto.
      * split; [intros p name; rewrite Lp', Lp; reflexivity|].
        intros t p vss S0 G. inversion G as [|c0 ws cs0 wss G1 G2]; subst. destruct (Sam t p S0) as [S1 Q1].
        destruct (Sam' t p wss S1 G2) as [Z [S2 Q2]].
        assert (ws = []) as -> by (inversion G1; reflexivity). cbn [concat app].
        split; [rewrite Eb, lenN_app in Z; lia|]. split; [exact S2|]. now rewrite Q2, Q1.
    + destruct Sq as [[Fx [Rv [Nd [Ne [Nv Dv]]]]] Sq].
      assert (Ds : described_call H t0 lay (lenN vs / lenN chans) chans).
      { apply (last_shape_described H prev); [exact Ls|]. destruct prev as [[[d k] ch]|]; [|exact Logic.I].
        destruct Sq as [[A _]|[A [B [C _]]]]; auto. }
      destruct (write_step E e H F t0 chans vs lay Se Ex Fx Rv Nd Ne Nv Dv Ds F1 x E1 Hl1)
        as [-> [s [bs [Wr [Eb [Lbs [Ex1 [Act [LfN [LfC [_ [Lp [Men [Sin [_ Sout]]]]]]]]]]]]]]].
      assert (Se1 : session E (H ++ [s]) F1) by (eapply ss_write; eauto).
      assert (New : ~ continues (active_after H) chans -> last_shape (H ++ [s]) (Some (natural t0, lenN vs / lenN chans, chans))).
      { intros Nc. cbn [last_shape]. split; [exact Act|]. right. apply Forall_forall. exact (LfN Nc). }
      assert (exists prev1, last_shape (H ++ [s]) prev1 /\ sequenced prev1 cs) as [prev1 [Ls1 Sq1]].
      { destruct prev as [[[d k] ch]|]; cbn [last_shape] in Ls.
        - destruct Ls as [La Lf]. destruct Sq as [[A B]|[A [_ [_ B]]]].
          + exists (Some (natural t0, lenN vs / lenN chans, chans)). split; [apply New; now rewrite La|exact B].
          + exists (Some (d, k, ch)). split; [|exact B]. split; [congruence|]. rewrite A.
            rewrite A in Lf, La.
            destruct Lf as [Lf|Lf]; [now left|right]. eapply Forall_impl; [|exact Lf]. intros q Hq.
            rewrite LfC; [exact Hq|]. rewrite La. split; [exact Ne|]. left. exists []. now rewrite app_nil_r.
        - exists (Some (natural t0, lenN vs / lenN chans, chans)). split; [|exact Sq].
          apply New. rewrite Ls. intros [X _]. congruence. }
      clear Sq. rename Sq1 into Sq.
      destruct (IH _ _ _ _ _ Se1 Ex1 Ls1 Sq E2 Hlen) as [Rs [H' [Se' [Ex' [Men' [Lp' Sam']]]]]].
      split; [now constructor|]. exists H'. split; [exact Se'|]. split; [exact Ex'|]. split.
      * intros p. rewrite Men', Men, Exists_cons. cbn [names]. tauto.
      * split; [intros p name; rewrite Lp', Lp; reflexivity|].
        intros t p vss S0 G. inversion G as [|c0 ws cs0 wss G1 G2]; subst. cbn [concat]. rewrite lenN_app.
        destruct (gives_inv _ _ _ _ _ _ _ _ G1) as [[Hp ->]|[Q [i [Hi ->]]]].
        -- destruct (Sout t p Hp S0) as [S1 Q1]. destruct (Sam' t p wss S1 G2) as [Z [S2 Q2]].
           split; [rewrite Eb, lenN_app in Z; change (lenN (@nil (carrier t))) with 0; lia|]. split; [exact S2|]. now rewrite Q2, Q1.
        -- subst t0. cbn [eq_rect]. destruct (Sin i p Hi S0) as [S1 Q1].
           destruct (Sam' t p wss S1 G2) as [Z [S2 Q2]].
           split; [rewrite Eb, lenN_app in Z; match goal with |- context [dealt lay ?a ?b ?c] => pose proof (dealt_len lay a b c) end; lia|].
           split; [exact S2|]. rewrite Q2, Q1, <- app_assoc. reflexivity.
Qed.
