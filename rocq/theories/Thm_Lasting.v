(** * C87 Exactly which programs leave a file that can be closed at any time *)
From Coq Require Import Strings.String.
From Verif Require Import Base Lib DataTypes MetaData Maps DataBlock Index RawData ChannelReader TdmsFile Vectors
  SpecCodec SpecIndex SpecSession SpecRead SpecWrite SpecLocal Codec_proofs Segment_proofs Index_proofs History_proofs
  Session_proofs Block_proofs Request_proofs Plan_proofs Read_proofs Add_proofs Thm_Index Thm_Read Write_proofs
  Step_proofs Program_proofs Thm_Open Thm_Write Reopen_proofs Thm_Reopen SpecExact Exact_proofs Thm_Exact Thm_Survive SpecKept Thm_Kept SpecLasting.
Close Scope string_scope.
Local Notation a := (ch "g" "a").
Local Notation b := (ch "g" "b").

Lemma refill_proper c c' : refill c c' -> proper c -> proper c'.
Proof.
  intros [e path kvs|e t chans vs vs' lay Rv Lv]; [auto|]. intros [Fx [_ [Nd [Ne [Nv Dv]]]]].
  split; [exact Fx|]. split; [exact Rv|]. split; [exact Nd|]. split; [exact Ne|]. split; [|now rewrite Lv].
  intros ->. destruct vs; [congruence|]. rewrite lenN_cons in Lv. change (lenN (@nil (carrier t))) with 0 in Lv. lia.
Qed.
Lemma refill_good E c c' : refill c c' -> good_call E c -> good_call E c'.
Proof. intros [e path kvs|e t chans vs vs' lay Rv Lv]; [auto|]. cbn [good_call]. now rewrite Lv. Qed.
Lemma refill_fresh : forall cs cs' act, Forall2 refill cs cs' -> fresh_lists act cs -> fresh_lists act cs'.
Proof.
  induction cs as [|c cs IH]; intros cs' act R Fr; inversion R as [|? c' ? r' R1 R2]; subst; [exact Fr|].
  destruct R1; cbn [fresh_lists] in *; [now apply IH|]. destruct Fr as [A B]. split; [exact A|now apply IH].
Qed.
Lemma refill_self c : proper c -> refill c c.
Proof. destruct c; [constructor|]. intros [_ [Rv _]]. now constructor. Qed.
Lemma refill_selves cs : Forall proper cs -> Forall2 refill cs cs.
Proof. induction 1; constructor; [now apply refill_self|assumption]. Qed.
Lemma refill_forall (P : call -> Prop) : (forall c c', refill c c' -> P c -> P c') ->
  forall cs cs', Forall2 refill cs cs' -> Forall P cs -> Forall P cs'.
Proof. intros HP cs cs'. induction 1 as [|c c' cs cs' R _ IH]; intros Q; [constructor|]. inversion Q; subst. constructor; eauto. Qed.
Lemma fresh_app : forall past rest act, fresh_lists act (past ++ rest) -> fresh_lists act past.
Proof.
  induction past as [|c past IH]; intros rest act Fr; [exact Logic.I|].
  destruct c; cbn [app fresh_lists] in *; [eapply IH; eauto|]. destruct Fr as [A B]. split; [exact A|eapply IH; eauto].
Qed.
Lemma fresh_restarts E : forall cs act, Forall proper cs -> fresh_lists act cs -> restarts E act cs.
Proof.
  induction cs as [|c cs IH]; intros act P Fr; [exact Logic.I|]. inversion P as [|? ? P1 P2]; subst.
  destruct c; cbn [fresh_lists restarts proper] in *; [now apply IH|]. destruct Fr as [A B]. left. split; [exact A|].
  split; [apply P1|now apply IH].
Qed.

(** A program with fresh lists never fails. *)
Lemma fresh_ok E : forall cs H F F' rs, session E H F -> exact_end H F -> Forall proper cs -> fresh_lists (active_after H) cs ->
  run_calls E F cs = (F', rs) -> lenN (tf_bytes F') < 2 ^ 64 -> Forall (eq (Ok tt)) rs.
Proof.
  induction cs as [|c cs IH]; intros H F F' rs Se Ex P Fr Er Hl; cbn [run_calls] in Er; [injection Er as _ <-; constructor|].
  inversion P as [|? ? P1 P2]; subst. destruct (do_call E F c) as [F1 r] eqn:E1. destruct (run_calls E F1 cs) as [F2 rs'] eqn:E2.
  injection Er as <- <-. destruct (run_grows _ _ _ _ _ E2) as [bs2 Eb2].
  assert (Hl1 : lenN (tf_bytes F1) < 2 ^ 64) by (rewrite Eb2, lenN_app in Hl; lia).
  destruct c as [e path kvs|e t chans vs lay]; cbn [do_call fresh_lists proper] in *.
  - destruct (props_step _ _ _ _ _ _ _ _ Se Ex E1 Hl1) as [-> [s [bs [Wr [Eb [Ex1 [Act _]]]]]]].
    constructor; [reflexivity|]. apply (IH (H ++ [s]) F1 F2); auto; [eapply ss_write; eauto|now rewrite Act].
  - destruct Fr as [Nc Fr]. destruct P1 as [Fx [Rv [Nd [Ne [Nv Dv]]]]].
    destruct (write_step E e H F t chans vs lay Se Ex Fx Rv Nd Ne Nv Dv (or_introl Nc) F1 r E1 Hl1)
      as [-> [s [bs [Wr [Eb [Lb [Ex1 [Act _]]]]]]]].
    constructor; [reflexivity|]. apply (IH (H ++ [s]) F1 F2); auto; [eapply ss_write; eauto|now rewrite Act].
Qed.

Lemma lasting_if E H F cs : session E H F -> tdms_new E (tf_bytes F) = Ok F -> exact_end H F ->
  Forall proper cs -> Forall (good_call E) cs -> fresh_lists (active_after H) cs ->
  addressable E (tf_bytes (fst (run_calls E F cs))) -> lasting E F cs.
Proof.
  intros Se Op Ex P Gc Fr Ad past rest F1 rs -> Er.
  destruct (run_prefix_addressable E past rest F F1 rs Ad Er) as [A1 A2].
  apply Forall_app in P. destruct P as [P _]. apply Forall_app in Gc. destruct Gc as [Gc _]. apply fresh_app in Fr.
  assert (Rs : Forall (eq (Ok tt)) rs).
  { eapply (fresh_ok E past H F F1 rs); eauto. etransitivity; [exact A1|reflexivity]. }
  split; [exact Rs|].
  destruct (session_accepted _ _ _ Se) as [Ac _]. destruct (accepted_described _ _ _ Ac) as [_ [Hn [_ [Ha _]]]].
  refine (proj1 (reopen_run E past F F1 rs Op _ Gc _ Er Rs A2)).
  - rewrite Hn. exact Ex.
  - rewrite Ha. now apply fresh_restarts.
Qed.

Lemma closable_only_if E : forall cs H F, session E H F -> tdms_new E (tf_bytes F) = Ok F -> exact_end H F ->
  sized_now H -> chunk_bytes (active_formats H) < 2 ^ 64 ->
  Forall proper cs -> Forall (good_call E) cs ->
  addressable E (tf_bytes (fst (run_calls E F cs))) ->
  (forall cs', Forall2 refill cs cs' -> closable E F cs') -> fresh_lists (active_after H) cs.
Proof.
  induction cs as [|c cs IH]; intros H F Se Op Ex Sd Ck P Gc Ad La; [exact Logic.I|].
  inversion P as [|? ? P1 P2]; subst. inversion Gc as [|? ? G1 G2]; subst.
  pose proof (refill_self c P1) as Rc. pose proof (refill_selves cs P2) as Ra.
  destruct (do_call E F c) as [F1 r] eqn:E1.
  assert (Ad1 : addressable E (tf_bytes F1)).
  { apply (run_prefix_addressable E [c] cs F F1 [r]); [exact Ad|]. cbn [run_calls]. now rewrite E1. }
  assert (Hl1 : lenN (tf_bytes F1) < 2 ^ 64) by (destruct Ad1 as [A1 _]; etransitivity; [exact A1|reflexivity]).
  assert (Adr : addressable E (tf_bytes (fst (run_calls E F1 cs)))).
  { cbn [run_calls] in Ad. rewrite E1 in Ad. destruct (run_calls E F1 cs). exact Ad. }
  assert (Op1 : fresh_lists (active_after H) [c] -> tdms_new E (tf_bytes F1) = Ok F1).
  { intros Fr. refine (proj2 (lasting_if E H F [c] Se Op Ex _ _ Fr _ [c] [] F1 [r] eq_refl _)).
    - repeat constructor. exact P1.
    - repeat constructor. exact G1.
    - cbn [run_calls]. now rewrite E1.
    - cbn [run_calls]. now rewrite E1. }
  assert (Lr : forall cs', Forall2 refill cs cs' -> closable E F1 cs').
  { intros cs' R past rest F2 rs -> Er.
    apply (La (c :: past ++ rest) (Forall2_cons _ _ Rc R) (c :: past) rest F2 (r :: rs) eq_refl).
    cbn [run_calls]. rewrite E1, Er. reflexivity. }
  destruct c as [e path kvs|e t chans vs lay]; cbn [do_call fresh_lists proper] in *.
  - destruct (props_step _ _ _ _ _ _ _ _ Se Ex E1 Hl1) as [-> [s [bs [Wr [Eb [Ex1 [Act [_ [_ [Lf _]]]]]]]]]].
    assert (Af : active_formats (H ++ [s]) = active_formats H).
    { unfold active_formats. rewrite Act. apply map_ext. intros p. now rewrite Lf. }
    rewrite <- Act. apply (IH (H ++ [s]) F1); auto.
    + eapply ss_write; eauto.
    + unfold sized_now. now rewrite Af.
    + now rewrite Af.
  - destruct P1 as [Fx [Rv [Nd [Ne [Nv Dv]]]]].
    assert (Pc : 0 < lenN chans) by (destruct chans; [congruence|rewrite lenN_cons; lia]).
    set (k := lenN vs / lenN chans) in *.
    assert (Lv : lenN vs = lenN chans * k) by (unfold k; pose proof (N.div_mod (lenN vs) (lenN chans)); lia).
    assert (Pk : 0 < k). { destruct (N.eq_dec k 0) as [Z|]; [|lia]. rewrite Z, N.mul_0_r in Lv. destruct vs; [congruence|rewrite lenN_cons in Lv; lia]. }
    destruct (the_segment E e H F t chans vs lay Se Fx Nd Ne Dv)
      as [omit [s0 [bs0 [Est [_ [_ [_ [_ [_ [Snext [_ [Lbs _]]]]]]]]]]]].
    assert (Eb0 : tf_bytes F1 = tf_bytes F ++ bs0).
    { unfold write_channels_e in E1. rewrite Est in E1. destruct (add_segment E (tf_ix F) s0). injection E1 as <- _. reflexivity. }
    assert (Rm : room E F t k chans).
    { destruct Ad1 as [A1 A2]. rewrite Eb0, lenN_app, Lbs, Snext, Lv in A1, A2. split; lia. }
    assert (Nc : ~ continues (active_after H) chans).
    { intros Co. destruct (C80_lost E e H F t lay k chans Se Op Ex Fx Nd Ne Pk Sd Ck Rm Co) as [vs' [F' [x [[Rv' Lv'] [Ew Er]]]]].
      destruct (La (CallChans e t chans vs' lay :: cs)) with (past := [CallChans e t chans vs' lay]) (rest := cs) (F1 := F') (rs := [@Ok unit tt]) as [F2 X].
      - constructor; [|exact Ra]. constructor; [exact Rv'|congruence].
      - reflexivity.
      - cbn [run_calls do_call]. now rewrite Ew.
      - congruence. }
    split; [exact Nc|].
    destruct (write_step E e H F t chans vs lay Se Ex Fx Rv Nd Ne Nv Dv (or_introl Nc) F1 r E1 Hl1)
      as [-> [s [bs [Wr [Eb [Lb [Ex1 [Act [LfN _]]]]]]]]].
    destruct (natural_size t Fx) as [Nz [Wn [Pz _]]].
    assert (Af : active_formats (H ++ [s]) = map (fun _ => call_meta t vs chans) chans).
    { unfold active_formats. rewrite Act. apply map_ext_in. intros p Hp. now rewrite (LfN Nc p Hp). }
    rewrite <- Act. apply (IH (H ++ [s]) F1); auto.
    + eapply ss_write; eauto.
    + unfold sized_now. rewrite Af. apply Forall_forall. intros x Hx. apply in_map_iff in Hx. destruct Hx as [p [<- _]].
      unfold call_meta. cbn [rm_n rm_type]. fold k. rewrite Wn. auto.
    + rewrite Af.
      assert (Cb : chunk_bytes (map (fun _ => call_meta t vs chans) chans) = lenN chans * (k * size_bytes t)).
      { rewrite (chunk_uniform k (size_bytes t)).
        - unfold lenN. now rewrite map_length.
        - apply Forall_forall. intros x Hx. apply in_map_iff in Hx. destruct Hx as [p [<- _]]. unfold call_meta. cbn [rm_n rm_type].
          split; [reflexivity|]. split; assumption. }
      rewrite Cb. destruct Rm as [R1 _]. change (2 ^ 64) with (2 ^ 63 + 2 ^ 63). lia.
Qed.

Lemma same_call' E c c' F G : proper c -> refill c c' -> tf_ix F = tf_ix G -> lenN (tf_bytes F) = lenN (tf_bytes G) ->
  tf_ix (fst (do_call E F c)) = tf_ix (fst (do_call E G c')) /\ lenN (tf_bytes (fst (do_call E F c))) = lenN (tf_bytes (fst (do_call E G c'))).
Proof.
  intros P R. destruct R as [e path kvs|e t chans vs vs' lay Rv L].
  - apply (same_call E (fun _ => SI8)); constructor.
  - apply (same_call E (fun _ => t)); [|now constructor]. split; [exact P|]. apply Forall_forall. reflexivity.
Qed.
Lemma same_run' E : forall cs cs' F G, Forall proper cs -> Forall2 refill cs cs' ->
  tf_ix F = tf_ix G -> lenN (tf_bytes F) = lenN (tf_bytes G) ->
  lenN (tf_bytes (fst (run_calls E F cs))) = lenN (tf_bytes (fst (run_calls E G cs'))).
Proof.
  induction cs as [|c cs IH]; intros cs' F G P R Ei El; inversion R as [|? c' ? r' R1 R2]; subst; [exact El|].
  inversion P as [|? ? P1 P2]; subst. cbn [run_calls].
  destruct (same_call' E c c' F G P1 R1 Ei El) as [A B].
  destruct (do_call E F c) as [F1 x], (do_call E G c') as [G1 y]. cbn [fst] in A, B.
  specialize (IH r' F1 G1 P2 R2 A B). destruct (run_calls E F1 cs), (run_calls E G1 r'). exact IH.
Qed.

(** ** C87 *)
(** Whatever the values, the file can be closed after every call and opens as it
    was, if and only if no data call continues the channel list. *)
Theorem C87_exactly : forall E H F cs,
  session E H F -> tdms_new E (tf_bytes F) = Ok F -> exact_end H F ->
  sized_now H -> chunk_bytes (active_formats H) < 2 ^ 64 ->
  Forall proper cs -> Forall (good_call E) cs ->
  addressable E (tf_bytes (fst (run_calls E F cs))) ->
  (forall cs', Forall2 refill cs cs' -> lasting E F cs') <-> fresh_lists (active_after H) cs.
Proof.
  intros E H F cs Se Op Ex Sd Ck P Gc Ad. split.
  - intros La. apply (closable_only_if E cs H F); auto. intros cs' R past rest F1 rs Ec Er. exists F1. now apply (La cs' R past rest F1 rs Ec Er).
  - intros Fr cs' R. apply (lasting_if E H); auto.
    + exact (refill_forall proper refill_proper cs cs' R P).
    + exact (refill_forall (good_call E) (refill_good E) cs cs' R Gc).
    + now apply (refill_fresh cs).
    + unfold addressable. rewrite <- (same_run' E cs cs' F F P R eq_refl eq_refl). exact Ad.
Qed.

(** For other programs there are values with which the file does not even open
    after one of the calls. *)
Theorem C87_opens : forall E H F cs,
  session E H F -> tdms_new E (tf_bytes F) = Ok F -> exact_end H F ->
  sized_now H -> chunk_bytes (active_formats H) < 2 ^ 64 ->
  Forall proper cs -> Forall (good_call E) cs ->
  addressable E (tf_bytes (fst (run_calls E F cs))) ->
  (forall cs', Forall2 refill cs cs' -> closable E F cs') <-> fresh_lists (active_after H) cs.
Proof.
  intros E H F cs Se Op Ex Sd Ck P Gc Ad. split; [now apply closable_only_if|].
  intros Fr cs' R past rest F1 rs Ec Er. exists F1.
  now apply (proj2 (C87_exactly E H F cs Se Op Ex Sd Ck P Gc Ad) Fr cs' R past rest F1 rs Ec Er).
Qed.

(** From an empty file. *)
Theorem C87_new_file : forall E cs, Forall proper cs -> Forall (good_call E) cs ->
  addressable E (tf_bytes (fst (run_calls E empty_file cs))) ->
  (forall cs', Forall2 refill cs cs' -> lasting E empty_file cs') <-> fresh_lists [] cs.
Proof.
  intros E cs P Gc Ad. apply (C87_exactly E []); [| | | | |exact P|exact Gc|exact Ad].
  - apply fresh_session.
  - apply (C13_empty E [] eq_refl).
  - reflexivity.
  - constructor.
  - reflexivity.
Qed.

(** Such a program, and only such a program, can be relied on: closed after any
    call, it gives back everything that was written (C83), whatever the values. *)
Lemma fresh_sequenced : forall cs prev, Forall proper cs ->
  fresh_lists (match prev with None => [] | Some (_, _, chans) => chans end) cs -> sequenced prev cs.
Proof.
  induction cs as [|c cs IH]; intros prev P Fr; [exact Logic.I|]. inversion P as [|? ? P1 P2]; subst.
  destruct c; cbn [fresh_lists sequenced proper] in *; [now apply IH|]. destruct Fr as [A B]. split; [exact P1|].
  destruct prev as [[[d n] ch0]|]; [left; split; [exact A|]|]; now apply IH.
Qed.
Theorem C87_dependable : forall E ty cs, (forall p, fixed (ty p)) -> Forall (sound ty) cs -> Forall (good_call E) cs ->
  addressable E (tf_bytes (fst (run_calls E empty_file cs))) ->
  (forall cs', Forall2 refill cs cs' ->
     forall past rest F1 rs, cs' = past ++ rest -> run_calls E empty_file past = (F1, rs) ->
     exists F2, tdms_new E (tf_bytes F1) = Ok F2 /\ holds_all E ty [] empty_file past F2)
  <-> fresh_lists [] cs.
Proof.
  intros E ty cs Ft So Gc Ad.
  assert (P : Forall proper cs) by (eapply Forall_impl; [|exact So]; intros c; destruct c; [auto|now intros [X _]]).
  split.
  - intros K. apply (C87_opens E [] empty_file cs); [apply fresh_session|apply (C13_empty E [] eq_refl)|reflexivity|constructor|reflexivity|exact P|exact Gc|exact Ad|].
    intros cs' R past rest F1 rs Ec Er. destruct (K cs' R past rest F1 rs Ec Er) as [F2 [X _]]. now exists F2.
  - intros Fr cs' R past rest F1 rs Ec Er. exists F1. split.
    + now apply (proj2 (C87_new_file E cs P Gc Ad) Fr cs' R past rest F1 rs Ec Er).
    + apply (proj2 (C83_new_file E ty cs Ft So Ad) (fresh_sequenced cs None P Fr) cs' R past rest F1 rs Ec Er).
Qed.

(** Two channels, properties, then the channels in the other order: after any
    call the file can be closed.  With the same order again it cannot. *)
Definition C87_good : list call :=
  [CallChans LittleE SI32 [a; b] [1; 2; 3; 4]%Z Interleaved; CallProps LittleE (B "/'g'") [(B "unit", PString (B "V"))];
   CallChans BigE SI32 [b; a] [5; 6; 7; 8]%Z Contigious].
Definition C87_bad : list call :=
  [CallChans LittleE SI32 [a; b] [1; 2; 3; 4]%Z Interleaved; CallChans BigE SI32 [a; b] [5; 6; 7; 8]%Z Interleaved].
Example C87_case :
  Forall (sound (fun _ => SI32)) C87_good /\ Forall proper C87_good /\ Forall (good_call dbg) C87_good
  /\ addressable dbg (tf_bytes (fst (run_calls dbg empty_file C87_good))) /\ fresh_lists [] C87_good
  /\ (forall cs', Forall2 refill C87_good cs' -> lasting dbg empty_file cs')
  /\ Forall (sound (fun _ => SI32)) C87_bad /\ Forall proper C87_bad /\ Forall (good_call dbg) C87_bad
  /\ addressable dbg (tf_bytes (fst (run_calls dbg empty_file C87_bad)))
  /\ ~ fresh_lists [] C87_bad /\ ~ closable dbg empty_file C87_bad.
Proof.
  assert (Nab : NoDup [a; b]) by (repeat constructor; cbn; intuition discriminate).
  assert (Nba : NoDup [b; a]) by (repeat constructor; cbn; intuition discriminate).
  assert (Sg : Forall (sound (fun _ => SI32)) C87_good).
  { unfold C87_good. repeat (apply Forall_cons || apply Forall_nil); cbn [sound]; try exact Logic.I;
      (split; [apply good_i32; try assumption; try discriminate; reflexivity|repeat constructor]). }
  assert (Sb : Forall (sound (fun _ => SI32)) C87_bad).
  { unfold C87_bad. repeat (apply Forall_cons || apply Forall_nil); cbn [sound]; try exact Logic.I;
      (split; [apply good_i32; try assumption; try discriminate; reflexivity|repeat constructor]). }
  assert (Pr : forall cs, Forall (sound (fun _ => SI32)) cs -> Forall proper cs).
  { intros cs So. eapply Forall_impl; [|exact So]. intros c; destruct c; [auto|now intros [X _]]. }
  assert (Gg : Forall (good_call dbg) C87_good).
  { unfold C87_good. repeat (apply Forall_cons || apply Forall_nil); cbn [good_call]; good_strs. }
  assert (Gb : Forall (good_call dbg) C87_bad).
  { unfold C87_bad. repeat (apply Forall_cons || apply Forall_nil); cbn [good_call]; good_strs. }
  assert (Ag : addressable dbg (tf_bytes (fst (run_calls dbg empty_file C87_good)))) by (vm_compute; split; [reflexivity|discriminate]).
  assert (Ab : addressable dbg (tf_bytes (fst (run_calls dbg empty_file C87_bad)))) by (vm_compute; split; [reflexivity|discriminate]).
  assert (Fg : fresh_lists [] C87_good).
  { cbn [fresh_lists C87_good]. split; [intros [X _]; congruence|]. split; [not_continues|exact Logic.I]. }
  split; [exact Sg|]. split; [now apply Pr|]. split; [exact Gg|]. split; [exact Ag|]. split; [exact Fg|].
  split; [now apply (C87_new_file dbg C87_good (Pr _ Sg) Gg Ag)|].
  split; [exact Sb|]. split; [now apply Pr|]. split; [exact Gb|]. split; [exact Ab|]. split.
  - cbn [fresh_lists C87_bad]. intros [_ [X _]]. apply X. split; [discriminate|left; now exists []].
  - intros C. destruct (run_calls dbg empty_file C87_bad) as [F1 rs] eqn:Er.
    destruct (C C87_bad [] F1 rs (eq_sym (app_nil_r _)) Er) as [F2 X].
    assert (Y : tdms_new dbg (tf_bytes (fst (run_calls dbg empty_file C87_bad))) = Ok F2) by now rewrite Er.
    vm_compute in Y. discriminate.
Qed.
Print Assumptions C87_exactly.
Print Assumptions C87_opens.
Print Assumptions C87_new_file.
Print Assumptions C87_dependable.
