(** * C89 A crash at any moment of a program *)
From Coq Require Import Strings.String.
From Verif Require Import Base Lib DataTypes MetaData Maps DataBlock Index RawData ChannelReader TdmsFile Vectors
  SpecCodec SpecIndex SpecSession SpecRead SpecWrite SpecLocal Codec_proofs Segment_proofs Index_proofs History_proofs
  Session_proofs Block_proofs Request_proofs Plan_proofs Read_proofs Add_proofs Thm_Index Thm_Read Write_proofs
  Step_proofs Program_proofs Thm_Open Thm_Write Reopen_proofs Thm_Reopen SpecExact Exact_proofs Thm_Exact Thm_Survive SpecKept Thm_Kept
  SpecLasting Thm_Lasting.
Close Scope string_scope.
Local Notation a := (ch "g" "a").
Local Notation b := (ch "g" "b").

(** The state in the middle of a program with fresh lists. *)
Lemma fresh_midway E : forall past rest H F F1 rs, session E H F -> exact_end H F -> Forall proper past ->
  fresh_lists (active_after H) (past ++ rest) ->
  run_calls E F past = (F1, rs) -> lenN (tf_bytes F1) < 2 ^ 64 ->
  exists H1, session E H1 F1 /\ exact_end H1 F1 /\ fresh_lists (active_after H1) rest.
Proof.
  induction past as [|c cs IH]; intros rest H F F' rs Se Ex P Fr Er Hl; cbn [run_calls app] in *.
  { injection Er as <- _. exists H. auto. }
  inversion P as [|? ? P1 P2]; subst. destruct (do_call E F c) as [F1 r] eqn:E1. destruct (run_calls E F1 cs) as [F2 rs'] eqn:E2.
  injection Er as <- <-. destruct (run_grows _ _ _ _ _ E2) as [bs2 Eb2].
  assert (Hl1 : lenN (tf_bytes F1) < 2 ^ 64) by (rewrite Eb2, lenN_app in Hl; lia).
  destruct c as [e path kvs|e t chans vs lay]; cbn [do_call fresh_lists proper] in *.
  - destruct (props_step _ _ _ _ _ _ _ _ Se Ex E1 Hl1) as [-> [s [bs [Wr [Eb [Ex1 [Act _]]]]]]].
    apply (IH rest (H ++ [s]) F1 F2 rs'); auto; [eapply ss_write; eauto|now rewrite Act].
  - destruct Fr as [Nc Fr]. destruct P1 as [Fx [Rv [Nd [Ne [Nv Dv]]]]].
    destruct (write_step E e H F t chans vs lay Se Ex Fx Rv Nd Ne Nv Dv (or_introl Nc) F1 r E1 Hl1)
      as [-> [s [bs [Wr [Eb [Lb [Ex1 [Act _]]]]]]]].
    apply (IH rest (H ++ [s]) F1 F2 rs'); auto; [eapply ss_write; eauto|now rewrite Act].
Qed.

(** What the midway state gives for the next call. *)
Lemma midway E H F past c rest F1 rs F2 r :
  session E H F -> tdms_new E (tf_bytes F) = Ok F -> exact_end H F ->
  Forall proper (past ++ c :: rest) -> Forall (good_call E) (past ++ c :: rest) -> fresh_lists (active_after H) (past ++ c :: rest) ->
  addressable E (tf_bytes (fst (run_calls E F (past ++ c :: rest)))) ->
  run_calls E F past = (F1, rs) -> do_call E F1 c = (F2, r) ->
  exists H1, r = Ok tt /\ tdms_new E (tf_bytes F1) = Ok F1 /\ file_segments E (tf_bytes F1) H1
    /\ ix_next (tf_ix F1) = lenN (tf_bytes F1) /\ lenN (tf_bytes F1) <= seek_max E
    /\ good_call E c /\ zero_if_left_out E (active_after H1) c /\ ~ leaves_out (active_after H1) c
    /\ addressable E (tf_bytes F2)
    /\ exists g, tf_bytes (fst (run_calls E F (past ++ c :: rest))) = tf_bytes F2 ++ g.
Proof.
  intros Se Op Ex P Gc Fr Ad Er E2.
  pose proof (run_prefix_addressable E past (c :: rest) F F1 rs Ad Er) as [A1 A2].
  destruct (lasting_if E H F _ Se Op Ex P Gc Fr Ad past (c :: rest) F1 rs eq_refl Er) as [Rs Op1].
  apply Forall_app in P. destruct P as [Pp Pc]. apply Forall_app in Gc. destruct Gc as [_ Gc].
  inversion Pc as [|? ? Pc1 _]; subst. inversion Gc as [|? ? Gc1 _]; subst.
  destruct (fresh_midway E past (c :: rest) H F F1 rs Se Ex Pp Fr Er) as [H' [Se' [Ex' Fr']]].
  { etransitivity; [exact A1|reflexivity]. }
  destruct (C52_open_iff E (tf_bytes F1) F1) as [X _]. destruct (X Op1) as [_ [H1 [Fs _]]]. clear X.
  pose proof (ss_open E _ F1 H1 Fs Op1) as Se1. exists H1.
  destruct (session_accepted _ _ _ Se') as [Ac _]. destruct (accepted_described _ _ _ Ac) as [_ [Hn [_ [Ha _]]]].
  destruct (session_accepted _ _ _ Se1) as [Ac1 _]. destruct (accepted_described _ _ _ Ac1) as [_ [_ [_ [Ha1 _]]]].
  assert (Act : active_after H1 = active_after H') by congruence. rewrite Act.
  assert (Ad2 : exists g, tf_bytes (fst (run_calls E F (past ++ c :: rest))) = tf_bytes F2 ++ g).
  { rewrite (run_app E past (c :: rest) F F1 rs Er). cbn [run_calls]. rewrite E2. destruct (run_calls E F2 rest) as [F3 x] eqn:E3.
    cbn [fst]. apply (run_grows _ _ _ _ _ E3). }
  assert (A : addressable E (tf_bytes F2)).
  { destruct Ad2 as [g Eg]. rewrite Eg in Ad. unfold addressable in *. rewrite lenN_app in Ad. lia. }
  assert (R : r = Ok tt).
  { assert (Fr1 : fresh_lists (active_after H') [c]).
    { destruct c; cbn [fresh_lists] in *; [exact Logic.I|]. split; [apply Fr'|exact Logic.I]. }
    assert (Ec : run_calls E F1 [c] = (F2, [r])) by (cbn [run_calls]; now rewrite E2).
    pose proof (fresh_ok E [c] H' F1 F2 [r] Se' Ex' (Forall_cons _ Pc1 (Forall_nil _)) Fr1 Ec) as Q.
    specialize (Q ltac:(destruct A as [A _]; etransitivity; [exact A|reflexivity])). now inversion Q. }
  split; [exact R|]. split; [exact Op1|]. split; [exact Fs|]. split; [rewrite Hn; exact Ex'|]. split; [exact A2|].
  split; [exact Gc1|]. split; [|split; [|split; [exact A|exact Ad2]]].
  - destruct c; cbn [zero_if_left_out fresh_lists] in *; [exact Logic.I|]. left. apply Fr'.
  - destruct c; cbn [leaves_out fresh_lists] in *; [auto|]. apply Fr'.
Qed.

(** A program whose data calls never continue the channel list is interrupted:
    of the bytes of the finished file only the first [n] are there, and they end
    inside what call [c] writes.  Before the fourth byte of the call the file is
    as after the calls [past]; once all of its head is there, as after the call;
    in between nothing can be opened any more. *)
Theorem C89_crash : forall E H F past c rest F1 rs F2 r,
  session E H F -> tdms_new E (tf_bytes F) = Ok F -> exact_end H F ->
  let cs := past ++ c :: rest in
  Forall proper cs -> Forall (good_call E) cs -> fresh_lists (active_after H) cs ->
  let final := tf_bytes (fst (run_calls E F cs)) in
  addressable E final ->
  run_calls E F past = (F1, rs) -> do_call E F1 c = (F2, r) ->
  let head := lenN (tf_bytes F2) - data_bytes c in
  lenN (tf_bytes F1) + 32 <= head /\ data_bytes c <= lenN (tf_bytes F2)
  /\ forall n, (length (tf_bytes F1) <= n <= length (tf_bytes F2))%nat ->
     let cut := firstn n final in
     tdms_new E cut =
       if N.of_nat n <? lenN (tf_bytes F1) + 4 then Ok (mkTF (tf_ix F1) cut)
       else if N.of_nat n <? head then Err (EIo UnexpectedEof)
       else Ok (mkTF (tf_ix F2) cut).
Proof.
  intros E H F past c rest F1 rs F2 r Se Op Ex cs P Gc Fr final Ad Er E2 head.
  destruct (midway E H F past c rest F1 rs F2 r Se Op Ex P Gc Fr Ad Er E2)
    as [H1 [-> [Op1 [Fs [Hn [Hm [Gc1 [Zl [Nl [Ad2 [g Eg]]]]]]]]]]].
  destruct (C46_cut_partial E _ H1 F1 c F2 Op1 Fs Hn Hm Gc1 Zl E2) as [h [B [B1 [_ C]]]]. specialize (B1 Nl).
  assert (Hh : head = h) by (unfold head; lia). rewrite Hh. split; [lia|]. split; [lia|].
  intros n Hn'. cbv zeta.
  assert (Ec : firstn n final = firstn n (tf_bytes F2)).
  { unfold final, cs. rewrite Eg, firstn_app. replace (n - length (tf_bytes F2))%nat with 0%nat by lia. cbn [firstn]. now rewrite app_nil_r. }
  rewrite Ec. exact (C n Hn').
Qed.

(** Every position in the finished file is one of these. *)
Theorem C89_positions : forall E cs F n,
  (length (tf_bytes F) <= n < length (tf_bytes (fst (run_calls E F cs))))%nat ->
  exists past c rest F1 rs F2 r, cs = past ++ c :: rest /\ run_calls E F past = (F1, rs) /\ do_call E F1 c = (F2, r)
    /\ (length (tf_bytes F1) <= n < length (tf_bytes F2))%nat.
Proof.
  intros E. induction cs as [|c cs IH]; intros F n Hn; cbn [run_calls fst] in Hn; [lia|].
  destruct (do_call E F c) as [F1 r] eqn:E1. destruct (run_calls E F1 cs) as [F2 rs] eqn:E2. cbn [fst] in Hn.
  destruct (Nat.ltb n (length (tf_bytes F1))) eqn:K.
  - exists [], c, cs, F, [], F1, r. repeat split; auto; [lia|]. now apply Nat.ltb_lt.
  - apply Nat.ltb_ge in K. destruct (IH F1 n) as (past & c' & rest & Fa & rsa & Fb & rb & -> & Ea & Eb & Hb).
    { rewrite E2. cbn [fst]. lia. }
    exists (c :: past), c', rest, Fa, (r :: rsa), Fb, rb. split; [reflexivity|]. split; [cbn [run_calls]; now rewrite E1, Ea|]. auto.
Qed.

(** What was open to reading before the call still is, if the file opens. *)
Theorem C89_kept : forall E ty past c rest F1 rs F2 r n Fc p vss start out,
  let cs := past ++ c :: rest in
  (forall p, fixed (ty p)) -> Forall (sound ty) cs -> Forall (good_call E) cs -> fresh_lists [] cs ->
  let final := tf_bytes (fst (run_calls E empty_file cs)) in
  addressable E final ->
  run_calls E empty_file past = (F1, rs) -> do_call E F1 c = (F2, r) ->
  (length (tf_bytes F1) <= n <= length (tf_bytes F2))%nat ->
  tdms_new E (firstn n final) = Ok Fc ->
  Forall2 (gives (ty p) p) past vss -> Exists (names p) past ->
  start < lenN (concat vss) -> start + lenN out <= lenN (concat vss) ->
  read_channel_from E Fc (ty p) p start out
  = (overlay out (firstn (length out) (skipn (N.to_nat start) (concat vss))), Ok tt).
Proof.
  intros E ty past c rest F1 rs F2 r n Fc p vss start out cs Ft So Gc Fr final Ad Er E2 Hn Oc G Nm L1 L2.
  assert (P : Forall proper cs) by (eapply Forall_impl; [|exact So]; intros c0; destruct c0; [auto|now intros [X _]]).
  destruct (midway E [] empty_file past c rest F1 rs F2 r (fresh_session E) (C13_empty E [] eq_refl) eq_refl P Gc Fr Ad Er E2)
    as [H1 [-> [Op1 [Fs [Hx [Hm [Gc1 [Zl [Nl [Ad2 [g Eg]]]]]]]]]]].
  assert (Ec : firstn n final = firstn n (tf_bytes F2)).
  { unfold final, cs. rewrite Eg, firstn_app. replace (n - length (tf_bytes F2))%nat with 0%nat by lia. cbn [firstn]. now rewrite app_nil_r. }
  rewrite Ec in Oc.
  pose proof (fresh_sequenced cs None P Fr) as Sq. pose proof (sequenced_app _ _ _ Sq) as Sq1.
  pose proof (run_prefix_addressable E past (c :: rest) empty_file F1 rs Ad Er) as [A1 _].
  destruct (program E past [] empty_file F1 rs None (fresh_session E) eq_refl eq_refl Sq1 Er) as [_ [H' [Se' [_ [Men [_ Sam]]]]]].
  { etransitivity; [exact A1|reflexivity]. }
  destruct (Sam (ty p) p vss (Forall_nil _) G) as [_ [St Q]]. change (samples_after (tf_bytes empty_file) (ty p) [] p) with (@nil (carrier (ty p))) in Q.
  cbn [app] in Q.
  assert (M' : mentioned (all_objs H') p) by (apply Men; now right).
  pose proof (ss_open E _ F1 H1 Fs Op1) as Se1.
  destruct (C14_incremental E H' F1 Se') as [_ [_ [_ [B' [G' _]]]]]. destruct (C14_incremental E H1 F1 Se1) as [_ [_ [_ [B1 [G1 N1]]]]].
  assert (M1 : mentioned (all_objs H1) p).
  { destruct (mention_dec (all_objs H1) p) as [X|X]; [exact X|]. specialize (G' p M'). rewrite (N1 p X) in G'. discriminate. }
  assert (Bs : blocks_after H1 = blocks_after H') by congruence.
  assert (Ls : locs_after H1 p = locs_after H' p) by (pose proof (G' p M'); pose proof (G1 p M1); congruence).
  assert (St1 : stored (tf_bytes F1) (ty p) H1 p) by (unfold stored; rewrite Bs, Ls; exact St).
  assert (Q1 : samples_after (tf_bytes F1) (ty p) H1 p = concat vss) by (unfold samples_after in *; now rewrite Bs, Ls).
  rewrite <- Q1 in *.
  exact (C46_earlier_samples_survive_partial E (tf_bytes F1) H1 F1 c F2 n Fc (ty p) p start out Op1 Fs Hx Hm Gc1 Zl E2 Hn Oc (Ft p) Ad2 M1 St1 L1 L2).
Qed.

(** The program of C87: its last call begins at byte 185 and its data at byte
    257 of the finished file. *)
Definition C89_past : list call := firstn 2 C87_good.
Definition C89_last : call := CallChans BigE SI32 [b; a] [5; 6; 7; 8]%Z Contigious.
Example C89_case :
  let F1 := fst (run_calls dbg empty_file C89_past) in
  let F2 := fst (do_call dbg F1 C89_last) in
  let final := tf_bytes (fst (run_calls dbg empty_file C87_good)) in
  C87_good = C89_past ++ C89_last :: [] /\ Forall proper C87_good /\ Forall (good_call dbg) C87_good /\ fresh_lists [] C87_good
  /\ Forall (sound (fun _ => SI32)) C87_good /\ addressable dbg final
  /\ length (tf_bytes F1) = 185%nat /\ length (tf_bytes F2) = 273%nat /\ data_bytes C89_last = 16
  /\ Forall2 (gives SI32 a) C89_past [[1; 3]%Z; []] /\ Exists (names a) C89_past
  /\ read_channel_from dbg (open_bytes dbg (firstn 260 final)) SI32 a 0 [0; 0]%Z = ([1; 3]%Z, Ok tt)
  /\ tdms_new dbg (firstn 200 final) = Err (EIo UnexpectedEof).
Proof.
  cbn zeta. destruct C87_case as [Sg [Pg [Gg [Ag [Fg _]]]]].
  split; [reflexivity|]. split; [exact Pg|]. split; [exact Gg|]. split; [exact Fg|]. split; [exact Sg|]. split; [exact Ag|].
  split; [vm_compute; reflexivity|]. split; [vm_compute; reflexivity|]. split; [vm_compute; reflexivity|]. split; [|split].
  - constructor; [exact (gives_chans SI32 a LittleE [a; b] [1; 2; 3; 4]%Z Interleaved 0 eq_refl)|].
    constructor; [constructor|constructor].
  - left. now left.
  - split; vm_compute; reflexivity.
Qed.
Print Assumptions C89_crash.
Print Assumptions C89_positions.
Print Assumptions C89_kept.
Print Assumptions C89_case.
