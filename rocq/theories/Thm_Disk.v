(** * Claim C64: files that are closed and loaded again *)
From Coq Require Import Strings.String.
From Verif Require Import Base Lib Utf8 DataTypes MetaData Maps DataBlock Index RawData ChannelReader TdmsFile Disk
  SpecCodec SpecIndex SpecSession SpecRead SpecWrite SpecLocal SpecDisk Open_proofs Program_proofs Reopen_proofs Vectors
  Thm_Open Thm_Write Thm_Reopen.
Close Scope string_scope.
Local Notation a := (ch "g" "a").
Local Notation b := (ch "g" "b").

Lemma run_calls_app E cs1 : forall F cs2, run_calls E F (cs1 ++ cs2) =
  let '(F1, xs) := run_calls E F cs1 in let '(F2, ys) := run_calls E F1 cs2 in (F2, xs ++ ys).
Proof.
  induction cs1 as [|c cs1 IH]; intros F cs2; cbn [app run_calls].
  - destruct (run_calls E F cs2). reflexivity.
  - destruct (do_call E F c) as [F1 x]. rewrite IH. destruct (run_calls E F1 cs1) as [F2 xs].
    destruct (run_calls E F2 cs2). reflexivity.
Qed.
Lemma restarts_app E cs1 : forall prev cs2, restarts E prev (cs1 ++ cs2) -> restarts E prev cs1.
Proof.
  induction cs1 as [|c cs1 IH]; intros prev cs2 R; [exact Logic.I|].
  destruct c as [e path kvs|e t chans vs lay]; cbn [app restarts] in *; [eauto|].
  destruct R as [[R1 [R2 R3]]|[R1 [R2 [R3 R4]]]]; [left|right]; eauto 6.
Qed.
Lemma put_same p f d : put p f d p = Some f.
Proof. unfold put. now rewrite str_eqb_refl. Qed.
Lemma put_other p q f d : q <> p -> put p f d q = d q.
Proof. intros H. unfold put. destruct (str_eqb q p) eqn:K; [|reflexivity]. apply str_eqb_eq in K. contradiction. Qed.

(** ** C64 Closing and loading again makes no difference *)
(** Visits to any files in any order.  The file [p] is on the disk exactly as if
    the calls made on it since it was last created had been made in one session,
    and loading it gives that session's file: index and bytes, hence all queries
    and reads.  (For the calls of C41: each leaves out its metadata only if its
    data start with four zero bytes; the others are what is missing,
    C41_repeated_write_refuted.) *)
Theorem C64_lifetime_partial : forall E d vs p cs F rs,
  lifetime p vs = Some cs ->
  Forall (good_call E) cs -> restarts E [] cs ->
  run_calls E empty_file cs = (F, rs) -> Forall (eq (Ok tt)) rs -> lenN (tf_bytes F) <= seek_max E ->
  do_visits E d vs p = Some (tf_bytes F) /\ load E (do_visits E d vs) p = Ok F.
Proof.
  intros E d vs p cs F rs Hl Gc Rs Er Okr Hm.
  assert (Op : tdms_new E (tf_bytes F) = Ok F) by (eapply C41_reopened_partial; eauto).
  cut (do_visits E d vs p = Some (tf_bytes F)).
  { intros Hd. split; [exact Hd|]. unfold load. now rewrite Hd. }
  clear Op. revert cs F rs Hl Gc Rs Er Okr Hm. induction vs as [|v vs IH] using rev_ind; intros cs F rs Hl Gc Rs Er Okr Hm; [discriminate|].
  unfold lifetime in Hl. unfold do_visits. rewrite fold_left_app in Hl. rewrite fold_left_app. cbn [fold_left] in Hl |- *.
  fold (lifetime p vs) in Hl. fold (do_visits E d vs). unfold do_visit.
  destruct (str_eqb p (v_path v)) eqn:K.
  - apply str_eqb_eq in K. subst p. destruct (v_new v).
    + injection Hl as <-. unfold create. rewrite (C13_empty E [] eq_refl). fold empty_file. rewrite Er. cbn [fst]. apply put_same.
    + destruct (lifetime (v_path v) vs) as [cs0|]; [|discriminate]. injection Hl as <-.
      rewrite run_calls_app in Er. destruct (run_calls E empty_file cs0) as [F1 xs] eqn:E1.
      destruct (run_calls E F1 (v_calls v)) as [F2 ys] eqn:E2. injection Er as <- <-.
      apply Forall_app in Okr. destruct Okr as [Ok1 Ok2]. apply Forall_app in Gc. destruct Gc as [G1 _].
      apply restarts_app in Rs. destruct (run_grows _ _ _ _ _ E2) as [bs Eb].
      assert (Hm1 : lenN (tf_bytes F1) <= seek_max E) by (rewrite Eb, lenN_app in Hm; lia).
      specialize (IH cs0 F1 xs eq_refl G1 Rs E1 Ok1 Hm1). unfold load. rewrite IH.
      rewrite (C41_reopened_partial E cs0 F1 xs G1 Rs E1 Ok1 Hm1). rewrite E2. cbn [fst]. apply put_same.
  - assert (Np : p <> v_path v) by (intros ->; rewrite str_eqb_refl in K; discriminate).
    specialize (IH cs F rs Hl Gc Rs Er Okr Hm). destruct (v_new v); [|destruct (load E (do_visits E d vs) (v_path v))].
    + unfold create. destruct (tdms_new E []); rewrite ?put_other; auto.
    + now rewrite put_other.
    + exact IH.
    + exact IH.
    + exact IH.
Qed.

(** So samples written in any number of sessions are read after loading. *)
Theorem C64_samples_partial : forall E d vs p cs F rs t q vss start out,
  lifetime p vs = Some cs ->
  Forall (good_call E) cs -> restarts E [] cs -> sequenced None cs ->
  run_calls E empty_file cs = (F, rs) -> addressable E (tf_bytes F) ->
  fixed t -> Forall2 (gives t q) cs vss -> Exists (names q) cs ->
  exists F', load E (do_visits E d vs) p = Ok F'
    /\ read_channel_from E F' t q start out
       = (overlay out (firstn (length out) (skipn (N.to_nat start) (concat vss))), Ok tt)
    /\ channel_length E F' q = Ok (Some (lenN (concat vss))).
Proof.
  intros E d vs p cs F rs t q vss start out Hl Gc Rs Sq Er Ad Fx G Hn.
  destruct (C40_fresh_file_partial E cs F rs t q vss start out Sq Er Ad Fx G Hn) as [Okr [R L]].
  exists F. split; [|split; assumption]. destruct Ad as [A1 A2].
  eapply C64_lifetime_partial; eauto.
Qed.

(** Loading does not create a file, creating does not keep one. *)
Theorem C64_create_load : forall E d p,
  load E (fst (create E d p)) p = Ok empty_file /\ snd (create E d p) = Ok empty_file
  /\ (d p = None -> exists x, load E d p = Err x)
  /\ forall q, q <> p -> fst (create E d p) q = d q.
Proof.
  intros E d p. unfold create, load. cbn [fst snd]. rewrite put_same, (C13_empty E [] eq_refl).
  split; [reflexivity|]. split; [reflexivity|]. split; [intros ->; eauto|]. intros q Hq. now apply put_other.
Qed.

(** The program of C41 over three visits to one file, which existed before with
    other contents, while a second file is created and loaded, and a third
    is missing. *)
Definition C64_one := B "one.tdms".
Definition C64_two := B "two.tdms".
Definition C64_visits : list visit :=
  [ mkVisit true C64_one [CallChans LittleE SI32 [b] [99]%Z Contigious];
    mkVisit true C64_two [CallChans LittleE SI32 [a] [1]%Z Contigious];
    mkVisit true C64_one (firstn 2 C41_prog);
    mkVisit false (B "absent.tdms") C41_prog;
    mkVisit false C64_one (firstn 1 (skipn 2 C41_prog));
    mkVisit false C64_two [CallChans LittleE SI32 [b] [2]%Z Contigious];
    mkVisit false C64_one (skipn 3 C41_prog) ].
Example C64_case :
  lifetime C64_one C64_visits = Some C41_prog
  /\ Forall (good_call dbg) C41_prog /\ restarts dbg [] C41_prog
  /\ (exists F rs, run_calls dbg empty_file C41_prog = (F, rs) /\ Forall (eq (Ok tt)) rs
      /\ load dbg (do_visits dbg (fun _ => None) C64_visits) C64_one = Ok F)
  /\ do_visits dbg (fun _ => None) C64_visits (B "absent.tdms") = None.
Proof.
  destruct C41_case as [H1 [H2 [F [rs [H3 [H4 [H5 [_ H6]]]]]]]].
  assert (L : lifetime C64_one C64_visits = Some C41_prog) by reflexivity.
  split; [exact L|]. split; [exact H1|]. split; [exact H2|]. split; [|vm_compute; reflexivity].
  exists F, rs. split; [exact H3|]. split; [exact H4|]. eapply C64_lifetime_partial; eauto.
Qed.

(** Without [restarts] it fails: the value 1 written in two visits. *)
Theorem C64_two_visits_refuted : exists cs,
  Forall (good_call dbg) (cs ++ cs)
  /\ lifetime C64_one [mkVisit true C64_one cs; mkVisit false C64_one cs] = Some (cs ++ cs)
  /\ snd (run_calls dbg empty_file (cs ++ cs)) = [Ok tt; Ok tt]
  /\ forall F, load dbg (do_visits dbg (fun _ => None) [mkVisit true C64_one cs; mkVisit false C64_one cs]) C64_one <> Ok F.
Proof.
  exists [CallChans LittleE SI32 [a] [1]%Z Contigious].
  split; [repeat (apply Forall_cons || apply Forall_nil); cbn [good_call]; good_strs|].
  split; [reflexivity|]. split; [vm_compute; reflexivity|].
  intros F. match goal with |- ?l <> _ => assert (X : exists x, l = Err x) by (eexists; vm_compute; reflexivity) end.
  destruct X as [x ->]. discriminate.
Qed.

Print Assumptions C64_lifetime_partial.
Print Assumptions C64_samples_partial.
Print Assumptions C64_create_load.
Print Assumptions C64_two_visits_refuted.
