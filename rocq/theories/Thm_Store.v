(** * Claim C75: the library as a plain store *)
From Coq Require Import Strings.String.
From Verif Require Import Base Lib Utf8 DataTypes Paths MetaData DataBlock Index RawData TdmsFile
  SpecCodec SpecIndex SpecPaths SpecRead SpecWrite SpecLocal Codec_proofs History_proofs Open_proofs Session_proofs Vectors Thm_Open Thm_Index Thm_Read Thm_Write Thm_Reopen
  SpecStore Store_proofs.
Close Scope string_scope.
Local Notation a := (ch "g" "a").
Local Notation b := (ch "g" "b").
Local Notation c := (ch "h" "c").

(** ** C75 *)
(** Every program of writes, queries, reads, closings and openings, on a new
    file: every answer is that of the store.  Missing: programs that are not
    [proper], for which it fails ([C75_store_refuted]). *)
Theorem C75_store_partial : forall E os F xs,
  proper E nothing os -> run_ops E empty_file os = (F, xs) -> addressable E (tf_bytes F) -> all_expected nothing [] os xs.
Proof.
  intros E os F xs [Sq Cl] R Ad. apply (all_same (origin_of [] [] None)); [exact no_origin|].
  refine (proj1 (store_run E empty_file [] None (C13_empty E [] eq_refl) (empty_segments E) eq_refl eq_refl os [] empty_file [] F xs eq_refl Sq _ R Ad)).
  exact (closes_same E nothing (origin_of [] [] None) eq_refl os [] Cl).
Qed.

(** The file at the end is the one the calls alone produce: queries, refused
    calls, and closing and opening leave no trace. *)
Theorem C75_no_trace_partial : forall E os F xs,
  proper E nothing os -> run_ops E empty_file os = (F, xs) -> addressable E (tf_bytes F) ->
  F = fst (run_calls E empty_file (fold_left remember os [])).
Proof.
  intros E os F xs [Sq Cl] R Ad.
  destruct (proj2 (store_run E empty_file [] None (C13_empty E [] eq_refl) (empty_segments E) eq_refl eq_refl os [] empty_file [] F xs eq_refl Sq
                     (closes_same E nothing (origin_of [] [] None) eq_refl os [] Cl) R Ad)) as [rs ->]. reflexivity.
Qed.

(** The same on every file, whoever made it, that can be opened and ends with
    its last segment: what it holds is told by its segments ([origin_of]), the
    rest by the calls.  [sh] is the shape of its last data; any channel list is
    [sh] with 0 values, then no call counts as a repetition. *)
Theorem C75_opened_store_partial : forall E f F0 H sh os F xs,
  tdms_new E f = Ok F0 -> file_segments E f H -> offset H = lenN f -> last_shape H sh ->
  proper E (origin_of f H sh) os -> run_ops E F0 os = (F, xs) -> addressable E (tf_bytes F) ->
  all_expected (origin_of f H sh) [] os xs.
Proof.
  intros E f F0 H sh os F xs Op Fs Ex Ls [Sq Cl] R Ad. destruct (tdms_new_ok _ _ _ Op) as [_ <-].
  exact (proj1 (store_run E F0 H sh Op Fs Ex Ls os [] F0 [] F xs eq_refl Sq Cl R Ad)).
Qed.
Theorem C75_opened_no_trace_partial : forall E f F0 H sh os F xs,
  tdms_new E f = Ok F0 -> file_segments E f H -> offset H = lenN f -> last_shape H sh ->
  proper E (origin_of f H sh) os -> run_ops E F0 os = (F, xs) -> addressable E (tf_bytes F) ->
  F = fst (run_calls E F0 (fold_left remember os [])).
Proof.
  intros E f F0 H sh os F xs Op Fs Ex Ls [Sq Cl] R Ad. destruct (tdms_new_ok _ _ _ Op) as [_ <-].
  destruct (proj2 (store_run E F0 H sh Op Fs Ex Ls os [] F0 [] F xs eq_refl Sq Cl R Ad)) as [rs ->]. reflexivity.
Qed.

Definition C75_ops : list op :=
  [ OpGroups;
    OpCall (CallChans LittleE SI32 [a; b] [1; 101; 2; 102; 3; 103]%Z Interleaved);
    OpRead SI32 a 1 [0; 0; 0]%Z;
    OpCall (CallChans LittleE SI32 [a; b] [1]%Z Interleaved);
    OpCall (CallProps BigE (path_group (B "g")) [(B "unit", PString (B "V")); (B "n", PI32 5); (B "unit", PString (B "A"))]);
    OpClose;
    OpProp (path_group (B "g")) (B "unit");
    OpProps (path_group (B "g"));
    OpCall (CallChans BigE SF64 [c] [7; 8; 9] Contigious);
    OpReads SI32 [b; a] [[0; 0; 0; 0]; [0; 0; 0]]%Z;
    OpRead SF64 a 0 [4];
    OpLength c;
    OpClose;
    OpRead SF64 c 1 [0; 0];
    OpRead SF64 (ch "h" "x") 0 [4];
    OpChannels (B "g");
    OpGroups ].
Definition C75_answers : list answer :=
  [ AnNames (Ok []);
    AnDone (Ok tt);
    AnRead SI32 [2; 3; 0]%Z (Ok tt);
    AnDone (Err (EBadDataBlockLength 1 2));
    AnDone (Ok tt);
    AnDone (Ok tt);
    AnProp (Ok (Some (PString (B "A"))));
    AnProps (Some [(B "n", PI32 5); (B "unit", PString (B "A"))]);
    AnDone (Ok tt);
    AnReads SI32 [[101; 102; 103; 0]; [1; 2; 3]]%Z (Ok tt);
    AnRead SF64 [4] (Err (EDataTypeMismatch I32 DoubleFloat));
    AnLength (Ok (Some 3));
    AnDone (Ok tt);
    AnRead SF64 [8; 9] (Ok tt);
    AnRead SF64 [4] (Err (EMissingObject (ch "h" "x")));
    AnNames (Ok [a; b]);
    AnNames (Ok [B "g"; B "h"]) ].
Example C75_case :
  proper dbg nothing C75_ops
  /\ addressable dbg (tf_bytes (fst (run_ops dbg empty_file C75_ops)))
  /\ snd (run_ops dbg empty_file C75_ops) = C75_answers
  /\ all_expected nothing [] C75_ops C75_answers.
Proof.
  assert (P : proper dbg nothing C75_ops).
  { assert (Nab : NoDup [a; b]) by (repeat constructor; cbn; intuition discriminate).
    assert (Nc : NoDup [c]) by (repeat constructor; cbn; intuition discriminate).
    assert (Ri : forall l, forallb (fun z => (-2147483648 <=? z) && (z <? 2147483648))%Z l = true -> Forall (rust_value SI32) l).
    { intros l Hl. apply Forall_forall. intros z Hz. rewrite forallb_forall in Hl. specialize (Hl z Hz).
      cbn. unfold in_signed. lia. }
    assert (Fi : fixed SI32) by (repeat split; discriminate).
    assert (Ff : fixed SF64) by (repeat split; discriminate).
    assert (Nk : ~ continues [a; b] [c]) by not_continues.
    split.
    - match goal with |- sequenced _ ?l => replace l with
        [CallChans LittleE SI32 [a; b] [1; 101; 2; 102; 3; 103]%Z Interleaved;
         CallProps BigE (path_group (B "g")) [(B "unit", PString (B "V")); (B "n", PI32 5); (B "unit", PString (B "A"))];
         CallChans BigE SF64 [c] [7; 8; 9] Contigious] by reflexivity end.
      cbn [sequenced]. unfold good_values.
      split; [split; [exact Fi|]; split; [now apply Ri|]; repeat split; try assumption; discriminate|].
      split; [split; [exact Ff|]; split; [repeat constructor|]; repeat split; try assumption; discriminate|].
      left. split; [exact Nk|exact Logic.I].
    - cbn [closes C75_ops remember refusal].
      do 3 (split; [discriminate|]).
      change (lenN [1%Z] mod lenN [a; b] =? 0) with false.
      change (lenN [1; 101; 2; 102; 3; 103]%Z mod lenN [a; b] =? 0) with true.
      change (lenN [7; 8; 9] mod lenN [c] =? 0) with true. cbv iota. cbn [app].
      do 2 (split; [discriminate|]). split.
      { intros _. split; [repeat (apply Forall_cons || apply Forall_nil); cbn [good_call]; good_strs|].
        change (o_chans nothing) with (@nil str). cbn [restarts]. left. split; [intros [X _]; congruence|]. split; [exact Nab|exact Logic.I]. }
      do 6 (split; [discriminate|]). split; [|repeat (split; [discriminate|]); exact Logic.I].
      intros _. split; [repeat (apply Forall_cons || apply Forall_nil); cbn [good_call]; good_strs|].
      change (o_chans nothing) with (@nil str). cbn [restarts]. left. split; [intros [X _]; congruence|]. split; [exact Nab|].
      left. split; [exact Nk|]. split; [exact Nc|exact Logic.I]. }
  assert (Ad : addressable dbg (tf_bytes (fst (run_ops dbg empty_file C75_ops)))) by (vm_compute; split; [reflexivity|discriminate]).
  assert (An : snd (run_ops dbg empty_file C75_ops) = C75_answers) by (vm_compute; reflexivity).
  split; [exact P|]. split; [exact Ad|]. split; [exact An|].
  rewrite <- An. apply (C75_store_partial dbg C75_ops (fst (run_ops dbg empty_file C75_ops))); [exact P|apply surjective_pairing|exact Ad].
Qed.

(** An existing file of four segments, with the channels a, b, c: new values for
    the channel a, a new channel in between, a property changed, the file
    closed and opened. *)
Local Notation d := (ch "h" "d").
Definition C75_more : list call :=
  [ CallChans BigE SF64 [d] [7; 8; 9] Contigious;
    CallProps LittleE (path_group (B "g")) [(B "unit", PString (B "A"))];
    CallChans LittleE SI32 [a] [21; 22]%Z Contigious ].
Definition C75_more_ops : list op :=
  [ OpProp (path_group (B "g")) (B "unit");
    OpRead SI32 a 1 [0; 0; 0; 0; 0; 0]%Z ]
  ++ map OpCall C75_more ++
  [ OpProp (path_group (B "g")) (B "unit");
    OpClose;
    OpRead SI32 a 1 [0; 0; 0; 0; 0; 0; 0]%Z;
    OpLength a;
    OpLength d;
    OpGroups ].
Definition C75_more_answers : list answer :=
  [ AnProp (Ok (Some (PString (B "V"))));
    AnRead SI32 [3; 5; 9; 10; 0; 0]%Z (Ok tt);
    AnDone (Ok tt); AnDone (Ok tt); AnDone (Ok tt);
    AnProp (Ok (Some (PString (B "A"))));
    AnDone (Ok tt);
    AnRead SI32 [3; 5; 9; 10; 21; 22; 0]%Z (Ok tt);
    AnLength (Ok (Some 7));
    AnLength (Ok (Some 3));
    AnNames (Ok [B "g"; B "h"]) ].
Example C75_opened_case : exists H,
  let f := tf_bytes C14_file in let F0 := open_bytes dbg f in let sh := Some (I32, 0, [b]) in
  tdms_new dbg f = Ok F0 /\ file_segments dbg f H /\ offset H = lenN f /\ last_shape H sh
  /\ proper dbg (origin_of f H sh) C75_more_ops
  /\ addressable dbg (tf_bytes (fst (run_ops dbg F0 C75_more_ops)))
  /\ snd (run_ops dbg F0 C75_more_ops) = C75_more_answers
  /\ holds (origin_of f H sh) C75_more SI32 a [1; 3; 5; 9; 10; 21; 22]%Z
  /\ all_expected (origin_of f H sh) [] C75_more_ops C75_more_answers.
Proof.
  assert (O : tdms_new dbg (tf_bytes C14_file) = Ok (open_bytes dbg (tf_bytes C14_file))) by (vm_compute; reflexivity).
  destruct (C14_open_is_session _ _ _ O) as [H [Fs [Se _]]]. exists H. cbv zeta.
  destruct (C14_incremental _ _ _ Se) as [Ac [_ [_ [Bl [Ps _]]]]].
  pose proof Se as Se2. apply session_accepted in Se2. destruct Se2 as [Acc _].
  destruct (accepted_described _ _ _ Acc) as [_ [Nx _]].
  assert (Ex : offset H = lenN (tf_bytes C14_file)) by (rewrite <- Nx; vm_compute; reflexivity).
  assert (Ls : last_shape H (Some (I32, 0, [b]))).
  { cbn [last_shape]. rewrite <- Ac. split; [vm_compute; reflexivity|now left]. }
  assert (P : proper dbg (origin_of (tf_bytes C14_file) H (Some (I32, 0, [b]))) C75_more_ops).
  { assert (Na : NoDup [a]) by (repeat constructor; cbn; intuition discriminate).
    assert (Nd : NoDup [d]) by (repeat constructor; cbn; intuition discriminate).
    assert (Ri : forall l, forallb (fun z => (-2147483648 <=? z) && (z <? 2147483648))%Z l = true -> Forall (rust_value SI32) l).
    { intros l Hl. apply Forall_forall. intros z Hz. rewrite forallb_forall in Hl. specialize (Hl z Hz).
      cbn. unfold in_signed. lia. }
    assert (Fi : fixed SI32) by (repeat split; discriminate).
    assert (Ff : fixed SF64) by (repeat split; discriminate).
    assert (N1 : ~ continues [b] [d]) by not_continues.
    assert (N2 : ~ continues [d] [a]) by not_continues.
    split.
    - replace (fold_left remember C75_more_ops []) with C75_more by reflexivity.
      cbn [o_shape origin_of sequenced C75_more]. unfold good_values.
      split; [split; [exact Ff|]; split; [repeat constructor|]; repeat split; try assumption; discriminate|]. left. split; [exact N1|].
      split; [split; [exact Fi|]; split; [now apply Ri|]; repeat split; try assumption; discriminate|]. left. split; [exact N2|exact Logic.I].
    - cbn [closes C75_more_ops C75_more map app remember refusal].
      change (lenN [7; 8; 9] mod lenN [d] =? 0) with true.
      change (lenN [21; 22]%Z mod lenN [a] =? 0) with true. cbv iota. cbn [app].
      do 6 (split; [discriminate|]). split; [|repeat (split; [discriminate|]); exact Logic.I].
      intros _. split; [repeat (apply Forall_cons || apply Forall_nil); cbn [good_call]; good_strs|].
      cbn [o_chans o_shape origin_of restarts]. left. split; [exact N1|]. split; [exact Nd|].
      left. split; [exact N2|]. split; [exact Na|exact Logic.I]. }
  assert (Ad : addressable dbg (tf_bytes (fst (run_ops dbg (open_bytes dbg (tf_bytes C14_file)) C75_more_ops))))
    by (vm_compute; split; [reflexivity|discriminate]).
  assert (An : snd (run_ops dbg (open_bytes dbg (tf_bytes C14_file)) C75_more_ops) = C75_more_answers) by (vm_compute; reflexivity).
  split; [exact O|]. split; [exact Fs|]. split; [exact Ex|]. split; [exact Ls|]. split; [exact P|]. split; [exact Ad|]. split; [exact An|].
  split.
  - destruct (session_stored dbg _ _ H SI32 a [mkLoc 0 0 3; mkLoc 1 1 2] O Se) as [Ma St]; [vm_compute; reflexivity..|].
    exists [1; 3; 5; 9; 10]%Z, [[]; []; [21; 22]]%Z. split; [|split; [|reflexivity]].
    + cbn [o_holds origin_of]. split; [exact St|]. specialize (Ps _ Ma). unfold samples_after. rewrite <- Bl.
      replace (locs_after H a) with [mkLoc 0 0 3; mkLoc 1 1 2]; [vm_compute; reflexivity|].
      clear -Ps. assert (X : get_positions (tf_ix (open_bytes dbg (tf_bytes C14_file))) a = Some [mkLoc 0 0 3; mkLoc 1 1 2])
        by (vm_compute; reflexivity). congruence.
    + repeat apply Forall2_cons; try apply Forall2_nil.
      * apply gives_other. cbn. intuition discriminate.
      * apply gives_props.
      * exact (gives_chans SI32 a LittleE [a] [21; 22]%Z Contigious 0 eq_refl).
  - rewrite <- An. eapply C75_opened_store_partial; [exact O|exact Fs|exact Ex|exact Ls|exact P|apply surjective_pairing|exact Ad].
Qed.

(** Programs of acceptable calls in general are not served like that: two calls
    for the same channel with different numbers of values. *)
Theorem C75_store_refuted : exists os F xs,
  run_ops dbg empty_file os = (F, xs) /\ addressable dbg (tf_bytes F)
  /\ Forall (fun cl => match cl with CallChans _ t chans vs _ => good_values t chans vs | _ => True end) (fold_left remember os [])
  /\ closes dbg nothing [] os /\ ~ all_expected nothing [] os xs.
Proof.
  exists [OpCall (CallChans LittleE SI32 [a] [1; 2; 3; 4; 5; 6]%Z Contigious);
          OpCall (CallChans LittleE SI32 [a] [7; 8; 9]%Z Contigious); OpLength a].
  eexists _, _. split; [vm_compute; reflexivity|]. split; [vm_compute; split; [reflexivity|discriminate]|]. split.
  { assert (Fi : fixed SI32) by (repeat split; discriminate).
    assert (Na : NoDup [a]) by (repeat constructor; cbn; intuition discriminate).
    assert (Ri : forall l, forallb (fun z => (-2147483648 <=? z) && (z <? 2147483648))%Z l = true -> Forall (rust_value SI32) l).
    { intros l Hl. apply Forall_forall. intros z Hz. rewrite forallb_forall in Hl. specialize (Hl z Hz).
      cbn. unfold in_signed. lia. }
    apply Forall_cons; [|apply Forall_cons; [|apply Forall_nil]];
      (split; [exact Fi|]; split; [now apply Ri|]; split; [exact Na|]; split; [discriminate|]; split; [discriminate|reflexivity]). }
  split; [cbn [closes]; repeat (split; [discriminate|]); exact Logic.I|].
  cbn [all_expected]. intros [_ [_ [X _]]].
  match type of X with expected _ ?p _ _ => replace p with
    [CallChans LittleE SI32 [a] [1; 2; 3; 4; 5; 6]%Z Contigious; CallChans LittleE SI32 [a] [7; 8; 9]%Z Contigious] in X by reflexivity end.
  cbn [expected] in X. destruct X as [X _].
  specialize (X SI32 [1; 2; 3; 4; 5; 6; 7; 8; 9]%Z). assert (Y : AnLength (Ok (Some 6)) = AnLength (Ok (Some 9))); [|discriminate Y].
  apply X.
  - right. left. cbn [names]. now left.
  - repeat split; discriminate.
  - exists []%Z, [[1; 2; 3; 4; 5; 6]; [7; 8; 9]]%Z. split; [reflexivity|]. split; [|reflexivity].
    repeat apply Forall2_cons; try apply Forall2_nil.
    + exact (gives_chans SI32 a LittleE [a] [1; 2; 3; 4; 5; 6]%Z Contigious 0 eq_refl).
    + exact (gives_chans SI32 a LittleE [a] [7; 8; 9]%Z Contigious 0 eq_refl).
  - reflexivity.
Qed.

Print Assumptions C75_store_partial.
Print Assumptions C75_no_trace_partial.
Print Assumptions C75_store_refuted.
Print Assumptions C75_opened_store_partial.
Print Assumptions C75_opened_no_trace_partial.
