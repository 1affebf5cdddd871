(** * C93 Exactly which files have parts that do not overlap *)
From Coq Require Import Strings.String.
From Verif Require Import Base Lib DataTypes MetaData Maps DataBlock Index RawData ChannelReader TdmsFile Vectors
  SpecIndex SpecSession SpecTidy Index_proofs History_proofs Session_proofs Open_proofs Thm_Index Thm_Parts.
Close Scope string_scope.

Definition has_data (s : segment) : Prop := toc_raw (sg_toc s) = true -> sg_raw s < sg_next s.

Lemma parts_after H : forall o x, In x (parts_from o H) -> o <= fst x.
Proof.
  induction H as [|s H IH]; intros o x; cbn [parts_from]; [intros []|]. intros [<-|Hin]; [cbn; lia|].
  apply in_app_or in Hin. destruct Hin as [Hin|Hin]; [|apply IH in Hin; lia].
  destruct (toc_raw (sg_toc s)); [|destruct Hin]. destruct Hin as [<-|[]]. cbn. lia.
Qed.

Lemma tidy_iff H : Forall has_data H -> forall o, ForallOrdPairs apart (parts_from o H) <-> tidy H.
Proof.
  induction 1 as [|s H Hs Hf IH]; intros o; cbn [parts_from tidy]; [split; [tauto|intros _; constructor]|].
  set (ms := metadata_size (seg_objs s)) in *. set (o' := o + 28 + sg_next s) in *. specialize (IH o').
  pose proof (parts_after H o') as Af. unfold has_data in Hs.
  assert (Hd : H <> [] -> exists y, In y (parts_from o' H) /\ fst y = o' /\ o' < snd y).
  { destruct H as [|s1 H1]; [congruence|]. intros _. cbn [parts_from]. eexists. split; [left; reflexivity|]. cbn. lia. }
  assert (Nil : H = [] -> parts_from o' H = []) by (intros ->; reflexivity).
  split.
  - intros P. inversion P as [|x l Hx Hl]; subst. rewrite Forall_forall in Hx. split; [|split].
    + intros T. rewrite T in Hx. specialize (Hs T). destruct (Hx _ (or_introl eq_refl)) as [K|K]; cbn in K; lia.
    + intros Ne. destruct (Hd Ne) as [y [Hy [Ey Ly]]]. assert (Iy : In y ((if toc_raw (sg_toc s) then [(o + 28 + sg_raw s, o')] else []) ++ parts_from o' H)) by (apply in_or_app; now right).
      destruct (Hx y Iy) as [K|K]; cbn in K; unfold o' in *; lia.
    + apply IH. destruct (toc_raw (sg_toc s)); cbn [app] in Hl; [now inversion Hl|exact Hl].
  - intros [T1 [T2 T3]]. apply IH in T3. constructor.
    + apply Forall_forall. intros y Hy. apply in_app_or in Hy. destruct Hy as [Hy|Hy].
      * destruct (toc_raw (sg_toc s)); [|destruct Hy]. destruct Hy as [<-|[]]. left. cbn. specialize (T1 eq_refl). lia.
      * left. cbn. apply Af in Hy as Hy'. destruct H as [|s1 H1]; [destruct Hy|]. specialize (T2 ltac:(discriminate)). unfold o' in *. lia.
    + destruct (toc_raw (sg_toc s)); cbn [app]; [|exact T3]. constructor; [|exact T3].
      apply Forall_forall. intros y Hy. apply Af in Hy. left. cbn. unfold o' in *. lia.
Qed.

(** Of all the files that open, those of which no byte belongs to two parts are
    those in which the raw data, and the next segment if there is one, start
    behind the metadata. *)
Theorem C93_exactly : forall E f F H, tdms_new E f = Ok F -> file_segments E f H ->
  ForallOrdPairs apart (parts H) <-> tidy H.
Proof.
  intros E f F H O Fs. apply tidy_iff. pose proof (ss_open E f F H Fs O) as Se. destruct (session_accepted _ _ _ Se) as [A _].
  clear -A. induction A as [|H ix s ix' n A IH Ad]; [constructor|]. apply Forall_app. split; [exact IH|]. constructor; [|constructor].
  intros T. destruct (accepted_described _ _ _ A) as [Iv _]. destruct (add_segment_spec E ix s Iv) as [ix2 [r [E1 [_ R]]]].
  rewrite Ad in E1. injection E1 as <- <-. destruct R as [_ [_ [_ [_ [_ [_ [_ R]]]]]]]. rewrite T in R. apply R.
Qed.

(** The samples of a file come from the data parts, which then hold no byte of the
    lead-ins and metadata. *)
Theorem C93_data_apart : forall E f F H, tdms_new E f = Ok F -> file_segments E f H -> tidy H ->
  forall b, In b (ix_blocks (tf_ix F)) -> forall H1 s H2, H = H1 ++ s :: H2 ->
  apart (offset H1, offset H1 + 28 + metadata_size (seg_objs s)) (b_start b, b_start b + b_len b).
Proof.
  intros E f F H O Fs Td b Hb H1 s H2 Eh.
  pose proof (ss_open E f F H Fs O) as Se. destruct (C20_true_addresses E H F Se) as [_ [_ C20]].
  destruct (C20 b Hb) as [G1 [q [G2 [Eg [Tq [Bs [Bl _]]]]]]]. rewrite offset_snoc in Bl.
  assert (Tp : forall A x B, tidy (A ++ x :: B) -> (toc_raw (sg_toc x) = true -> metadata_size (seg_objs x) <= sg_raw x)
     /\ (B <> [] -> metadata_size (seg_objs x) <= sg_next x)).
  { clear. induction A as [|z A IH]; intros x B; cbn [app tidy]; [tauto|]. intros [_ [_ X]]. now apply IH. }
  assert (Of : forall A B, offset A <= offset (A ++ B)).
  { clear. intros A B. induction B as [|x B IH] using rev_ind; [now rewrite app_nil_r|]. rewrite app_assoc, offset_snoc. lia. }
  destruct (Tp H1 s H2) as [T1 T2]; [now rewrite <- Eh|]. unfold apart. cbn [fst snd].
  rewrite Eh in Eg. apply app_eq_app in Eg. destruct Eg as [l [[El Er]|[El Er]]].
  - (* the data come first *)
    destruct l as [|z l]; cbn [app] in Er.
    + injection Er as -> ->. rewrite app_nil_r in El. subst G1. left. specialize (T1 Tq). lia.
    + injection Er as -> ->. right. subst H1. pose proof (Of (G1 ++ [z]) l) as K. rewrite <- app_assoc in K. cbn [app] in K.
      rewrite offset_snoc in K. lia.
  - destruct l as [|z l]; cbn [app] in Er.
    + injection Er as -> ->. rewrite app_nil_r in El. subst G1. left. specialize (T1 Tq). lia.
    + injection Er as -> ->. left. subst G1. pose proof (Of (H1 ++ [z]) l) as K. rewrite <- app_assoc in K. cbn [app] in K.
      rewrite offset_snoc in K. specialize (T2 ltac:(destruct l; discriminate)). lia.
Qed.

(** A file in four segments that is tidy, and the files of C76: one with its data
    in its metadata, one with a segment in them. *)
Definition the_segments (f : list byte) (os : list N) : list segment :=
  flat_map (fun o => match segment_read dbg f o with Ok s => [s] | _ => [] end) os.
Example C93_case :
  let f := tf_bytes C14_file in let H := the_segments f [0; 128; 193; 313] in
  tdms_new dbg f = Ok (open_bytes dbg f) /\ file_segments dbg f H /\ tidy H /\ lenN (parts H) = 7.
Proof.
  cbv zeta. split; [vm_compute; reflexivity|].
  set (f := tf_bytes C14_file). set (H := the_segments f [0; 128; 193; 313]).
  assert (L : length H = 4%nat) by (vm_compute; reflexivity).
  split; [|split; [|vm_compute; reflexivity]].
  - split; [|left; vm_compute; reflexivity].
    intros i s Hi. destruct i as [|[|[|[|i]]]].
    1-4: revert Hi; (match goal with |- ?x = Some ?y -> _ => let v := eval vm_compute in x in replace x with v by (vm_compute; reflexivity) end);
      intros Hi; injection Hi as <-; split; [vm_compute; reflexivity|vm_compute; discriminate].
    exfalso. assert (X : nth_error H (S (S (S (S i)))) = None) by (apply nth_error_None; rewrite L; lia). congruence.
  - match goal with |- tidy ?x => let v := eval vm_compute in x in replace x with v by (vm_compute; reflexivity) end.
    cbn [tidy]. repeat split; intros _; vm_compute; discriminate.
Qed.
Example C93_case_untidy :
  ~ tidy (the_segments C76_own [0]) /\ ~ tidy (the_segments C76_nested [0; 66])
  /\ parts (the_segments C76_own [0]) = [(0, 68); (28, 68)].
Proof.
  split; [|split; [|vm_compute; reflexivity]]; 
  (match goal with |- ~ tidy ?x => let v := eval vm_compute in x in replace x with v by (vm_compute; reflexivity) end);
  cbn [tidy]; [intros [X _]; specialize (X eq_refl)|intros [_ [X _]]; specialize (X ltac:(discriminate))]; vm_compute in X; congruence.
Qed.
Print Assumptions C93_exactly.
Print Assumptions C93_data_apart.
