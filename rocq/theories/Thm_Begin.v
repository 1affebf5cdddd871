(** * C104 Exactly which beginnings of a file open, and as what *)
From Coq Require Import Strings.String.
From Verif Require Import Base Lib DataTypes Paths MetaData DataBlock Index RawData ChannelReader TdmsFile SpecIndex SpecSession SpecVerdict
  SpecGrammar SpecBegin Parse_proofs Open_proofs Grammar_proofs Verdict_proofs Reopen_proofs Thm_Open Thm_Index Thm_Read Thm_Grammar Thm_Verdict Thm_Reopen Vectors.
Close Scope string_scope.

Lemma head_unique E f pos e e' : head_ends E f pos e -> head_ends E f pos e' -> e = e'.
Proof.
  intros [s [pre [bs [rest [Ef [Lp [C ->]]]]]]] [s' [pre' [bs' [rest' [Ef' [Lp' [C' ->]]]]]]].
  rewrite Ef in Ef'. assert (L : length pre = length pre') by (unfold lenN in *; lia).
  assert (Q : pre = pre' /\ bs ++ rest = bs' ++ rest').
  { clear -L Ef'. revert pre' L Ef'. induction pre as [|x pre IH]; intros [|y pre'] L Q; try discriminate; [auto|].
    injection Q as -> Q. destruct (IH pre') as [-> R]; auto. }
  destruct Q as [_ Q]. destruct (C72_unambiguous E s s' bs bs' rest rest' C C' Q) as [_ [-> _]]. reflexivity.
Qed.
Lemma head_of E f pos s : segment_read E f pos = Ok s -> exists e, head_ends E f pos e.
Proof. intros R. apply segment_grammar in R. destruct R as [pre [bs [rest [A [B C]]]]]. exists (pos + lenN bs), s, pre, bs, rest. auto. Qed.

Lemma firstn_whole E f pos s k e : segment_read E f pos = Ok s -> head_ends E f pos e -> e <= N.of_nat k ->
  segment_read E (firstn k f) pos = Ok s.
Proof.
  intros R He Le. apply segment_grammar in R. destruct R as [pre [bs [rest [A [B C]]]]].
  assert (Ee : e = pos + lenN bs) by (eapply head_unique; [exact He|]; exists s, pre, bs, rest; auto).
  apply segment_grammar. exists pre, bs, (firstn (k - length pre - length bs) rest). split; [|auto].
  rewrite A, app_assoc, firstn_app, app_length. unfold lenN in *.
  rewrite firstn_all2 by (rewrite app_length; lia). rewrite <- app_assoc. f_equal. f_equal. f_equal. lia.
Qed.
Lemma firstn_broken E f pos s k e : segment_read E f pos = Ok s -> head_ends E f pos e -> N.of_nat k < e ->
  segment_read E (firstn k f) pos = if N.of_nat k <? pos + 4 then Err EEndOfFile else Err (EIo UnexpectedEof).
Proof.
  intros R He Le. apply segment_grammar in R. destruct R as [pre [bs [rest [A [B C]]]]].
  assert (Ee : e = pos + lenN bs) by (eapply head_unique; [exact He|]; exists s, pre, bs, rest; auto).
  destruct (N.of_nat k <? pos + 4) eqn:K.
  - apply segment_read_eof. unfold lenN. rewrite firstn_length. lia.
  - assert (Eg : firstn k f = pre ++ firstn (k - length pre) bs).
    { unfold lenN in *. rewrite A, firstn_app. rewrite firstn_all2 by lia. f_equal. rewrite firstn_app.
      replace (k - length pre - length bs)%nat with 0%nat by lia. cbn [firstn]. now rewrite app_nil_r. }
    rewrite Eg, <- B. rewrite (segment_cut E s pre (firstn (k - length pre) bs) (skipn (k - length pre) bs)).
    + unfold lenN in *. rewrite firstn_length. replace (N.of_nat (Nat.min (k - length pre) (length bs)) <? 4) with false by lia. reflexivity.
    + now rewrite firstn_skipn.
    + intros Q. apply (f_equal (@length byte)) in Q. rewrite skipn_length in Q. cbn [length] in Q. unfold lenN in *. lia.
Qed.

(** [i] is the number of segments whose heads are complete, the first ones. *)
Lemma heads_whole E f H k : (forall j s, nth_error H j = Some s -> segment_read E f (offset (firstn j H)) = Ok s) ->
  forall n, (n <= length H)%nat -> exists i, (i <= n)%nat /\ (forall j, (j < i)%nat -> head_within E f H k j) /\ ((i < n)%nat -> ~ head_within E f H k i).
Proof.
  intros R. induction n as [|n IH]; intros Ln; [exists 0%nat; split; [lia|]; split; intros; lia|].
  destruct IH as [i [Li [W Nw]]]; [lia|]. destruct (Nat.eq_dec i n) as [->|Ne].
  - assert (Hs : exists s, nth_error H n = Some s). { destruct (nth_error H n) eqn:K; [eauto|]. apply nth_error_None in K. lia. }
    destruct Hs as [s Hs]. destruct (head_of _ _ _ _ (R n s Hs)) as [e He]. destruct (e <=? N.of_nat k) eqn:K.
    + exists (S n). split; [lia|]. split; [|intros; lia]. intros j Hj. destruct (Nat.eq_dec j n) as [->|]; [exists e; split; [exact He|lia]|apply W; lia].
    + exists n. split; [lia|]. split; [exact W|]. intros _ [e' [He' Le']]. rewrite (head_unique _ _ _ _ _ He He') in K. lia.
  - exists i. split; [lia|]. split; [exact W|]. intros _. apply Nw. lia.
Qed.

(** What the first [k] bytes of a file that opens are. *)
Theorem C104_exactly : forall E f F H k,
  tdms_new E f = Ok F -> file_segments E f H ->
  exists i, (i <= length H)%nat
    /\ (forall j, (j < i)%nat -> head_within E f H k j) /\ ((i < length H)%nat -> ~ head_within E f H k i)
    /\ ((i < length H)%nat -> offset (firstn i H) + 4 <= N.of_nat k -> tdms_new E (firstn k f) = Err (EIo UnexpectedEof))
    /\ ((i = length H \/ N.of_nat k < offset (firstn i H) + 4) ->
        exists F', tdms_new E (firstn k f) = Ok F' /\ file_segments E (firstn k f) (firstn i H) /\ accepted E (firstn i H) (tf_ix F')).
Proof.
  intros E f F H k O Fs.
  assert (Q := open_outcome E f). rewrite O in Q. destruct Q as [_ [H' [G [_ En']]]].
  assert (EH : H' = H).
  { apply (file_segments_unique E f); [|exact Fs]. split; [|exact En']. intros j s Hj. destruct (G j s Hj) as [A [B _]]. auto. }
  subst H'.
  destruct (heads_whole E f H k (fun j s Hj => proj1 (G j s Hj)) (length H) (le_n _)) as [i [Li [W Nw]]].
  exists i. split; [exact Li|]. split; [exact W|]. split; [exact Nw|].
  assert (Gi : good_start E (firstn k f) (firstn i H)).
  { intros j s Hj. assert (Lj : (j < i)%nat). { assert (K : (j < length (firstn i H))%nat) by (apply nth_error_Some; congruence). rewrite firstn_length in K. lia. }
    rewrite firstn_firstn, Nat.min_l by lia. assert (Hj' : nth_error H j = Some s).
    { revert Hj. clear -Lj. revert i Lj H. induction j as [|j IH]; intros [|i] Lj [|x H]; cbn [nth_error firstn]; try discriminate; try lia; auto. intros. apply (IH i); [lia|assumption]. }
    destruct (G j s Hj') as [R [Ls V]]. destruct (W j Lj) as [e [He Le]]. split; [now apply (firstn_whole E f _ s k e)|auto]. }
  split.
  - intros Lt L4. destruct (nth_error H i) as [s|] eqn:Hi; [|apply nth_error_None in Hi; lia].
    destruct (G i s Hi) as [R [Ls V]]. destruct (head_of _ _ _ _ R) as [e He].
    assert (Le : N.of_nat k < e). { destruct (N.lt_ge_cases (N.of_nat k) e) as [X|X]; [exact X|]. exfalso. apply (Nw Lt). exists e. auto. }
    apply C71_error. split; [discriminate|]. exists (firstn i H). split; [exact Gi|]. split; [exact Ls|]. left.
    rewrite (firstn_broken E f _ s k e R He Le). replace (N.of_nat k <? offset (firstn i H) + 4) with false by lia. reflexivity.
  - intros Ci.
    assert (En : lenN (firstn k f) < offset (firstn i H) + 4 \/ seek_max E < offset (firstn i H)).
    { unfold lenN. rewrite firstn_length. destruct Ci as [->|Ci]; [|left; lia]. rewrite firstn_all. destruct Fs as [_ [L|L]]; [|now right]. left. unfold lenN in L. lia. }
    assert (Fg : file_segments E (firstn k f) (firstn i H)).
    { split; [|exact En]. intros j s Hj. destruct (Gi j s Hj) as [A [B _]]. auto. }
    destruct (proj2 (C71_opens E (firstn k f)) (ex_intro _ _ (conj Gi En))) as [F' O'].
    exists F'. split; [exact O'|]. split; [exact Fg|]. apply tdms_new_iff in O'. destruct O' as [B _].
    now destruct (open_segments E _ _ _ B Fg) as [A _].
Qed.

(** So a beginning opens exactly if the first segment whose head it breaks off is
    broken off in its tag, or there is none; otherwise it is refused. *)
Theorem C104_opens : forall E f F H k,
  tdms_new E f = Ok F -> file_segments E f H ->
  ((exists F', tdms_new E (firstn k f) = Ok F') <->
   exists i, (i <= length H)%nat /\ (forall j, (j < i)%nat -> head_within E f H k j)
     /\ (i = length H \/ N.of_nat k < offset (firstn i H) + 4))
  /\ ((forall F', tdms_new E (firstn k f) <> Ok F') -> tdms_new E (firstn k f) = Err (EIo UnexpectedEof)).
Proof.
  intros E f F H k O Fs. destruct (C104_exactly E f F H k O Fs) as [i [Li [W [Nw [Bad Good]]]]].
  assert (D : (i = length H \/ N.of_nat k < offset (firstn i H) + 4) \/ ((i < length H)%nat /\ offset (firstn i H) + 4 <= N.of_nat k)).
  { destruct (Nat.eq_dec i (length H)) as [Q|Q]; [now left; left|]. destruct (N.lt_ge_cases (N.of_nat k) (offset (firstn i H) + 4)) as [X|X]; [now left; right|].
    right. split; [lia|exact X]. }
  split; [split|].
  - intros [F' O']. destruct D as [D|[D1 D2]]; [exists i; auto|]. rewrite (Bad D1 D2) in O'. discriminate.
  - intros [i' [Li' [W' D']]]. destruct D as [D|[D1 D2]]; [destruct (Good D) as [F' [O' _]]; eauto|]. exfalso.
    assert (i' <= i)%nat.
    { destruct (Nat.le_gt_cases i' i) as [X|X]; [exact X|]. exfalso. apply (Nw D1). now apply W'. }
    destruct D' as [D'|D']; [lia|].
    pose proof (offset_firstn_le H i' i ltac:(lia)). lia.
  - intros No. destruct D as [D|[D1 D2]]; [|now apply Bad]. destruct (Good D) as [F' [O' _]]. now apply No in O'.
Qed.


(** The beginnings of a file of 256 bytes with two segments: number of data blocks
    found, or refused with an unexpected end. *)
Example C104_case :
  (exists H, tdms_new dbg pair_file = Ok pair_F /\ file_segments dbg pair_file H /\ H <> [])
  /\ map (fun k => match tdms_new dbg (firstn k pair_file) with
                   | Ok F => Some (length (ix_blocks (tf_ix F)))
                   | Err (EIo UnexpectedEof) => None
                   | _ => Some 9%nat end) (seq 0 257)
     = repeat (Some 0%nat) 4 ++ repeat None 100 ++ repeat (Some 1%nat) 28 ++ repeat None 100 ++ repeat (Some 2%nat) 25.
Proof.
  split; [|vm_compute; reflexivity].
  assert (O : tdms_new dbg pair_file = Ok pair_F) by (vm_compute; reflexivity).
  destruct (C12_segment_starts _ _ _ O) as [H [Fs _]]. exists H. split; [exact O|]. split; [exact Fs|].
  intros ->. destruct Fs as [_ [L|L]]; vm_compute in L; discriminate L.
Qed.

Print Assumptions C104_exactly.
Print Assumptions C104_opens.
