(** * Opening a file: the scan over segments *)
From Verif Require Import Base Lib DataTypes MetaData Maps DataBlock Index RawData ChannelReader
  TdmsFile SpecIndex Maps_proofs Parse_proofs Index_proofs History_proofs.

(** The segments [K] read one after the other from index [ix]; each address is
    reachable by seeking. *)
Inductive scans (E : env) (f : list byte) : index -> list segment -> index -> Prop :=
| scans_nil ix : scans E f ix [] ix
| scans_cons ix s ix1 n K ix2 :
    segment_read E f (ix_next ix) = Ok s -> add_segment E ix s = (ix1, Ok n) ->
    n <= seek_max E -> scans E f ix1 K ix2 -> scans E f ix (s :: K) ix2.

Lemma add_segment_next E ix s ix1 n : add_segment E ix s = (ix1, Ok n) ->
  ix_next ix1 = n.
Proof.
  unfold add_segment. intros H.
  destruct (match sg_meta s with Some objs => _ | None => _ end) as [ixa [u| | |]]; try discriminate.
  destruct (if toc_raw (sg_toc s) then _ else _) as [ixb [v| | |]]; try discriminate.
  destruct (total_size_bytes s); try discriminate.
  destruct (checked_add (ix_next ixb) a); try discriminate.
  injection H as <- <-. reflexivity.
Qed.

(** A scanned stretch of segments is skipped over by the loop. *)
Lemma scans_loop E f ix K ix2 : scans E f ix K ix2 -> forall fuel,
  build_loop E f (length K + fuel) ix (ix_next ix) = build_loop E f fuel ix2 (ix_next ix2).
Proof.
  induction 1 as [ix|ix s ix1 n K ix2 Hr Ha Hm H IH]; intros fuel; [reflexivity|].
  cbn [length Nat.add build_loop]. rewrite Hr, Ha. cbn [bind]. unfold seek_to.
  replace (n <=? seek_max E) with true by lia.
  rewrite <- (add_segment_next _ _ _ _ _ Ha). apply IH.
Qed.

(** What a successful loop did. *)
Lemma loop_scans E f fuel : forall ix ix', build_loop E f fuel ix (ix_next ix) = Ok ix' ->
  exists K ix1, scans E f ix K ix1 /\
   ((segment_read E f (ix_next ix1) = Err EEndOfFile /\ ix' = ix1)
    \/ exists s n, segment_read E f (ix_next ix1) = Ok s /\ add_segment E ix1 s = (ix', Ok n)
        /\ seek_max E < n).
Proof.
  induction fuel as [|fuel IH]; intros ix ix' H; cbn [build_loop] in H; [discriminate|].
  destruct (segment_read E f (ix_next ix)) as [s|e|p|] eqn:R; try discriminate.
  - destruct (add_segment E ix s) as [ix1 r] eqn:A. apply bind_ok in H. destruct H as [n [-> H]].
    unfold seek_to in H. destruct (n <=? seek_max E) eqn:C.
    + rewrite <- (add_segment_next _ _ _ _ _ A) in H. apply IH in H.
      destruct H as [K [ix2 [Hs Hr]]]. exists (s :: K), ix2. split; [|exact Hr].
      econstructor; eauto. lia.
    + injection H as <-. exists [], ix. split; [constructor|]. right. exists s, n. repeat split; auto. lia.
  - destruct e; try discriminate. injection H as <-. exists [], ix. split; [constructor|]. left. auto.
Qed.

Lemma scans_extend E f t ix K ix2 : scans E f ix K ix2 -> scans E (f ++ t) ix K ix2.
Proof.
  induction 1; [constructor|]. econstructor; eauto. now apply segment_read_extend.
Qed.

Lemma scans_app E f ix K ix1 L ix2 : scans E f ix K ix1 -> scans E f ix1 L ix2 ->
  scans E f ix (K ++ L) ix2.
Proof. induction 1; intros HL; [exact HL|]. cbn [app]. econstructor; eauto. Qed.

Lemma scans_accepted E f ix K ix2 : scans E f ix K ix2 -> forall H, accepted E H ix ->
  accepted E (H ++ K) ix2.
Proof.
  induction 1 as [ix|ix s ix1 n K ix2 Hr Ha Hm Hs IH]; intros H A; [now rewrite app_nil_r|].
  replace (H ++ s :: K) with ((H ++ [s]) ++ K) by now rewrite <- app_assoc.
  apply IH. econstructor; eauto.
Qed.

(** Enough fuel: more fuel changes nothing. *)
Lemma loop_more E f fuel : forall ix pos k, build_loop E f fuel ix pos <> Diverge ->
  build_loop E f (fuel + k) ix pos = build_loop E f fuel ix pos.
Proof.
  induction fuel as [|fuel IH]; intros ix pos k H; cbn [build_loop Nat.add] in *; [contradiction|].
  destruct (segment_read E f pos) as [s|e|p|]; try reflexivity.
  destruct (add_segment E ix s) as [ix1 [n|e|p|]]; try reflexivity. cbn [bind] in *.
  destruct (seek_to E n); try reflexivity. now apply IH.
Qed.

(** The loop never runs out of fuel when given one unit per 28 bytes, and can
    only panic on the overflow of a block address. *)
Lemma loop_total E f fuel : forall ix, inv ix -> (0 < fuel)%nat ->
  lenN f < ix_next ix + 28 * N.of_nat fuel ->
  match build_loop E f fuel ix (ix_next ix) with
  | Ok ix' => inv ix'
  | Err _ => True
  | Panic p => p = POverflow /\ overflow_checks E = true
      /\ exists pos s, segment_read E f pos = Ok s /\ toc_raw (sg_toc s) = true
                       /\ two64 <= pos + 28 + sg_raw s
  | Diverge => False
  end.
Proof.
  induction fuel as [|fuel IH]; intros ix I Hf Hl; [lia|]. cbn [build_loop].
  pose proof (segment_read_fine E f (ix_next ix)) as Hfine.
  destruct (segment_read E f (ix_next ix)) as [s|e|p|] eqn:R; try contradiction.
  2: { destruct e; exact Logic.I || exact I. }
  destruct (add_segment_spec E ix s I) as [ix1 [r [Ea [I1 Hr]]]]. rewrite Ea.
  destruct r as [n|e|p|]; cbn [bind]; try contradiction; [|exact Logic.I|].
  - unfold seek_to. destruct (n <=? seek_max E); [|exact I1].
    destruct Hr as [Hn [_ [Hx _]]]. rewrite <- Hx.
    apply segment_read_ok in R. destruct R as [c [_ [Hc [Hle _]]]].
    apply IH; [exact I1|lia|lia].
  - destruct Hr as [_ [Ht [-> [Ho Hov]]]]. repeat split; auto. exists (ix_next ix), s.
    repeat split; auto. lia.
Qed.

Lemma build_fuel E f fuel : lenN f < 28 * N.of_nat fuel -> (0 < fuel)%nat ->
  build_loop E f fuel index_new 0 = build_index E f.
Proof.
  intros Hl Hp. unfold build_index.
  set (a := fuel). set (b := S (length f)).
  assert (Ha : build_loop E f a index_new 0 <> Diverge).
  { pose proof (loop_total E f a index_new inv_new Hp) as H. cbn [index_new ix_next] in H.
    fold index_new in H. intros D. rewrite D in H. apply H. unfold a. lia. }
  assert (Hb : build_loop E f b index_new 0 <> Diverge).
  { pose proof (loop_total E f b index_new inv_new) as H. cbn [index_new ix_next] in H.
    fold index_new in H. intros D. rewrite D in H. apply H; unfold b, lenN; lia. }
  rewrite <- (loop_more E f a index_new 0 b Ha).
  rewrite <- (loop_more E f b index_new 0 a Hb). now rewrite Nat.add_comm.
Qed.

(** Continuing after a scanned prefix. *)
Lemma build_scans E f K ix : scans E f index_new K ix -> inv ix ->
  forall fuel, (0 < fuel)%nat -> lenN f < ix_next ix + 28 * N.of_nat fuel ->
  build_index E f = build_loop E f fuel ix (ix_next ix).
Proof.
  intros Hs I fuel Hp Hl.
  assert (HK : exists k, (k >= fuel)%nat /\ lenN f < 28 * N.of_nat (length K + k)).
  { exists (fuel + S (length f))%nat. split; [lia|]. unfold lenN. lia. }
  destruct HK as [k [Hk Hlk]].
  rewrite <- (build_fuel E f (length K + k) Hlk) by lia.
  change 0 with (ix_next index_new). rewrite (scans_loop _ _ _ _ _ Hs).
  replace k with (fuel + (k - fuel))%nat by lia. apply loop_more.
  pose proof (loop_total E f fuel ix I Hp Hl) as H. intros D. rewrite D in H. exact H.
Qed.

Lemma build_index_ok E f ix : build_index E f = Ok ix ->
  exists K ix1, scans E f index_new K ix1 /\
   ((segment_read E f (ix_next ix1) = Err EEndOfFile /\ ix = ix1)
    \/ exists s n, segment_read E f (ix_next ix1) = Ok s /\ add_segment E ix1 s = (ix, Ok n)
        /\ seek_max E < n).
Proof. unfold build_index. intros H. apply (loop_scans E f (S (length f)) index_new). exact H. Qed.

Lemma scans_reach E f ix K ix2 : scans E f ix K ix2 -> ix_next ix <= seek_max E ->
  ix_next ix2 <= seek_max E.
Proof.
  induction 1 as [|ix s ix1 n K ix2 Hr Ha Hm Hs IH]; intros H; [exact H|].
  apply IH. now rewrite (add_segment_next _ _ _ _ _ Ha).
Qed.

(** Opening a file yields the history of its segments. *)
Lemma scans_nth E f ix K ix2 : scans E f ix K ix2 -> forall H, accepted E H ix ->
  ix_next ix <= seek_max E -> forall i s, nth_error K i = Some s ->
  segment_read E f (offset (H ++ firstn i K)) = Ok s /\ offset (H ++ firstn i K) <= seek_max E.
Proof.
  induction 1 as [ix|ix s0 ix1 n K ix2 Hr Ha Hm Hs IH]; intros H A Hx i s Hi; [destruct i; discriminate|].
  destruct i as [|i]; cbn [nth_error firstn] in *.
  - injection Hi as <-. rewrite app_nil_r.
    destruct (accepted_described _ _ _ A) as [_ [<- _]]. auto.
  - replace (H ++ s0 :: firstn i K) with ((H ++ [s0]) ++ firstn i K) by now rewrite <- app_assoc.
    eapply IH; [|rewrite (add_segment_next _ _ _ _ _ Ha); exact Hm|exact Hi]. econstructor; eauto.
Qed.

(** ** Segments read from bytes are plain *)
Lemma loop_forall {A} (item : parser A) (P : A -> Prop) :
  (forall bs x r, item bs = Ok (x, r) -> P x) ->
  forall fuel count bs xs r, loop item fuel count bs = Ok (xs, r) -> Forall P xs.
Proof.
  intros Hi. induction fuel as [|fuel IH]; intros count bs xs r; cbn [loop]; destruct (count =? 0);
    intros H; bind_inv; constructor; eauto.
Qed.

Lemma read_obj_plain E e bs o r : read_obj E e bs = Ok (o, r) -> plain_obj o.
Proof.
  unfold read_obj. intros H. bind_inv.
  match goal with H : (if ?c then _ else _) = Ok _ |- _ => destruct c; [|discriminate H] end.
  bind_inv. unfold plain_obj. cbn [om_idx].
  match goal with H : read_rawidx e _ = Ok _ |- _ => revert H end.
  unfold read_rawidx. intros H. bind_inv.
  repeat match goal with H : (if ?c then _ else _) = Ok _ |- _ => destruct c; try discriminate H end;
    bind_inv; try exact I.
  reflexivity.
Qed.

Lemma segment_read_plain E f pos s : segment_read E f pos = Ok s -> plain s.
Proof.
  rewrite segment_read_eq. destruct (read_exact 4 (dropN pos f)) as [[tag r1]| | |]; try discriminate.
  destruct (str_eqb tag TDSm); [|discriminate]. unfold after_tag, read_segment, read_metadata. intros H. bind_inv.
  unfold plain, seg_objs. cbn [sg_meta].
  match goal with H : (if ?c then _ else _) = Ok _ |- _ => destruct c; [|discriminate H] end.
  rewrite read_objs_loop in *.
  match goal with H : loop _ _ _ _ = Ok _ |- _ => eapply loop_forall; [|exact H] end.
  intros. eapply read_obj_plain; eauto.
Qed.

Lemma open_history E f ix : build_index E f = Ok ix ->
  exists H, accepted E H ix /\ file_segments E f H /\ Forall plain H.
Proof.
  intros B. apply build_index_ok in B. destruct B as [K [ix1 [Hs Hend]]].
  pose proof (scans_accepted _ _ _ _ _ Hs [] (acc_nil E)) as A. cbn [app] in A.
  pose proof (scans_nth _ _ _ _ _ Hs [] (acc_nil E) (N.le_0_l _)) as N. cbn [app] in N.
  destruct (accepted_described _ _ _ A) as [_ [Hn _]].
  assert (P : Forall plain K).
  { apply Forall_forall. intros s Hin. apply In_nth_error in Hin. destruct Hin as [i Hi].
    apply N in Hi. destruct Hi as [Hi _]. eapply segment_read_plain; eauto. }
  destruct Hend as [[R ->]|[s [n [R [Ha Hsk]]]]].
  - exists K. split; [exact A|]. split; [split; [exact N|left; rewrite <- Hn; now apply segment_read_eof in R]|exact P].
  - exists (K ++ [s]).
    assert (A2 : accepted E (K ++ [s]) ix) by (econstructor; eauto).
    split; [exact A2|]. split.
    + split.
      * intros i x Hi. destruct (Nat.lt_ge_cases i (length K)) as [Hlt|Hge].
        -- rewrite nth_error_app1 in Hi by assumption. rewrite firstn_app.
           replace (i - length K)%nat with 0%nat by lia. cbn [firstn]. rewrite app_nil_r. auto.
        -- rewrite nth_error_app2 in Hi by assumption.
           destruct (i - length K)%nat as [|j] eqn:Hj; cbn [nth_error] in Hi; [|destruct j; discriminate].
           injection Hi as <-. replace i with (length K) by lia. rewrite firstn_app, firstn_all, Nat.sub_diag.
           cbn [firstn]. rewrite app_nil_r, <- Hn. split; [exact R|].
           eapply scans_reach; [exact Hs|apply N.le_0_l].
      * right. destruct (accepted_described _ _ _ A2) as [_ [Hn2 _]]. rewrite <- Hn2.
        now rewrite (add_segment_next _ _ _ _ _ Ha).
    + apply Forall_app. split; [exact P|]. constructor; [eapply segment_read_plain; eauto|constructor].
Qed.

(** What opening does after appending bytes to a file that ended cleanly. *)
Lemma open_extend E f ix t : build_index E f = Ok ix -> ix_next ix <= seek_max E ->
  forall fuel, (0 < fuel)%nat -> lenN (f ++ t) < ix_next ix + 28 * N.of_nat fuel ->
  build_index E (f ++ t) = build_loop E (f ++ t) fuel ix (ix_next ix).
Proof.
  intros B Hm fuel Hp Hl. apply build_index_ok in B. destruct B as [K [ix1 [Hs Hend]]].
  pose proof (scans_accepted _ _ _ _ _ Hs [] (acc_nil E)) as A.
  destruct Hend as [[R ->]|[s [n [R [Ha Hsk]]]]].
  - apply (build_scans E (f ++ t) K ix1); auto; [now apply scans_extend|].
    now destruct (accepted_described _ _ _ A).
  - rewrite <- (add_segment_next _ _ _ _ _ Ha) in Hsk. lia.
Qed.

(** Segments lying one after the other and accepted are scanned. *)
Lemma scans_of E f H ix : accepted E H ix ->
  (forall i s, nth_error H i = Some s -> segment_read E f (offset (firstn i H)) = Ok s) ->
  (forall i, (i <= length H)%nat -> offset (firstn i H) <= seek_max E) ->
  scans E f index_new H ix.
Proof.
  induction 1 as [|H ix s ix' n A IH Ha]; intros Hr Hs; [constructor|].
  destruct (accepted_described _ _ _ A) as [_ [Hn _]].
  pose proof (accepted_described _ _ _ (acc_snoc _ _ _ _ _ _ A Ha)) as [_ [Hn' _]].
  eapply scans_app.
  - apply IH.
    + intros i x Hi. specialize (Hr i x). rewrite nth_error_app1 in Hr by (apply nth_error_Some; congruence).
      rewrite firstn_app in Hr. replace (i - length H)%nat with 0%nat in Hr
        by (apply nth_error_Some in Hi as Hlt || (assert (i < length H)%nat by (apply nth_error_Some; congruence); lia)).
      cbn [firstn] in Hr. rewrite app_nil_r in Hr. auto.
    + intros i Hi. specialize (Hs i). rewrite app_length in Hs. rewrite firstn_app in Hs.
      replace (i - length H)%nat with 0%nat in Hs by lia. cbn [firstn] in Hs. rewrite app_nil_r in Hs. apply Hs. lia.
  - econstructor; [|exact Ha| |constructor].
    + specialize (Hr (length H) s). rewrite nth_error_app2, Nat.sub_diag in Hr by lia.
      rewrite firstn_app, Nat.sub_diag, firstn_all in Hr. cbn [firstn] in Hr. rewrite app_nil_r in Hr.
      rewrite Hn. now apply Hr.
    + specialize (Hs (length (H ++ [s]))). rewrite firstn_all in Hs.
      rewrite <- (add_segment_next _ _ _ _ _ Ha), Hn'. apply Hs. lia.
Qed.

Lemma firstn_snoc {A} (l : list A) : forall n x, nth_error l n = Some x ->
  firstn (S n) l = firstn n l ++ [x].
Proof.
  induction l as [|a l IH]; intros [|n] x H; try discriminate; cbn [nth_error] in H.
  - injection H as ->. reflexivity.
  - cbn [firstn app]. f_equal. now apply IH.
Qed.

Lemma segment_read_len E f pos s : segment_read E f pos = Ok s -> pos + 32 <= lenN f.
Proof. intros H. apply segment_read_ok in H. destruct H as [c [_ [Hc [Hl _]]]]. lia. Qed.

(** There is only one way to cut a file into segments. *)
Lemma file_segments_unique E f H1 H2 : file_segments E f H1 -> file_segments E f H2 -> H1 = H2.
Proof.
  intros [A1 B1] [A2 B2].
  assert (P : forall n, firstn n H1 = firstn n H2).
  { induction n as [|n IH]; [reflexivity|].
    destruct (nth_error H1 n) as [s1|] eqn:N1, (nth_error H2 n) as [s2|] eqn:N2.
    - destruct (A1 _ _ N1) as [R1 _]. destruct (A2 _ _ N2) as [R2 _]. rewrite IH in R1.
      assert (s1 = s2) by congruence. subst s2.
      rewrite (firstn_snoc _ _ _ N1), (firstn_snoc _ _ _ N2). congruence.
    - exfalso. destruct (A1 _ _ N1) as [R1 S1]. apply segment_read_len in R1.
      apply nth_error_None in N2. rewrite IH, (firstn_all2 H2) in R1, S1 by assumption. lia.
    - exfalso. destruct (A2 _ _ N2) as [R2 S2]. apply segment_read_len in R2.
      apply nth_error_None in N1. rewrite <- IH, (firstn_all2 H1) in R2, S2 by assumption. lia.
    - apply nth_error_None in N1, N2. rewrite (firstn_all2 H1), (firstn_all2 H2) in IH by assumption.
      rewrite (firstn_all2 H1), (firstn_all2 H2) by (now apply le_S). exact IH. }
  specialize (P (Nat.max (length H1) (length H2))). rewrite (firstn_all2 H1), (firstn_all2 H2) in P
    by (apply Nat.le_max_r || apply Nat.le_max_l). exact P.
Qed.

(** Opening accepts the segments of the file. *)
Lemma open_segments E f ix H : build_index E f = Ok ix -> file_segments E f H ->
  accepted E H ix /\ Forall plain H.
Proof.
  intros B F. destruct (open_history E f ix B) as [H' [A [F' P]]].
  rewrite (file_segments_unique _ _ _ _ F F'). auto.
Qed.

Lemma offset_app a b : offset (a ++ b) = fold_left (fun x s => x + 28 + sg_next s) b (offset a).
Proof. unfold offset. now rewrite fold_left_app. Qed.

Lemma offset_grows b : forall x, x + 28 * lenN b <= fold_left (fun x s => x + 28 + sg_next s) b x.
Proof.
  induction b as [|s b IH]; intros x; cbn [fold_left]; [rewrite (@lenN_nil segment); lia|].
  specialize (IH (x + 28 + sg_next s)). rewrite lenN_cons. lia.
Qed.
