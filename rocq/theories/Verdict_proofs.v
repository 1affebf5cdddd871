(** * What becomes of a segment *)
From Verif Require Import Base Lib DataTypes MetaData Maps Maps_proofs DataBlock Index TdmsFile SpecIndex SpecVerdict
  Parse_proofs Index_proofs History_proofs Open_proofs Session_proofs Reopen_proofs.

Lemma unfounded_spec os : forall before,
  unfounded before os = true <->
  exists pre o post, os = pre ++ o :: post /\ om_idx o = RIMatch
    /\ last_format (before ++ pre) (om_path o) = None.
Proof.
  induction os as [|o os IH]; intros before; cbn [unfounded].
  - split; [discriminate|]. intros [pre [o [post [H _]]]]. destruct pre; discriminate.
  - assert (R : unfounded (before ++ [o]) os = true ->
      exists pre x post, o :: os = pre ++ x :: post /\ om_idx x = RIMatch /\ last_format (before ++ pre) (om_path x) = None).
    { intros U. apply IH in U. destruct U as [pre [x [post [-> [Hx Hn]]]]]. exists (o :: pre), x, post.
      rewrite <- app_assoc in Hn. auto. }
    assert (L : (exists pre x post, o :: os = pre ++ x :: post /\ om_idx x = RIMatch /\ last_format (before ++ pre) (om_path x) = None) ->
      (om_idx o = RIMatch /\ last_format before (om_path o) = None) \/ unfounded (before ++ [o]) os = true).
    { intros [pre [x [post [Eq [Hx Hn]]]]]. destruct pre as [|y pre].
      - injection Eq as <- <-. rewrite app_nil_r in Hn. auto.
      - injection Eq as <- ->. right. apply IH. exists pre, x, post. rewrite <- app_assoc. auto. }
    destruct (om_idx o) eqn:Io.
    + split; [exact R|]. intros X. destruct (L X) as [[Y _]|Y]; [discriminate|exact Y].
    + destruct (last_format before (om_path o)) as [m|] eqn:Lf.
      * split; [exact R|]. intros X. destruct (L X) as [[_ Y]|Y]; [discriminate|exact Y].
      * split; [|reflexivity]. intros _. exists [], o, os. rewrite app_nil_r. auto.
    + split; [exact R|]. intros X. destruct (L X) as [[Y _]|Y]; [discriminate|exact Y].
Qed.

Lemma whole_chunks_len b b' : b_len b = b_len b' -> b_chans b = b_chans b' -> whole_chunks b = whole_chunks b'.
Proof. intros L C. unfold whole_chunks. now rewrite L, C. Qed.

Lemma chunk_size_ok ms : Forall (fun m => rm_total m = None) ms -> forall k,
  k + chunk_bytes ms < two64 -> chunk_size_from (CFixed k) ms = Ok (CFixed (k + chunk_bytes ms)).
Proof.
  induction 1 as [|m ms Hm Hp IH]; intros k Hk; cbn [chunk_size_from chunk_bytes fold_right] in *.
  - now rewrite N.add_0_r.
  - rewrite Hm. unfold checked_mul, chunk_combine, checked_add.
    fold (chunk_bytes ms) in *.
    replace (rm_n m * dtype_size (rm_type m) <? two64) with true by lia.
    replace (k + rm_n m * dtype_size (rm_type m) <? two64) with true by lia. cbn [bind].
    rewrite IH by lia. do 2 f_equal. lia.
Qed.

Lemma chunks_exact b : Forall (fun m => rm_total m = None) (b_chans b) ->
  number_of_chunks b = if two64 <=? chunk_bytes (b_chans b) then Err EChunkSizeOverflow else Ok (whole_chunks b).
Proof.
  intros Hp. destruct (two64 <=? chunk_bytes (b_chans b)) eqn:C.
  - destruct (number_of_chunks_cases b) as [[c H]|H]; [|exact H]. apply number_of_chunks_plain in H; [|exact Hp]. lia.
  - unfold number_of_chunks, chunk_size. rewrite (chunk_size_ok _ Hp) by lia. cbn [bind]. reflexivity.
Qed.

(** The result of recording the locations. *)
Lemma insert_locs_result blk c l : forall objs i,
  (forall a, In a l -> map_get (a_path a) objs <> None) ->
  snd (insert_locs objs blk c i l)
  = if existsb (fun a => two64 <=? a_n a * c) l then Err EChunkSizeOverflow else Ok tt.
Proof.
  induction l as [|a l IH]; intros objs i Hp; cbn [insert_locs existsb]; [reflexivity|].
  unfold checked_mul. destruct (a_n a * c <? two64) eqn:C.
  - replace (two64 <=? a_n a * c) with false by lia. cbn [orb].
    destruct (map_get (a_path a) objs) as [od|] eqn:G; [|exfalso; apply (Hp a); [now left|exact G]].
    apply IH. intros x Hx. rewrite map_get_alter. specialize (Hp x (or_intror Hx)).
    destruct (str_eqb (a_path x) (a_path a)); [|exact Hp].
    destruct (map_get (a_path x) objs); [discriminate|exact Hp].
  - replace (two64 <=? a_n a * c) with true by lia. reflexivity.
Qed.

Lemma existsb_map {A B} (g : A -> B) f l : existsb f (map g l) = existsb (fun x => f (g x)) l.
Proof. induction l as [|x l IH]; cbn; [reflexivity|]. now rewrite IH. Qed.

(** The raw data part: only the result. *)
Lemma add_raw_result E ix s fs : inv ix ->
  map (fmt_or_void ix) (map a_path (ix_active ix)) = fs ->
  Forall (fun m => rm_total m = None) fs ->
  ix_next ix < two64 ->
  let b := mkBlock 0 (sg_next s - sg_raw s) Contigious fs LittleE in
  snd (add_raw E ix s) = first_of
    [ (lenN fs =? 0, Err ESegmentTocDataBlockWithoutDataChannels);
      (sg_next s <? sg_raw s, Err EInvalidRawOffset);
      (sg_next s =? sg_raw s, Err EZeroLengthDataBlock);
      (overflow_checks E && (2 ^ 64 <=? ix_next ix + 28 + sg_raw s), Panic POverflow);
      (2 ^ 64 <=? chunk_bytes fs, Err EChunkSizeOverflow);
      (existsb (fun m => 2 ^ 64 <=? rm_n m * whole_chunks b) fs, Err EChunkSizeOverflow) ]
    (Ok tt).
Proof.
  intros I Ef Pl Nx. cbv zeta. unfold add_raw.
  destruct (active_metas_spec (ix_objs ix) (ix_active ix)) as [ms [Em [Hl Hn]]]; [apply I|].
  rewrite Em. pose proof (active_metas_map ix ms I Em) as Hms. rewrite Ef in Hms. subst ms.
  change (2 ^ 64) with two64.
  assert (An : forall c, existsb (fun a => two64 <=? a_n a * c) (ix_active ix)
                         = existsb (fun m => two64 <=? rm_n m * c) fs).
  { intros c. rewrite <- Ef. rewrite !existsb_map. assert (Q := inv_act _ I). revert Q.
    generalize (ix_active ix) as l. clear. induction l as [|a l IH]; intros Q; cbn [existsb]; [reflexivity|].
    rewrite IH by (intros; apply Q; now right). destruct (Q a (or_introl eq_refl)) as [od [m [G [F Nn]]]].
    f_equal. unfold fmt_or_void, channel_format. now rewrite G, F, Nn. }
  cbn [first_of]. destruct fs as [|f0 fr] eqn:Efs; [reflexivity|]. rewrite <- Efs in *.
  replace (lenN fs =? 0) with false by (subst fs; unfold lenN; cbn [length]; lia).
  unfold from_segment. destruct (sg_next s <? sg_raw s) eqn:C1; [reflexivity|].
  destruct (sg_next s =? sg_raw s) eqn:C2.
  { replace (sg_next s - sg_raw s =? 0) with true by lia. reflexivity. }
  replace (sg_next s - sg_raw s =? 0) with false by lia.
  replace (match fs with [] => Err ENoActiveChannelsInDataBlock | _ :: _ =>
     a <- uadd E (sg_raw s) LEAD_IN ;; st <- uadd E a (ix_next ix) ;;
     Ok (mkBlock st (sg_next s - sg_raw s) (if toc_inter (sg_toc s) then Interleaved else Contigious) fs (toc_endian (sg_toc s))) end)
   with (a <- uadd E (sg_raw s) LEAD_IN ;; st <- uadd E a (ix_next ix) ;;
     Ok (mkBlock st (sg_next s - sg_raw s) (if toc_inter (sg_toc s) then Interleaved else Contigious) fs (toc_endian (sg_toc s))))
   by (rewrite Efs; reflexivity).
  assert (Ins : forall st, snd (insert_data_block ix
      (mkBlock st (sg_next s - sg_raw s) (if toc_inter (sg_toc s) then Interleaved else Contigious) fs (toc_endian (sg_toc s))))
    = if two64 <=? chunk_bytes fs then Err EChunkSizeOverflow
      else if existsb (fun m => two64 <=? rm_n m * whole_chunks (mkBlock 0 (sg_next s - sg_raw s) Contigious fs LittleE)) fs
      then Err EChunkSizeOverflow else Ok tt).
  { intros st. unfold insert_data_block. rewrite chunks_exact by exact Pl. cbn [b_chans].
    destruct (two64 <=? chunk_bytes fs); [reflexivity|].
    match goal with |- snd (let '(o, r) := ?x in _) = _ =>
      replace (snd (let '(o, r) := x in (mkIx (ix_active ix) o (ix_blocks ix ++ [mkBlock st (sg_next s - sg_raw s) (if toc_inter (sg_toc s) then Interleaved else Contigious) fs (toc_endian (sg_toc s))]) (ix_next ix), r)))
        with (snd x) by (destruct x; reflexivity) end.
    rewrite insert_locs_result by (intros a Ha; destruct (inv_act _ I a Ha) as [od [m [G _]]]; congruence).
    now rewrite An. }
  unfold uadd, LEAD_IN. destruct (sg_raw s + 28 <? two64) eqn:K1; cbn [bind].
  - destruct (sg_raw s + 28 + ix_next ix <? two64) eqn:K2; cbn [bind].
    + replace (two64 <=? ix_next ix + 28 + sg_raw s) with false by lia. rewrite andb_false_r. apply Ins.
    + replace (two64 <=? ix_next ix + 28 + sg_raw s) with true by lia.
      destruct (overflow_checks E); cbn [bind andb]; [reflexivity|apply Ins].
  - replace (two64 <=? ix_next ix + 28 + sg_raw s) with true by lia.
    destruct (overflow_checks E); cbn [bind andb recast snd]; [reflexivity|].
    match goal with |- context [if ?c <? two64 then _ else _] => destruct (c <? two64) end; cbn [bind]; apply Ins.
Qed.

(** The result of adding a segment. *)
Lemma verdict_exact E H ix s :
  accepted E H ix -> Forall plain H -> plain s ->
  snd (add_segment E ix s) = verdict (overflow_checks E) H s.
Proof.
  intros A P Ps. destruct (accepted_described _ _ _ A) as [I [Hn [Lt [Hact [_ [Hf _]]]]]].
  unfold add_segment. set (ix0 := if toc_newlist (sg_toc s) then set_active ix [] else ix).
  assert (I0 : inv ix0) by (unfold ix0; destruct (toc_newlist (sg_toc s)); [now apply inv_deactivate|exact I]).
  assert (N0 : ix_next ix0 = ix_next ix) by (unfold ix0; destruct (toc_newlist (sg_toc s)); reflexivity).
  assert (O0 : ix_objs ix0 = ix_objs ix) by (unfold ix0; destruct (toc_newlist (sg_toc s)); reflexivity).
  assert (A0 : map a_path (ix_active ix0) = if toc_newlist (sg_toc s) then [] else map a_path (ix_active ix))
    by (unfold ix0; destruct (toc_newlist (sg_toc s)); reflexivity).
  assert (Em : match sg_meta s with Some objs => add_objects ix0 objs | None => (ix0, Ok tt) end
               = add_objects ix0 (seg_objs s)) by (unfold seg_objs; destruct (sg_meta s); reflexivity).
  assert (C : forall k, channel_format ix0 k = last_format (all_objs H) k).
  { intros k. rewrite <- Hf. unfold channel_format. now rewrite O0. }
  rewrite Em. destruct (add_objects_spec (seg_objs s) ix0 I0) as [ix1 [r [E1 [I1 [_ [Nx [_ R]]]]]]].
  pose proof (add_objects_fails (seg_objs s) ix0 I0) as Fl. rewrite E1 in Fl. cbn [snd] in Fl.
  assert (U : unfounded (all_objs H) (seg_objs s) = true <-> r = Err ENoPreviousType).
  { rewrite Fl, unfounded_spec. split; intros [pre [o [post [X1 [X2 X3]]]]]; exists pre, o, post;
      (split; [exact X1|]); (split; [exact X2|]).
    - rewrite C. unfold last_format in *. now rewrite fold_left_app in X3.
    - rewrite C in X3. unfold last_format in *. now rewrite fold_left_app. }
  rewrite E1. unfold verdict. cbn [first_of].
  destruct R as [[-> [Ra [_ [Rf _]]]]| ->].
  2: { replace (unfounded (all_objs H) (seg_objs s)) with true by (symmetry; apply U; reflexivity). reflexivity. }
  replace (unfounded (all_objs H) (seg_objs s)) with false.
  2: { destruct (unfounded (all_objs H) (seg_objs s)); [|reflexivity]. assert (X : (@Ok unit tt) = Err ENoPreviousType) by now apply U. discriminate. }
  assert (Ra' : map a_path (ix_active ix1) = active_after (H ++ [s])).
  { rewrite Ra, A0, Hact. unfold active_after. rewrite fold_left_app. reflexivity. }
  assert (Rf' : forall k, channel_format ix1 k = last_format (all_objs (H ++ [s])) k).
  { intros k. rewrite Rf, C. unfold last_format, all_objs. rewrite flat_map_app, fold_left_app.
    cbn [flat_map]. now rewrite app_nil_r. }
  assert (Pf : Forall (fun m => rm_total m = None) (active_formats (H ++ [s]))).
  { apply active_formats_plain. apply Forall_app. auto. }
  assert (Tail : forall ix2, ix_next ix2 = offset H ->
    snd (match total_size_bytes s with
         | Ok size => match checked_add (ix_next ix2) size with
                      | Some n => (set_next ix2 n, Ok n) | None => (ix2, Err ESegmentAddressOverflow) end
         | f => (ix2, recast f) end)
    = if 2 ^ 64 <=? offset H + 28 + sg_next s then Err ESegmentAddressOverflow else Ok (offset H + 28 + sg_next s)).
  { intros ix2 Hx. unfold total_size_bytes, checked_add, LEAD_IN. rewrite Hx. change (2 ^ 64) with two64.
    destruct (sg_next s + 28 <? two64) eqn:K1.
    - destruct (offset H + (sg_next s + 28) <? two64) eqn:K2; cbn [snd].
      + replace (two64 <=? offset H + 28 + sg_next s) with false by lia. f_equal. lia.
      + replace (two64 <=? offset H + 28 + sg_next s) with true by lia. reflexivity.
    - replace (two64 <=? offset H + 28 + sg_next s) with true by lia. reflexivity. }
  destruct (toc_raw (sg_toc s)) eqn:T; cbn [andb].
  2: { apply Tail. congruence. }
  pose proof (add_raw_result E ix1 s (active_formats (H ++ [s])) I1 (active_formats_eq _ _ Ra' Rf') Pf) as Rr.
  cbv zeta in Rr. rewrite Nx, N0, Hn in Rr. specialize (Rr Lt). cbn [first_of] in Rr.
  rewrite (whole_chunks_len _ (block_of H s)) in Rr by reflexivity.
  replace (lenN (active_after (H ++ [s])) =? 0) with (lenN (active_formats (H ++ [s])) =? 0)
    by (unfold active_formats, lenN; now rewrite map_length).
  destruct (add_raw_spec E ix1 s I1) as [ix2 [r2 [E2 [_ [_ [N2 _]]]]]]. rewrite E2 in *. cbn [snd] in Rr.
  assert (N2' : ix_next ix2 = offset H) by congruence. specialize (Tail ix2 N2').
  repeat match type of Rr with
  | r2 = (if ?c then _ else _) => destruct c; [subst r2; reflexivity|]
  end.
  subst r2. exact Tail.
Qed.

(** ** Opening *)
Lemma good_snoc E f H s n : good_start E f H -> offset H <= seek_max E ->
  segment_read E f (offset H) = Ok s -> verdict (overflow_checks E) H s = Ok n -> good_start E f (H ++ [s]).
Proof.
  intros G L R V i x Hi. destruct (Nat.lt_ge_cases i (length H)) as [Hlt|Hge].
  - rewrite nth_error_app1 in Hi by assumption. rewrite firstn_app.
    replace (i - length H)%nat with 0%nat by lia. cbn [firstn]. rewrite app_nil_r. auto.
  - rewrite nth_error_app2 in Hi by assumption.
    destruct (i - length H)%nat as [|j] eqn:Hj; cbn [nth_error] in Hi; [|destruct j; discriminate].
    injection Hi as <-. replace i with (length H) by lia. rewrite firstn_app, firstn_all, Nat.sub_diag.
    cbn [firstn]. rewrite app_nil_r. eauto.
Qed.

Lemma good_init E f H s : good_start E f (H ++ [s]) ->
  good_start E f H /\ segment_read E f (offset H) = Ok s /\ offset H <= seek_max E
  /\ exists n, verdict (overflow_checks E) H s = Ok n.
Proof.
  intros G. split.
  - intros i x Hi. assert (Lt : (i < length H)%nat) by (apply nth_error_Some; congruence).
    specialize (G i x). rewrite nth_error_app1, firstn_app in G by assumption.
    replace (i - length H)%nat with 0%nat in G by lia. cbn [firstn] in G. rewrite app_nil_r in G. auto.
  - specialize (G (length H) s). rewrite nth_error_app2, Nat.sub_diag in G by lia.
    rewrite firstn_app, Nat.sub_diag, firstn_all in G. cbn [firstn] in G. rewrite app_nil_r in G. now apply G.
Qed.

Lemma good_accepted E f H : good_start E f H -> exists ix, accepted E H ix /\ Forall plain H.
Proof.
  induction H as [|s H IH] using rev_ind; intros G; [exists index_new; split; constructor|].
  apply good_init in G. destruct G as [G [R [_ [n V]]]]. destruct (IH G) as [ix [A P]].
  pose proof (segment_read_plain _ _ _ _ R) as Ps.
  pose proof (verdict_exact E H ix s A P Ps) as X. rewrite V in X.
  destruct (add_segment E ix s) as [ix' r] eqn:Ea. cbn [snd] in X. subst r.
  exists ix'. split; [econstructor; eauto|]. apply Forall_app. auto.
Qed.

(** One step of opening after a good start. *)
Lemma good_build E f H ix : good_start E f H -> accepted E H ix -> offset H <= seek_max E ->
  forall fuel, (0 < fuel)%nat -> lenN f < offset H + 28 * N.of_nat fuel ->
  build_index E f = build_loop E f fuel ix (offset H).
Proof.
  intros G A L fuel Hp Hl. destruct (accepted_described _ _ _ A) as [I [Hn _]].
  rewrite <- Hn. apply (build_scans E f H); [|exact I|exact Hp|now rewrite Hn].
  apply scans_of; [exact A| |].
  - intros i s Hi. now destruct (G i s Hi).
  - intros i Hi. destruct (Nat.lt_ge_cases i (length H)) as [Lt|Ge].
    + destruct (nth_error H i) as [s|] eqn:Ni; [|apply nth_error_None in Ni; lia]. now destruct (G i s Ni) as [_ [Q _]].
    + now rewrite firstn_all2 by assumption.
Qed.

(** What comes after a good start. *)
Definition ahead (E : env) (f : list byte) (H : list segment) : res N :=
  s <- segment_read E f (offset H) ;; verdict (overflow_checks E) H s.

Lemma good_ahead E f H : good_start E f H -> offset H <= seek_max E ->
  match ahead E f H with
  | Err x => x <> EEndOfFile -> tdms_new E f = Err x
  | Panic p => tdms_new E f = Panic p
  | _ => True
  end.
Proof.
  intros G L. destruct (good_accepted _ _ _ G) as [ix [A P]]. unfold ahead, tdms_new.
  rewrite (good_build E f H ix G A L (S (S (length f)))) by (unfold lenN; lia). cbn [build_loop].
  pose proof (segment_read_fine E f (offset H)) as Fi.
  destruct (segment_read E f (offset H)) as [s|x|p|] eqn:R; cbn [bind]; try contradiction.
  - pose proof (verdict_exact E H ix s A P (segment_read_plain _ _ _ _ R)) as V.
    destruct (add_segment E ix s) as [ix' r]. cbn [snd] in V. subst r.
    destruct (verdict (overflow_checks E) H s) as [n|x|p|]; cbn [bind]; auto.
  - intros Nx. destruct x; congruence || reflexivity.
Qed.

Lemma verdict_not_eof c H s : verdict c H s <> Err EEndOfFile.
Proof.
  unfold verdict. cbn [first_of].
  repeat match goal with |- (if ?b then _ else _) <> _ => destruct b; [discriminate|] end. discriminate.
Qed.

Lemma ahead_eof E f H : ahead E f H = Err EEndOfFile <-> lenN f < offset H + 4.
Proof.
  unfold ahead. split.
  - destruct (segment_read E f (offset H)) as [s|x|p|] eqn:R; cbn [bind]; try discriminate.
    + intros V. now apply verdict_not_eof in V.
    + intros X. injection X as ->. now apply segment_read_eof in R.
  - intros L. apply (segment_read_eof E f (offset H)) in L. now rewrite L.
Qed.

(** The whole outcome. *)
Lemma loop_outcome E f fuel : forall H ix, good_start E f H -> accepted E H ix -> Forall plain H ->
  offset H <= seek_max E ->
  match build_loop E f fuel ix (offset H) with
  | Ok ix' => exists H', good_start E f H' /\ accepted E H' ix' /\ (lenN f < offset H' + 4 \/ seek_max E < offset H')
  | Err x => exists H', good_start E f H' /\ offset H' <= seek_max E /\ x <> EEndOfFile /\ ahead E f H' = Err x
  | Panic p => exists H', good_start E f H' /\ offset H' <= seek_max E /\ ahead E f H' = Panic p
  | Diverge => True
  end.
Proof.
  induction fuel as [|fuel IH]; intros H ix G A P L; cbn [build_loop]; [exact Logic.I|].
  pose proof (segment_read_fine E f (offset H)) as Fi.
  destruct (segment_read E f (offset H)) as [s|x|p|] eqn:R; try contradiction.
  - pose proof (segment_read_plain _ _ _ _ R) as Ps.
    pose proof (verdict_exact E H ix s A P Ps) as V.
    destruct (add_segment E ix s) as [ix' r] eqn:Ea. cbn [snd] in V.
    assert (Ah : ahead E f H = r) by (unfold ahead; rewrite R; symmetry; exact V).
    destruct r as [n|x|p|]; cbn [bind].
    + assert (A' : accepted E (H ++ [s]) ix') by (econstructor; eauto).
      assert (G' : good_start E f (H ++ [s])) by (eapply good_snoc; eauto).
      assert (P' : Forall plain (H ++ [s])) by (apply Forall_app; auto).
      destruct (accepted_described _ _ _ A') as [_ [Hn _]].
      pose proof (add_segment_next _ _ _ _ _ Ea) as Hx. rewrite Hn in Hx.
      unfold seek_to. destruct (n <=? seek_max E) eqn:C.
      * rewrite <- Hx. apply IH; auto. lia.
      * exists (H ++ [s]). split; [exact G'|]. split; [exact A'|]. right. lia.
    + exists H. split; [exact G|]. split; [exact L|]. split; [|exact Ah]. intros ->.
      now apply (verdict_not_eof (overflow_checks E) H s).
    + exists H. auto.
    + exact Logic.I.
  - assert (Ah : ahead E f H = Err x) by (unfold ahead; now rewrite R).
    destruct x; try (exists H; split; [exact G|]; split; [exact L|]; split; [discriminate|exact Ah]).
    exists H. split; [exact G|]. split; [exact A|]. left. now apply segment_read_eof in R.
Qed.

Lemma good_nil E f : good_start E f [].
Proof. intros i s Hi. destruct i; discriminate. Qed.

Lemma open_outcome E f :
  match tdms_new E f with
  | Ok F => tf_bytes F = f /\ exists H, good_start E f H /\ accepted E H (tf_ix F) /\ (lenN f < offset H + 4 \/ seek_max E < offset H)
  | Err x => exists H, good_start E f H /\ offset H <= seek_max E /\ x <> EEndOfFile /\ ahead E f H = Err x
  | Panic p => exists H, good_start E f H /\ offset H <= seek_max E /\ ahead E f H = Panic p
  | Diverge => False
  end.
Proof.
  pose proof (loop_outcome E f (S (length f)) [] index_new (good_nil E f) (acc_nil E) (Forall_nil _) (N.le_0_l _)) as O.
  change (offset []) with 0 in O.
  pose proof (loop_total E f (S (length f)) index_new inv_new) as T. cbn [index_new ix_next] in T. fold index_new in T.
  unfold tdms_new, build_index.
  destruct (build_loop E f (S (length f)) index_new 0) as [ix|x|p|]; cbn [bind]; auto.
  apply T; unfold lenN; lia.
Qed.

(** Two good starts of the same file agree, so the outcome is unique. *)
Lemma good_file_segments E f H : good_start E f H -> (lenN f < offset H + 4 \/ seek_max E < offset H) -> file_segments E f H.
Proof. intros G En. split; [|exact En]. intros i s Hi. destruct (G i s Hi) as [R [L _]]. auto. Qed.

Lemma good_opens E f H : good_start E f H -> (lenN f < offset H + 4 \/ seek_max E < offset H) ->
  exists F, tdms_new E f = Ok F.
Proof.
  intros G En. destruct (good_accepted _ _ _ G) as [ix [A P]]. exists (mkTF ix f). unfold tdms_new.
  rewrite (accepted_opens E f H ix A (good_file_segments _ _ _ G En)). reflexivity.
Qed.
