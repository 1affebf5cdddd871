(** * Claims C14-C20: what the index says about a file *)
From Coq Require Import Strings.String Sorting.Sorted.
From Verif Require Import Base Lib DataTypes MetaData Maps DataBlock Index RawData TdmsFile SpecIndex
  SpecSession Maps_proofs Parse_proofs Index_proofs History_proofs Open_proofs Session_proofs Vectors.
Close Scope string_scope.

(** Every opened file is a session, so the claims about sessions below speak
    about every file that opens, and about it after any writes. *)
Theorem C14_open_is_session : forall E f F,
  tdms_new E f = Ok F -> exists H, file_segments E f H /\ session E H F
    /\ (forall H', file_segments E f H' -> H' = H).
Proof.
  intros E f F O. pose proof (tdms_new_ok _ _ _ O) as [B _].
  destruct (open_history E f _ B) as [H [_ [FS _]]]. exists H. split; [exact FS|].
  split; [eapply ss_open; eauto|]. intros H' FS'. eapply file_segments_unique; eauto.
Qed.

(** ** C14 Segment metadata is interpreted incrementally as TDMS prescribes *)
Theorem C14_incremental : forall E H F,
  session E H F ->
  map a_path (ix_active (tf_ix F)) = active_after H
  /\ (forall p, channel_format (tf_ix F) p = last_format (all_objs H) p)
  /\ Forall (fun a => exists m, last_format (all_objs H) (a_path a) = Some m /\ a_n a = rm_n m)
            (ix_active (tf_ix F))
  /\ ix_blocks (tf_ix F) = blocks_after H
  /\ (forall p, mentioned (all_objs H) p -> get_positions (tf_ix F) p = Some (locs_after H p))
  /\ (forall p, ~ mentioned (all_objs H) p -> get_positions (tf_ix F) p = None).
Proof.
  intros E H F S. apply session_accepted in S. destruct S as [A P].
  destruct (accepted_described _ _ _ A) as [I [_ [_ [Ha [Hk [Hf [_ Hb]]]]]]].
  split; [exact Ha|]. split; [exact Hf|]. split.
  { apply Forall_forall. intros a Hin. destruct (inv_act _ I a Hin) as [od [m [G [Fm Nm]]]].
    exists m. rewrite <- Hf. unfold channel_format. rewrite G. auto. }
  split; [exact Hb|]. pose proof (accepted_locs _ _ _ A P) as L.
  split; intros p Hp; specialize (L p); specialize (Hk p); unfold get_positions, old_locs, known in *;
    destruct (map_get p (ix_objs (tf_ix F))) as [od|]; try reflexivity.
  - now rewrite L.
  - exfalso. now apply Hk.
  - exfalso. apply Hp, Hk. discriminate.
Qed.

(** Opened file, a new channel list, 'same as previous', a property-only
    segment: the history of the library's own multi-segment example. *)
Definition C14_file : tfile :=
  fst (write_channels dbg SI32
  (fst (write_channels dbg SI32
  (fst (write_properties dbg
    (fst (write_channels dbg SI32 empty_file [ch "g" "a"; ch "g" "b"] [1;2;3;4;5;6]%Z Interleaved))
    (B "/'g'") [(B "unit", PString (B "V"))])) [ch "g" "c"; ch "g" "a"] [7;8;9;10]%Z Contigious))
    [ch "g" "b"] [11]%Z Contigious).
Definition open_bytes (E : env) (f : list byte) : tfile :=
  match tdms_new E f with Ok F => F | _ => empty_file end.
Example C14_case :
  let f := tf_bytes C14_file in
  tdms_new dbg f = Ok (open_bytes dbg f)
  /\ (exists H, file_segments dbg f H /\ session dbg H (open_bytes dbg f))
  /\ map b_start (ix_blocks (tf_ix (open_bytes dbg f))) = [104; 297; 381]
  /\ map a_path (ix_active (tf_ix (open_bytes dbg f))) = [ch "g" "b"]
  /\ get_positions (tf_ix (open_bytes dbg f)) (ch "g" "a") = Some [mkLoc 0 0 3; mkLoc 1 1 2].
Proof.
  assert (O : tdms_new dbg (tf_bytes C14_file) = Ok (open_bytes dbg (tf_bytes C14_file))) by (vm_compute; reflexivity).
  cbn zeta. split; [exact O|]. split; [|vm_compute; repeat split; reflexivity].
  destruct (C14_open_is_session _ _ _ O) as [H [F [S _]]]. eauto.
Qed.

(** ** C15 Last property write wins *)
Theorem C15_last_write_wins : forall E H F p n v,
  any_session E H F ->
  (read_property F p n = Ok (Some v) <->
   exists os1 o os2 ps1 ps2,
     all_objs H = os1 ++ o :: os2 /\ om_path o = p /\ om_props o = ps1 ++ (n, v) :: ps2
     /\ ~ In n (map fst ps2)
     /\ (forall o', In o' os2 -> om_path o' = p -> ~ In n (map fst (om_props o')))).
Proof.
  intros E H F p n v S. apply any_session_told in S. destruct S as [_ [Hk [_ Hp]]].
  unfold read_property. rewrite get_property_spec, Hp. unfold last_prop. split.
  - intros X. destruct (map_get p (ix_objs (tf_ix F))); [|discriminate]. injection X as X.
    apply last_prop_spec in X. destruct X as [X|[X _]]; [exact X|discriminate].
  - intros X. pose proof (proj2 (last_prop_spec p n v (all_objs H) None) (or_introl X)) as Q. rewrite Q.
    destruct (map_get p (ix_objs (tf_ix F))) eqn:G; [reflexivity|]. exfalso.
    destruct X as [os1 [o [os2 [a [b [X1 [X2 _]]]]]]].
    apply (proj2 (Hk p)); [|exact G]. unfold mentioned. rewrite X1, map_app. apply in_or_app. right. now left.
Qed.

(** What a write of properties adds to the history. *)
Theorem C15_write_is_last : forall E e F path props F' r,
  write_properties_e E e F path props = (F', r) ->
  forall H, any_session E H F ->
  exists s, any_session E (H ++ [s]) F' /\ all_objs (H ++ [s]) = all_objs H ++ [mkObj path props RINone].
Proof.
  intros E e F path props F' r W H S.
  destruct (write_segment e toc_default (Some [mkObj path props RINone]) None) as [bs s] eqn:X.
  exists s. split; [eapply as_write; [exact S|]; eapply wrote_props; eauto|].
  unfold all_objs. rewrite flat_map_app. cbn [flat_map]. rewrite app_nil_r. f_equal.
  unfold write_segment in X. injection X as _ <-. reflexivity.
Qed.
Example C15_case :
  let F := fst (write_properties dbg (open_bytes dbg (tf_bytes C14_file)) (B "/'g'") [(B "unit", PString (B "A")); (B "n", PI32 5)]) in
  read_property F (B "/'g'") (B "unit") = Ok (Some (PString (B "A")))
  /\ read_property (open_bytes dbg (tf_bytes C14_file)) (B "/'g'") (B "unit") = Ok (Some (PString (B "V"))).
Proof. vm_compute. split; reflexivity. Qed.

(** ** C16 Reading properties distinguishes missing object from missing property *)
Theorem C16_missing : forall E H F p n,
  any_session E H F ->
  (read_property F p n = Err (EMissingObject p) <-> ~ mentioned (all_objs H) p)
  /\ (read_property F p n = Ok None <->
      mentioned (all_objs H) p
      /\ forall o, In o (all_objs H) -> om_path o = p -> ~ In n (map fst (om_props o))).
Proof.
  intros E H F p n S. apply any_session_told in S. destruct S as [_ [Hk [_ Hp]]].
  specialize (Hk p). unfold known in Hk. unfold read_property. rewrite get_property_spec, Hp.
  destruct (map_get p (ix_objs (tf_ix F))) as [od|].
  - assert (M : mentioned (all_objs H) p) by (apply Hk; discriminate). split.
    + split; [discriminate|contradiction].
    + rewrite <- last_prop_none. split; [intros X; injection X as X; auto|]. intros [_ X]. now rewrite X.
  - assert (M : ~ mentioned (all_objs H) p) by (intros M; now apply Hk in M). split.
    + split; auto.
    + split; [discriminate|]. intros [X _]. contradiction.
Qed.

Theorem C16_read_all : forall E H F p,
  any_session E H F ->
  (read_all_properties F p = None <-> ~ mentioned (all_objs H) p)
  /\ forall l, read_all_properties F p = Some l ->
       NoDup (map fst l)
       /\ forall n v, In (n, v) l <-> read_property F p n = Ok (Some v).
Proof.
  intros E H F p S. pose proof (any_session_psorted _ _ _ S) as Ps.
  apply any_session_told in S. destruct S as [_ [Hk _]].
  specialize (Hk p). specialize (Ps p). unfold known in Hk.
  unfold read_all_properties, get_object_properties, read_property, get_object_property.
  destruct (map_get p (ix_objs (tf_ix F))) as [od|].
  - assert (M : mentioned (all_objs H) p) by (apply Hk; discriminate).
    split; [split; [discriminate|contradiction]|]. intros l X. injection X as <-.
    specialize (Ps od eq_refl). pose proof (sorted_NoDup _ Ps) as Nd. split; [exact Nd|].
    intros n v. split; intros X.
    + f_equal. now apply In_map_get.
    + injection X as X. now apply map_get_In.
  - assert (M : ~ mentioned (all_objs H) p) by (intros M; now apply Hk in M).
    split; [split; auto|]. discriminate.
Qed.
Example C16_case :
  let F := open_bytes dbg (tf_bytes C14_file) in
  read_property F (B "/'h'") (B "unit") = Err (EMissingObject (B "/'h'"))
  /\ read_property F (B "/'g'") (B "x") = Ok None
  /\ read_all_properties F (B "/'g'") = Some [(B "unit", PString (B "V"))].
Proof. vm_compute. repeat split; reflexivity. Qed.

(** ** C17 'Same as previous' without a previous format is an error *)
Theorem C17_no_previous_type : forall E H ix s,
  accepted E H ix ->
  (snd (add_segment E ix s) = Err ENoPreviousType <->
   exists pre o post, seg_objs s = pre ++ o :: post /\ om_idx o = RIMatch
     /\ last_format (all_objs H ++ pre) (om_path o) = None).
Proof.
  intros E H ix s A. destruct (accepted_told _ _ _ A) as [I [_ [Hf _]]].
  set (ix0 := if toc_newlist (sg_toc s) then set_active ix [] else ix).
  assert (I0 : inv ix0) by (unfold ix0; destruct (toc_newlist (sg_toc s)); [now apply inv_deactivate|exact I]).
  assert (O0 : ix_objs ix0 = ix_objs ix) by (unfold ix0; destruct (toc_newlist (sg_toc s)); reflexivity).
  assert (C : forall k pre, fold_left (fmt_obj k) pre (channel_format ix0 k) = last_format (all_objs H ++ pre) k).
  { intros k pre. unfold last_format. rewrite fold_left_app. f_equal. rewrite <- (Hf k : _ = fold_left _ _ _).
    unfold channel_format. now rewrite O0. }
  transitivity (snd (add_objects ix0 (seg_objs s)) = Err ENoPreviousType).
  - unfold add_segment. fold ix0.
    assert (Em : match sg_meta s with Some objs => add_objects ix0 objs | None => (ix0, Ok tt) end
               = add_objects ix0 (seg_objs s)) by (unfold seg_objs; destruct (sg_meta s); reflexivity).
    rewrite Em. destruct (add_objects_spec (seg_objs s) ix0 I0) as [ix1 [r [E1 [_ [_ [_ [_ R]]]]]]].
    rewrite E1. destruct R as [[-> _]| ->]; [|split; reflexivity]. cbn [snd].
    split; [|discriminate]. intros X. exfalso. revert X.
    assert (Z : forall ix2 r2, (if toc_raw (sg_toc s) then add_raw E ix1 s else (ix1, Ok tt)) = (ix2, r2) ->
       r2 <> Err ENoPreviousType).
    { intros ix2 r2. destruct (toc_raw (sg_toc s)); [|intros X; injection X as _ <-; discriminate].
      unfold add_raw. destruct (active_metas (ix_objs ix1) (ix_active ix1)) as [[|m ms]|e|p|] eqn:AM.
      - intros X; injection X as _ <-; discriminate.
      - assert (NE : forall x, from_segment E s (ix_next ix1) (m :: ms) = Err x -> x <> ENoPreviousType).
        { intros x. unfold from_segment. destruct (sg_next s <? sg_raw s); [intros Y; injection Y as <-; discriminate|].
          destruct (sg_next s - sg_raw s =? 0); [intros Y; injection Y as <-; discriminate|].
          unfold uadd. intros Y. exfalso. revert Y.
          destruct (sg_raw s + LEAD_IN <? two64); [|destruct (overflow_checks E)]; cbn [bind]; try discriminate;
            (match goal with |- context [if ?c then _ else _] => destruct c end; [|destruct (overflow_checks E)]); discriminate. }
        destruct (from_segment E s (ix_next ix1) (m :: ms)) as [b|x|p|] eqn:FSg; try (intros X; injection X as _ <-).
        + unfold insert_data_block. destruct (number_of_chunks b) as [c|x|p|] eqn:NC.
          * destruct (insert_locs _ _ _ _ _) as [objs r] eqn:IL. intros X. injection X as _ <-.
            assert (Y : forall l objs i objs' r', insert_locs objs (length (ix_blocks ix1)) c i l = (objs', r') -> r' <> Err ENoPreviousType).
            { clear. induction l as [|a l IH]; intros objs i objs' r'; cbn [insert_locs].
              - intros X; injection X as _ <-; discriminate.
              - destruct (checked_mul (a_n a) c); [|intros X; injection X as _ <-; discriminate].
                destruct (map_get (a_path a) objs); [apply IH|intros X; injection X as _ <-; discriminate]. }
            eapply Y; exact IL.
          * intros X. injection X as _ <-. cbn [recast]. intros X. injection X as ->.
            destruct (number_of_chunks_cases b) as [[c C1]|C1]; congruence.
          * intros X. injection X as _ <-. discriminate.
          * intros X. injection X as _ <-. discriminate.
        + cbn [recast]. intros X. injection X as ->. now apply (NE ENoPreviousType).
        + discriminate.
        + discriminate.
      - assert (N : forall objs l, match active_metas objs l with Err _ => False | _ => True end).
        { clear. intros objs. induction l as [|a l IH]; cbn [active_metas]; [exact Logic.I|].
          destruct (map_get (a_path a) objs) as [od|]; [|exact Logic.I].
          destruct (o_fmt od); [|exact Logic.I]. destruct (active_metas objs l); exact IH || exact Logic.I. }
        specialize (N (ix_objs ix1) (ix_active ix1)). now rewrite AM in N.
      - intros X. injection X as _ <-. discriminate.
      - intros X. injection X as _ <-. discriminate. }
    destruct (if toc_raw (sg_toc s) then add_raw E ix1 s else (ix1, Ok tt)) as [ix2 [u|e|p|]] eqn:R2.
    + unfold total_size_bytes. destruct (checked_add (sg_next s) LEAD_IN); [|discriminate].
      destruct (checked_add (ix_next ix2) n); discriminate.
    + cbn [recast snd]. intros X. injection X as ->. now apply (Z _ _ eq_refl).
    + discriminate.
    + discriminate.
  - rewrite (add_objects_fails (seg_objs s) ix0 I0). split.
    + intros [pre [o [post [H1 [H2 H3]]]]]. exists pre, o, post. rewrite <- C. auto.
    + intros [pre [o [post [H1 [H2 H3]]]]]. exists pre, o, post. rewrite C. auto.
Qed.

(** At the level of files: if the first segments are fine and the next one has
    such an object, opening fails with that error. *)
Theorem C17_open : forall E f H s ix,
  accepted E H ix ->
  (forall i x, nth_error (H ++ [s]) i = Some x -> segment_read E f (offset (firstn i (H ++ [s]))) = Ok x) ->
  (forall i, (i <= length H)%nat -> offset (firstn i H) <= seek_max E) ->
  (exists pre o post, seg_objs s = pre ++ o :: post /\ om_idx o = RIMatch
     /\ last_format (all_objs H ++ pre) (om_path o) = None) ->
  tdms_new E f = Err ENoPreviousType.
Proof.
  intros E f H s ix A R Sk X. apply (C17_no_previous_type E H ix s A) in X.
  destruct (accepted_described _ _ _ A) as [I [Hn _]].
  assert (Sc : scans E f index_new H ix).
  { apply scans_of; auto. intros i x Hi. specialize (R i x).
    assert (Hlt : (i < length H)%nat) by (apply nth_error_Some; congruence).
    rewrite nth_error_app1, firstn_app in R by exact Hlt.
    replace (i - length H)%nat with 0%nat in R by lia. cbn [firstn] in R. rewrite app_nil_r in R. auto. }
  assert (Rs : segment_read E f (ix_next ix) = Ok s).
  { specialize (R (length H) s). rewrite nth_error_app2, Nat.sub_diag in R by lia.
    rewrite firstn_app, Nat.sub_diag, firstn_all in R. cbn [firstn] in R. rewrite app_nil_r in R.
    rewrite Hn. now apply R. }
  unfold tdms_new. rewrite (build_scans E f H ix Sc I (S (length f))) by (unfold lenN; lia).
  cbn [build_loop]. rewrite Rs. destruct (add_segment E ix s) as [ix' r]. cbn [snd] in X. now rewrite X.
Qed.
Example C17_case :
  tdms_new dbg (fst (write_segment LittleE (mkToc false false false false false true)
     (Some [mkObj (B "/'g'") [] RINone; mkObj (B "/'g'/'c'") [] RIMatch]) (Some (mkWB 4 (bytes [1;2;3;4])))))
  = Err ENoPreviousType.
Proof. vm_compute. reflexivity. Qed.

(** ** C18 Every recorded sample location is valid *)
(** Any sequence of segments offered to the index, whatever the outcome of
    each. *)
Inductive offered (E : env) : index -> Prop :=
| off_new : offered E index_new
| off_add ix s : offered E ix -> offered E (fst (add_segment E ix s)).

Definition locations_valid (ix : index) : Prop :=
  forall p ls, get_positions ix p = Some ls ->
    (forall l, In l ls -> exists b m, get_data_block ix (l_block l) = Some b
        /\ nth_error (b_chans b) (l_chan l) = Some m
        /\ l_n l < 2 ^ 64
        /\ (exists c, number_of_chunks b = Ok c /\ l_n l = rm_n m * c))
    /\ StronglySorted lt (map l_block ls)
    /\ (forall p' ls' l l', p' <> p -> get_positions ix p' = Some ls' -> In l ls -> In l' ls' ->
          l_block l = l_block l' -> l_chan l <> l_chan l').

Theorem C18_locations_valid : forall E ix, offered E ix -> locations_valid ix.
Proof.
  intros E ix O. assert (I : inv ix).
  { induction O as [|ix s O IH]; [apply inv_new|].
    destruct (add_segment_spec E ix s IH) as [ix' [r [E2 [I2 _]]]]. now rewrite E2. }
  clear O. intros p ls G. unfold get_positions in G.
  destruct (map_get p (ix_objs ix)) as [od|] eqn:Q; [|discriminate]. injection G as <-.
  destruct (inv_locs _ I p od Q) as [L1 L2]. split; [|split; [exact L2|]].
  - intros l Hl. rewrite Forall_forall in L1. destruct (L1 l Hl) as [b [m [c [B1 [B2 [B3 [B4 B5]]]]]]].
    exists b, m. unfold get_data_block. repeat split; eauto.
  - intros p' ls' l l' Hp G' Hl Hl' Hb. unfold get_positions in G'.
    destruct (map_get p' (ix_objs ix)) as [od'|] eqn:Q'; [|discriminate]. injection G' as <-.
    eapply (inv_distinct _ I p p'); [exact Q|exact Q'|congruence|exact Hl|exact Hl'|exact Hb].
Qed.

Theorem C18_sessions : forall E H F, any_session E H F -> locations_valid (tf_ix F).
Proof.
  intros E H F S. apply (C18_locations_valid E).
  induction S as [f F H FS O|H F s F' r S IH W|H F f S IH]; [| |exact IH].
  - apply tdms_new_ok in O. destruct O as [O _]. destruct (open_segments E f _ H O FS) as [A _].
    clear -A. induction A as [|H ix s ix' n A IH Hs]; [constructor|].
    replace ix' with (fst (add_segment E ix s)) by now rewrite Hs. now constructor.
  - apply wrote_add in W. destruct W as [bs [n [_ [A _]]]].
    replace (tf_ix F') with (fst (add_segment E (tf_ix F) s)) by now rewrite A. now constructor.
Qed.
(** The failing write of no values leaves a valid index too. *)
Example C18_case :
  let F := write_channels dbg SI32 (open_bytes dbg (tf_bytes C14_file)) [ch "g" "b"; ch "g" "z"] [] Contigious in
  snd F = Err EZeroLengthDataBlock
  /\ get_positions (tf_ix (fst F)) (ch "g" "b") = Some [mkLoc 0 1 3; mkLoc 2 0 1].
Proof. vm_compute. split; reflexivity. Qed.

(** ** C19 Channel length is the number of samples of all its segments *)
Theorem C19_channel_length : forall E H F p,
  session E H F ->
  (length_after H p < 2 ^ 64 ->
   mentioned (all_objs H) p -> channel_length E F p = Ok (Some (length_after H p)))
  /\ (~ mentioned (all_objs H) p <-> channel_length E F p = Ok None).
Proof.
  intros E H F p S. apply session_accepted in S. destruct S as [A P].
  destruct (accepted_described _ _ _ A) as [_ [_ [_ [_ [Hk _]]]]]. specialize (Hk p). unfold known in Hk.
  pose proof (accepted_length _ _ _ A P p) as L. split.
  - intros Hl M. unfold channel_length. rewrite channel_length_spec by (rewrite L; exact Hl).
    rewrite L. destruct (map_get p (ix_objs (tf_ix F))); [reflexivity|]. exfalso. now apply Hk.
  - unfold channel_length, ix_channel_length. destruct (map_get p (ix_objs (tf_ix F))).
    + split; [|intros X; apply bind_ok in X; destruct X as [x [_ X]]; discriminate].
      intros X. exfalso. apply X, Hk. discriminate.
    + split; [reflexivity|]. intros _ M. now apply Hk in M.
Qed.

(** The proviso holds for every channel whose types all have a size. *)
Theorem C19_no_overflow : forall E H F p,
  session E H F ->
  (forall o m, In o (all_objs H) -> om_path o = p -> om_idx o = RIRaw m -> 0 < dtype_size (rm_type m)) ->
  length_after H p < 2 ^ 64.
Proof.
  intros E H F p S Hz. apply session_accepted in S. destruct S as [A P].
  destruct (accepted_described _ _ _ A) as [_ [_ [Ho _]]]. change (2 ^ 64) with two64.
  eapply N.le_lt_trans; [|exact Ho]. eapply length_bound; [exact A|].
  intros m Hin. apply in_map_iff in Hin. destruct Hin as [o [X Hin]]. apply filter_In in Hin.
  destruct Hin as [Hin K]. apply str_eqb_eq in K. unfold sized. eauto.
Qed.
Example C19_case : channel_length dbg (open_bytes dbg (tf_bytes C14_file)) (ch "g" "a") = Ok (Some 5).
Proof. vm_compute. reflexivity. Qed.

(** Without it the sum is unchecked: two one-byte segments in which a channel of
    type Void claims 2^63 values panic or wrap to zero. *)
Definition void_segment : list byte :=
  fst (write_segment LittleE (mkToc false false false false false true)
     (Some [mkObj (B "/'g'/'v'") [] (RIRaw (mkRaw Void (2 ^ 63) None));
            mkObj (B "/'g'/'b'") [] (RIRaw (mkRaw U8 1 None))]) (Some (mkWB 1 (bytes [7])))).
Theorem C19_sum_overflow_refuted : exists f F,
  tdms_new dbg f = Ok F /\ channel_length dbg F (B "/'g'/'v'") = Panic POverflow
  /\ tdms_new rel f = Ok F /\ channel_length rel F (B "/'g'/'v'") = Ok (Some 0).
Proof.
  exists (void_segment ++ void_segment), (open_bytes dbg (void_segment ++ void_segment)).
  vm_compute. repeat split; reflexivity.
Qed.

(** ** C20 Sizes and addresses that do not fit 64 bits are refused *)
(** On success every address is the true sum, and blocks lie inside their
    segments. *)
Lemma blocks_from_in pre H b : In b (blocks_from pre H) ->
  exists H1 s H2, H = H1 ++ s :: H2 /\ toc_raw (sg_toc s) = true /\ b = block_of (pre ++ H1) s.
Proof.
  revert pre. induction H as [|s H IH]; intros pre; cbn [blocks_from]; [intros []|].
  intros Hin. apply in_app_iff in Hin. destruct Hin as [Hin|Hin].
  - destruct (toc_raw (sg_toc s)) eqn:T; [|destruct Hin]. destruct Hin as [<-|[]].
    exists [], s, H. rewrite app_nil_r. auto.
  - destruct (IH _ Hin) as [H1 [s1 [H2 [-> [T ->]]]]]. exists (s :: H1), s1, H2. rewrite <- app_assoc. auto.
Qed.

Theorem C20_true_addresses : forall E H F,
  session E H F ->
  ix_next (tf_ix F) = offset H /\ offset H < 2 ^ 64
  /\ forall b, In b (ix_blocks (tf_ix F)) ->
     exists H1 s H2, H = H1 ++ s :: H2 /\ toc_raw (sg_toc s) = true
       /\ b_start b = offset H1 + 28 + sg_raw s
       /\ b_start b + b_len b = offset (H1 ++ [s]) /\ 0 < b_len b
       /\ b_start b + b_len b <= offset H
       /\ b_chans b = active_formats (H1 ++ [s])
       /\ chunk_bytes (b_chans b) < 2 ^ 64.
Proof.
  intros E H F S. apply session_accepted in S. destruct S as [A P].
  destruct (accepted_described _ _ _ A) as [_ [Hn [Ho [_ [_ [_ [_ Hb]]]]]]].
  split; [exact Hn|]. split; [exact Ho|]. intros b Hin. rewrite Hb in Hin.
  destruct (blocks_from_in [] H b Hin) as [H1 [s [H2 [Eq [T ->]]]]]. cbn [app].
  assert (Sg : exists ix1 ix2 n, accepted E H1 ix1 /\ add_segment E ix1 s = (ix2, Ok n)).
  { subst H. clear -A. replace (H1 ++ s :: H2) with ((H1 ++ [s]) ++ H2) in A by now rewrite <- app_assoc.
    revert A. generalize (tf_ix F) as ix. induction H2 as [|x H2 IH] using rev_ind; intros ix A.
    - rewrite app_nil_r in A. inversion A as [X|H' ix0 s' ix' n A' Ha X Y].
      + destruct H1; discriminate.
      + apply app_inj_tail in X. destruct X as [-> ->]. eauto.
    - rewrite app_assoc in A. inversion A as [X|H' ix0 s' ix' n A' Ha X Y].
      + destruct ((H1 ++ [s]) ++ H2); discriminate.
      + apply app_inj_tail in X. destruct X as [-> ->]. eauto. }
  destruct Sg as [ix1 [ix2 [n [A1 Ha]]]].
  pose proof (accepted_described _ _ _ A1) as D1. pose proof (described_step _ _ _ _ _ _ D1 Ha) as D2.
  destruct D1 as [I1 [Hn1 _]]. destruct D2 as [I2 [_ [_ [A' [_ [F' _]]]]]].
  destruct (add_segment_spec E ix1 s I1) as [ix3 [r [E1 [_ R]]]]. rewrite Ha in E1. injection E1 as <- <-.
  rewrite T in R. destruct R as [_ [_ [_ [_ [_ [_ [_ [Hlt [_ [c [_ [Hc _]]]]]]]]]]]].
  assert (Off : offset (H1 ++ [s]) = offset H1 + 28 + sg_next s) by (rewrite offset_app; reflexivity).
  assert (Eb : seg_block ix2 (ix_next ix1) s = block_of H1 s).
  { unfold seg_block, block_of. rewrite (active_formats_eq (H1 ++ [s]) ix2 A' F'), Hn1. reflexivity. }
  rewrite Eb in Hc. apply number_of_chunks_plain in Hc.
  2: { cbn [block_of b_chans]. apply active_formats_plain. subst H. apply Forall_app in P. destruct P as [P1 P2].
       inversion P2; subst. apply Forall_app. auto. }
  exists H1, s, H2. cbn [block_of b_start b_len b_chans].
  split; [exact Eq|]. split; [exact T|]. split; [reflexivity|].
  split; [lia|]. split; [lia|]. split; [|split; [reflexivity|apply Hc]].
  subst H. replace (H1 ++ s :: H2) with ((H1 ++ [s]) ++ H2) by now rewrite <- app_assoc.
  rewrite (offset_app (H1 ++ [s]) H2). pose proof (offset_grows H2 (offset (H1 ++ [s]))). lia.
Qed.

(** A segment whose end does not fit, or whose chunk size does not fit, is not
    accepted. *)
Theorem C20_refused : forall E H ix s,
  accepted E H ix -> Forall plain H -> plain s ->
  2 ^ 64 <= offset H + 28 + sg_next s
  \/ (toc_raw (sg_toc s) = true /\ 2 ^ 64 <= chunk_bytes (active_formats (H ++ [s]))) ->
  forall n, snd (add_segment E ix s) <> Ok n.
Proof.
  intros E H ix s A P Ps X n Hn. destruct (add_segment E ix s) as [ix' r] eqn:Ha. cbn [snd] in Hn. subst r.
  pose proof (accepted_described _ _ _ A) as D1. pose proof (described_step _ _ _ _ _ _ D1 Ha) as D2.
  destruct D1 as [I1 [Hn1 _]]. destruct D2 as [I2 [_ [_ [A' [_ [F' _]]]]]].
  destruct (add_segment_spec E ix s I1) as [ix3 [r [E1 [_ R]]]]. rewrite Ha in E1. injection E1 as <- <-.
  destruct R as [Rn [Rlt [_ [_ [_ [_ [_ R8]]]]]]]. destruct X as [X|[T X]].
  - change (2 ^ 64) with two64 in X. lia.
  - rewrite T in R8. destruct R8 as [_ [_ [c [_ [Hc _]]]]].
    assert (Eb : seg_block ix' (ix_next ix) s = block_of H s).
    { unfold seg_block, block_of. rewrite (active_formats_eq (H ++ [s]) ix' A' F'), Hn1. reflexivity. }
    rewrite Eb in Hc. apply number_of_chunks_plain in Hc.
    2: { cbn [block_of b_chans]. apply active_formats_plain. apply Forall_app. auto. }
    destruct Hc as [_ Hc]. cbn [block_of b_chans] in Hc. change (2 ^ 64) with two64 in X. lia.
Qed.

(** The errors are the overflow errors. *)
Theorem C20_errors : forall E H ix s,
  accepted E H ix ->
  (toc_raw (sg_toc s) = false -> resolvable H s -> 2 ^ 64 <= offset H + 28 + sg_next s ->
   snd (add_segment E ix s) = Err ESegmentAddressOverflow).
Proof.
  intros E H ix s A T Rs Hov. destruct (accepted_described _ _ _ A) as [I [Hn _]].
  pose proof (accepted_told _ _ _ A) as Td.
  unfold add_segment. set (ix0 := if toc_newlist (sg_toc s) then set_active ix [] else ix).
  assert (I0 : inv ix0) by (unfold ix0; destruct (toc_newlist (sg_toc s)); [now apply inv_deactivate|exact I]).
  assert (N0 : ix_next ix0 = ix_next ix) by (unfold ix0; destruct (toc_newlist (sg_toc s)); reflexivity).
  assert (Em : match sg_meta s with Some objs => add_objects ix0 objs | None => (ix0, Ok tt) end
               = add_objects ix0 (seg_objs s)) by (unfold seg_objs; destruct (sg_meta s); reflexivity).
  rewrite Em. destruct (add_objects_spec (seg_objs s) ix0 I0) as [ix1 [r [E1 [_ [_ [Nx [_ R]]]]]]].
  rewrite E1, T.
  destruct R as [[-> _]| ->].
  - unfold total_size_bytes, checked_add, LEAD_IN. change (2 ^ 64) with two64 in Hov.
    destruct (sg_next s + 28 <? two64) eqn:C1; [|reflexivity].
    replace (ix_next ix1 + (sg_next s + 28) <? two64) with false by lia. reflexivity.
  - exfalso. assert (X : snd (add_objects ix0 (seg_objs s)) = Err ENoPreviousType) by (rewrite E1; reflexivity).
    apply add_objects_fails in X; [|exact I0]. destruct X as [pre [o [post [Eq [Ho Hnone]]]]].
    destruct Td as [_ [_ [Hf _]]].
    assert (C : channel_format ix0 (om_path o) = last_format (all_objs H) (om_path o)).
    { rewrite <- Hf. unfold channel_format, ix0. destruct (toc_newlist (sg_toc s)); reflexivity. }
    rewrite C in Hnone. destruct (last_format (all_objs H) (om_path o)) eqn:L.
    + now apply fmt_some in Hnone.
    + apply (Rs o); auto. rewrite Eq. apply in_or_app. right. now left.
Qed.
Theorem C20_chunk_error : forall E H ix s,
  accepted E H ix -> Forall plain H -> plain s -> resolvable H s ->
  toc_raw (sg_toc s) = true -> sg_raw s < sg_next s -> offset H + 28 + sg_raw s < 2 ^ 64 ->
  2 ^ 64 <= chunk_bytes (active_formats (H ++ [s])) ->
  snd (add_segment E ix s) = Err EChunkSizeOverflow.
Proof.
  intros E H ix s A P Ps Rs T Hlt Hst Hov. destruct (accepted_described _ _ _ A) as [I [Hn [_ [Hact _]]]].
  pose proof (accepted_told _ _ _ A) as Td.
  unfold add_segment. set (ix0 := if toc_newlist (sg_toc s) then set_active ix [] else ix).
  assert (I0 : inv ix0) by (unfold ix0; destruct (toc_newlist (sg_toc s)); [now apply inv_deactivate|exact I]).
  assert (N0 : ix_next ix0 = ix_next ix) by (unfold ix0; destruct (toc_newlist (sg_toc s)); reflexivity).
  assert (O0 : ix_objs ix0 = ix_objs ix) by (unfold ix0; destruct (toc_newlist (sg_toc s)); reflexivity).
  assert (A0 : map a_path (ix_active ix0) = if toc_newlist (sg_toc s) then [] else map a_path (ix_active ix))
    by (unfold ix0; destruct (toc_newlist (sg_toc s)); reflexivity).
  assert (Em : match sg_meta s with Some objs => add_objects ix0 objs | None => (ix0, Ok tt) end
               = add_objects ix0 (seg_objs s)) by (unfold seg_objs; destruct (sg_meta s); reflexivity).
  destruct Td as [_ [_ [Hf _]]].
  assert (C : forall k, channel_format ix0 k = last_format (all_objs H) k).
  { intros k. rewrite <- Hf. unfold channel_format. now rewrite O0. }
  rewrite Em. destruct (add_objects_spec (seg_objs s) ix0 I0) as [ix1 [r [E1 [I1 [_ [Nx [_ R]]]]]]].
  rewrite E1, T.
  destruct R as [[-> [Ra [_ [Rf _]]]]| ->].
  - assert (Ra' : map a_path (ix_active ix1) = active_after (H ++ [s])).
    { rewrite Ra, A0, Hact. unfold active_after. rewrite fold_left_app. reflexivity. }
    assert (Rf' : forall k, channel_format ix1 k = last_format (all_objs (H ++ [s])) k).
    { intros k. rewrite Rf, C. unfold last_format, all_objs. rewrite flat_map_app, fold_left_app.
      cbn [flat_map]. now rewrite app_nil_r. }
    unfold add_raw. destruct (active_metas_spec (ix_objs ix1) (ix_active ix1)) as [ms [Ems [Hl _]]]; [apply I1|].
    rewrite Ems. pose proof (active_metas_map ix1 ms I1 Ems) as Hms.
    rewrite (active_formats_eq (H ++ [s]) ix1 Ra' Rf') in Hms.
    destruct ms as [|m ms]; [rewrite <- Hms in Hov; cbn in Hov; lia|].
    unfold from_segment. change (2 ^ 64) with two64 in *.
    replace (sg_next s <? sg_raw s) with false by lia.
    replace (sg_next s - sg_raw s =? 0) with false by lia.
    unfold uadd, LEAD_IN. replace (sg_raw s + 28 <? two64) with true by lia. cbn [bind].
    replace (sg_raw s + 28 + ix_next ix1 <? two64) with true by lia. cbn [bind].
    unfold insert_data_block.
    match goal with |- context [number_of_chunks ?b] => destruct (number_of_chunks_cases b) as [[c Hc]|Hc] end;
      rewrite Hc; [|reflexivity].
    exfalso. apply number_of_chunks_plain in Hc; cbn [b_chans] in Hc.
    + destruct Hc as [_ Hc]. rewrite Hms in Hc. lia.
    + cbn [b_chans]. rewrite Hms. apply active_formats_plain. apply Forall_app. auto.
  - exfalso. assert (X : snd (add_objects ix0 (seg_objs s)) = Err ENoPreviousType) by (rewrite E1; reflexivity).
    apply add_objects_fails in X; [|exact I0]. destruct X as [pre [o [post [Eq [Ho Hnone]]]]].
    rewrite C in Hnone. destruct (last_format (all_objs H) (om_path o)) eqn:L.
    + now apply fmt_some in Hnone.
    + apply (Rs o); auto. rewrite Eq. apply in_or_app. right. now left.
Qed.
Example C20_case_chunk :
  tdms_new dbg (fst (write_segment LittleE (mkToc false false false false false true)
     (Some [mkObj (B "/'g'/'c'") [] (RIRaw (mkRaw I32 (2 ^ 62) None))]) (Some (mkWB 4 (bytes [1;2;3;4])))))
  = Err EChunkSizeOverflow.
Proof. vm_compute. reflexivity. Qed.
Example C20_case_address :
  tdms_new dbg (fst (write_segment LittleE (mkToc false false false false false true)
     (Some [mkObj (B "/'g'/'c'") [] (RIRaw (mkRaw I32 1 None))]) (Some (mkWB (2 ^ 64 - 67) (bytes [1;2;3;4])))))
  = Err ESegmentAddressOverflow.
Proof. vm_compute. reflexivity. Qed.

Print Assumptions C14_open_is_session.
Print Assumptions C14_incremental.
Print Assumptions C15_last_write_wins.
Print Assumptions C15_write_is_last.
Print Assumptions C16_missing.
Print Assumptions C16_read_all.
Print Assumptions C17_no_previous_type.
Print Assumptions C17_open.
Print Assumptions C18_locations_valid.
Print Assumptions C18_sessions.
Print Assumptions C19_channel_length.
Print Assumptions C19_no_overflow.
Print Assumptions C19_sum_overflow_refuted.
Print Assumptions C20_true_addresses.
Print Assumptions C20_refused.
Print Assumptions C20_errors.
Print Assumptions C20_chunk_error.
