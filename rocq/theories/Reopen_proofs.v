(** * Re-opening a file after a write, whole or cut short *)
From Verif Require Import Base Lib Utf8 DataTypes MetaData Maps DataBlock Index RawData ChannelReader TdmsFile
  SpecCodec SpecIndex SpecSession SpecRead SpecWrite SpecLocal Codec_proofs Segment_proofs Maps_proofs Parse_proofs
  Index_proofs History_proofs Open_proofs Session_proofs Add_proofs Write_proofs Thm_Open Thm_Index.

(** ** Bytes consumed by the parsers *)
Lemma dec_uint_used e w bs n r : dec_uint e w bs = Ok (n, r) -> lenN bs = N.of_nat w + lenN r.
Proof.
  unfold dec_uint. intros H. bind_inv. apply read_exact_ok in Hb. destruct Hb as [-> Hl].
  rewrite lenN_app. lia.
Qed.
Lemma dec_used E e t bs v r : dec E e t bs = Ok (v, r) -> lenN bs = val_size t v + lenN r.
Proof.
  destruct t; cbn [dec val_size]; unfold dec_sint, dec_bool, dec_ext, dec_complex, dec_str; intros H; bind_inv;
    repeat match goal with
    | H : dec_uint _ _ _ = Ok _ |- _ => apply dec_uint_used in H
    | H : read_exact _ _ = Ok _ |- _ => apply read_exact_ok in H; destruct H as [-> H]; rewrite ?lenN_app
    end; try lia.
  match goal with H : (if ?c then _ else _) = Ok _ |- _ => destruct c; [|discriminate H] end. bind_inv.
  match goal with H : (if ?c then _ else _) = Ok _ |- _ => destruct c; [|discriminate H] end. bind_inv.
  match goal with H : read_exact _ _ = Ok _ |- _ => apply read_exact_ok in H; destruct H as [-> H] end.
  rewrite lenN_app in *. lia.
Qed.
Lemma read_dtype_used e bs t r : read_dtype e bs = Ok (t, r) -> lenN bs = 4 + lenN r.
Proof.
  unfold read_dtype. intros H. bind_inv. destruct (dtype_of_code n); [|discriminate]. bind_inv.
  match goal with H : dec_uint _ _ _ = Ok _ |- _ => apply dec_uint_used in H end. lia.
Qed.
Lemma read_pval_used E e bs v r : read_pval E e bs = Ok (v, r) -> lenN bs = pval_size v + lenN r.
Proof.
  unfold read_pval. intros H. bind_inv.
  match goal with H : read_dtype _ _ = Ok _ |- _ => apply read_dtype_used in H; rename H into Hd end.
  destruct d; unfold read_as in *; bind_inv; unfold pval_size;
    try match goal with H : dec _ _ _ _ = Ok _ |- _ => apply dec_used in H end; lia.
Qed.
Lemma read_rawidx_used e bs x r : read_rawidx e bs = Ok (x, r) -> lenN bs = rawidx_size x + lenN r.
Proof.
  unfold read_rawidx. intros H. bind_inv.
  match goal with H : dec_uint _ _ _ = Ok _ |- _ => apply dec_uint_used in H; rename H into Hd end.
  repeat match goal with H : (if ?c then _ else _) = Ok _ |- _ => destruct c; try discriminate H end; bind_inv;
    cbn [rawidx_size];
    repeat match goal with
    | H : dec_uint _ _ _ = Ok _ |- _ => apply dec_uint_used in H
    | H : read_dtype _ _ = Ok _ |- _ => apply read_dtype_used in H
    end; lia.
Qed.
Lemma loop_used {A} (item : parser A) (size : A -> N) :
  (forall bs x r, item bs = Ok (x, r) -> lenN bs = size x + lenN r) ->
  forall fuel count bs xs r, loop item fuel count bs = Ok (xs, r) -> lenN bs = sumN (map size xs) + lenN r.
Proof.
  intros Hi. induction fuel as [|fuel IH]; intros count bs xs r; cbn [loop]; destruct (count =? 0); intros H; bind_inv;
    cbn [map sumN fold_right]; try lia.
  match goal with H : item _ = Ok _ |- _ => apply Hi in H end.
  match goal with H : loop _ _ _ _ = Ok _ |- _ => apply IH in H end. unfold sumN in *. lia.
Qed.
Lemma read_obj_used E e bs o r : read_obj E e bs = Ok (o, r) -> lenN bs = obj_size o + lenN r.
Proof.
  unfold read_obj. intros H. bind_inv.
  match goal with H : (if ?c then _ else _) = Ok _ |- _ => destruct c; [|discriminate H] end. bind_inv.
  unfold obj_size. cbn [om_path om_idx om_props].
  rewrite read_props_loop in *.
  repeat match goal with
    | H : dec_uint _ _ _ = Ok _ |- _ => apply dec_uint_used in H
    | H : dec _ _ _ _ = Ok _ |- _ => apply dec_used in H
    | H : read_rawidx _ _ = Ok _ |- _ => apply read_rawidx_used in H
    end.
  match goal with H : loop _ _ _ _ = Ok _ |- _ =>
      apply (loop_used _ (fun p => val_size SStr (fst p) + pval_size (snd p))) in H; [lia|] end.
  intros bs' [k v] r' H'. bind_inv. cbn [fst snd].
  repeat match goal with
    | H : dec _ _ _ _ = Ok _ |- _ => apply dec_used in H
    | H : read_pval _ _ _ = Ok _ |- _ => apply read_pval_used in H end. lia.
Qed.
Lemma read_metadata_used E e bs m r : read_metadata E e bs = Ok (m, r) -> lenN bs = metadata_size m + lenN r.
Proof.
  unfold read_metadata. intros H. bind_inv.
  match goal with H : (if ?c then _ else _) = Ok _ |- _ => destruct c; [|discriminate H] end.
  rewrite read_objs_loop in *. unfold metadata_size.
  match goal with H : dec_uint _ _ _ = Ok _ |- _ => apply dec_uint_used in H end.
  match goal with H : loop _ _ _ _ = Ok _ |- _ => apply (loop_used _ obj_size) in H; [lia|] end.
  intros. eapply read_obj_used; eauto.
Qed.
Lemma after_tag_used E bs s r : after_tag E bs = Ok (s, r) ->
  exists m, sg_meta s = Some m /\ lenN bs = 24 + metadata_size m + lenN r.
Proof.
  unfold after_tag, read_segment. intros H. bind_inv. cbn [sg_meta]. eexists. split; [reflexivity|].
  repeat match goal with
    | H : read_exact _ _ = Ok _ |- _ => apply read_exact_ok in H; destruct H as [-> H]; rewrite ?lenN_app
    | H : dec_uint _ _ _ = Ok _ |- _ => apply dec_uint_used in H
    | H : read_metadata _ _ _ = Ok _ |- _ => apply read_metadata_used in H end. lia.
Qed.

(** A segment is read from the bytes of its lead-in and metadata alone. *)
Lemma segment_read_extent E f pos s : segment_read E f pos = Ok s ->
  exists m c, sg_meta s = Some m /\ dropN pos f = TDSm ++ c ++ dropN (pos + 28 + metadata_size m) f
    /\ lenN c = 24 + metadata_size m /\ pos + 28 + metadata_size m <= lenN f
    /\ (forall t, after_tag E (c ++ t) = Ok (s, t))
    /\ (forall c' c'', c = c' ++ c'' -> c'' <> [] -> after_tag E c' = EOF).
Proof.
  intros H. apply segment_read_ok in H. destruct H as [c [Hd [Hk [Hl [Hs Hp]]]]].
  destruct (after_tag_used E _ _ _ (Hs [])) as [m [Hm Hu]]. rewrite lenN_app, lenN_nil in Hu.
  exists m, c. replace (pos + 28 + metadata_size m) with (pos + 4 + lenN c) by lia.
  repeat split; auto. lia.
Qed.
Lemma segment_read_piece E pre s c t : (forall t, after_tag E (c ++ t) = Ok (s, t)) ->
  segment_read E (pre ++ TDSm ++ c ++ t) (lenN pre) = Ok s.
Proof.
  intros Hs. rewrite segment_read_eq, dropN_app_exact. change 4 with (lenN TDSm). rewrite read_exact_app, str_eqb_refl, Hs.
  reflexivity.
Qed.
Lemma segment_read_cut E pre (c c' c'' : list byte) :
  (forall c' c'', c = c' ++ c'' -> c'' <> [] -> after_tag E c' = EOF) ->
  c = c' ++ c'' -> c'' <> [] ->
  segment_read E (pre ++ TDSm ++ c') (lenN pre) = EOF.
Proof.
  intros Hp Hc Hn. rewrite segment_read_eq, dropN_app_exact. change 4 with (lenN TDSm). rewrite read_exact_app, str_eqb_refl.
  now rewrite (Hp _ _ Hc Hn).
Qed.

(** ** Opening a file with one more segment *)
Lemma reopen_one E f ix bs s ix' n :
  build_index E f = Ok ix -> ix_next ix = lenN f -> lenN f <= seek_max E ->
  segment_read E (f ++ bs) (lenN f) = Ok s -> add_segment E ix s = (ix', Ok n) -> lenN (f ++ bs) <= n ->
  build_index E (f ++ bs) = Ok ix'.
Proof.
  intros B Hn Hm R A Hl.
  rewrite (open_extend E f ix bs B) with (fuel := S (S (length bs)));
    [|rewrite Hn; exact Hm|lia|rewrite Hn, lenN_app; unfold lenN; lia].
  rewrite Hn. cbn [build_loop]. rewrite R, A. cbn [bind]. unfold seek_to.
  destruct (n <=? seek_max E); [|reflexivity].
  assert (X : segment_read E (f ++ bs) n = Err EEndOfFile) by (apply segment_read_eof; lia).
  now rewrite X.
Qed.
Lemma reopen_err E f ix bs x :
  build_index E f = Ok ix -> ix_next ix = lenN f -> lenN f <= seek_max E ->
  segment_read E (f ++ bs) (lenN f) = Err x -> x <> EEndOfFile ->
  build_index E (f ++ bs) = Err x.
Proof.
  intros B Hn Hm R Hx.
  rewrite (open_extend E f ix bs B) with (fuel := S (S (length bs)));
    [|rewrite Hn; exact Hm|lia|rewrite Hn, lenN_app; unfold lenN; lia].
  rewrite Hn. cbn [build_loop]. rewrite R. destruct x; congruence.
Qed.

(** An absent and an empty list of objects are the same to the index. *)
Lemma add_segment_empty_meta E ix tc n r : add_segment E ix (mkSeg tc n r None) = add_segment E ix (mkSeg tc n r (Some [])).
Proof. reflexivity. Qed.

Lemma tdms_new_iff E f F : tdms_new E f = Ok F <-> build_index E f = Ok (tf_ix F) /\ tf_bytes F = f.
Proof.
  unfold tdms_new. destruct F as [ix b]. cbn [tf_ix tf_bytes]. destruct (build_index E f); cbn [bind]; split;
    try (intros [X _]; discriminate); try discriminate.
  - intros X. injection X as -> ->. auto.
  - intros [X ->]. injection X as ->. reflexivity.
Qed.

(** The bytes of a written segment cut at [k]. *)
Lemma cut_after_meta e tc m d k : 28 + metadata_size m <= N.of_nat k ->
  firstn k (fst (write_segment e tc (Some m) d))
  = fst (write_segment e tc (Some m)
       (match d with Some d => Some (mkWB (wb_size d) (firstn (k - 28 - N.to_nat (metadata_size m)) (wb_bytes d))) | None => None end)).
Proof.
  intros Hk. unfold write_segment. cbn [fst].
  assert (Hmb := metadata_size_eq e m).
  destruct d as [d|].
  - cbn [wb_size wb_bytes].
    match goal with |- firstn k (?a ++ ?b ++ ?c ++ ?d0 ++ ?e0 ++ ?g ++ ?h) = _ =>
      set (A := a ++ b ++ c ++ d0 ++ e0 ++ g); replace (a ++ b ++ c ++ d0 ++ e0 ++ g ++ h) with (A ++ h)
        by (unfold A; rewrite <- !app_assoc; reflexivity); assert (LA : lenN A = 28 + metadata_size m) end.
    { unfold A. rewrite !lenN_app, Hmb. unfold write_toc, enc_uint. rewrite !lenN_uint_bytes.
      unfold lenN. rewrite le_bytes_length. cbn [length TDSm]. lia. }
    assert (LA' : length A = (28 + N.to_nat (metadata_size m))%nat) by (unfold lenN in LA; lia).
    rewrite firstn_app, firstn_all2 by lia.
    replace (k - length A)%nat with (k - 28 - N.to_nat (metadata_size m))%nat by lia.
    unfold A. rewrite <- !app_assoc. reflexivity.
  - rewrite firstn_all2; [reflexivity|]. 
    rewrite !app_length. unfold write_toc, enc_uint. rewrite !uint_bytes_length, le_bytes_length.
    unfold lenN in Hmb. cbn [length TDSm]. lia.
Qed.

(** ** What a successful call appended *)
Lemma call_emits E F cl F' : do_call E F cl = (F', Ok tt) ->
  exists e tc m d n,
    tf_bytes F' = tf_bytes F ++ fst (write_segment e tc m d)
    /\ add_segment E (tf_ix F) (snd (write_segment e tc m d)) = (tf_ix F', Ok n)
    /\ match cl with
       | CallProps e0 path kvs => e = e0 /\ tc = toc_default /\ m = Some [mkObj path kvs RINone] /\ d = None
       | CallChans e0 t chans vs lay =>
         chans <> [] /\ lenN vs mod lenN chans = 0 /\ e = e0 /\ d = Some (slice_block e0 t vs)
         /\ exists omit, tc = call_toc lay omit
              /\ m = (if omit then None else Some (call_objs (tf_ix F) (call_meta t vs chans) chans))
              /\ (omit = true <-> continues (map a_path (ix_active (tf_ix F))) chans)
       end.
Proof.
  destruct cl as [e path kvs|e t chans vs lay]; cbn [do_call]; intros Ew.
  - unfold write_properties_e in Ew. exists e, toc_default, (Some [mkObj path kvs RINone]), None.
    destruct (write_segment e toc_default (Some [mkObj path kvs RINone]) None) as [bs s] eqn:Ws. cbn [fst snd].
    destruct (add_segment E (tf_ix F) s) as [ix' r] eqn:A. injection Ew as <- Er.
    destruct r as [n| | |]; try discriminate. exists n. cbn [tf_bytes tf_ix]. repeat split; auto.
  - unfold write_channels_e in Ew.
    destruct (stream_segment e t (tf_ix F) chans vs lay) as [[bs s]|x|x|] eqn:Es; try discriminate.
    assert (Hc : chans <> []) by (intros ->; discriminate).
    assert (Hd : lenN vs mod lenN chans = 0).
    { destruct (N.eq_dec (lenN vs mod lenN chans) 0) as [Q|Q]; [exact Q|]. exfalso. unfold stream_segment in Es.
      destruct chans as [|c0 cs]; [congruence|].
      replace (lenN vs mod lenN (c0 :: cs) =? 0) with false in Es by lia. discriminate. }
    destruct (call_stream e t (tf_ix F) chans vs lay Hc Hd) as [omit [Ho Eq]].
    rewrite Es in Eq. apply (f_equal (fun r => match r with Ok y => y | _ => (bs, s) end)) in Eq. cbv beta iota in Eq.
    eexists e, (call_toc lay omit), _, (Some (slice_block e t vs)). rewrite <- Eq. cbn [fst snd].
    destruct (add_segment E (tf_ix F) s) as [ix' r] eqn:A. injection Ew as <- Er.
    destruct r as [n| | |]; try discriminate. exists n. cbn [tf_bytes tf_ix].
    split; [reflexivity|]. split; [reflexivity|]. split; [exact Hc|]. split; [exact Hd|]. split; [reflexivity|]. split; [reflexivity|].
    exists omit. auto.
Qed.

Lemma sized_data e t (vs : list (carrier t)) : t <> SExt -> t <> SStr ->
  lenN (concat (map (enc e t) vs)) = lenN vs * size_bytes t.
Proof.
  intros A B. induction vs as [|v vs IH]; [reflexivity|]. cbn [map concat].
  rewrite lenN_app, enc_size, IH, lenN_cons.
  assert (Q : val_size t v = size_bytes t) by (destruct t; congruence || reflexivity). lia.
Qed.

Lemma good_call_meta E F cl : good_call E cl ->
  match cl with
  | CallProps _ path kvs => good_meta E [mkObj path kvs RINone]
  | CallChans _ t chans vs _ => good_meta E (call_objs (tf_ix F) (call_meta t vs chans) chans)
  end.
Proof.
  destruct cl as [e path kvs|e t chans vs lay]; cbn [good_call].
  - intros [A [B [C [D G]]]]. split; [|split; [reflexivity|exact G]]. constructor; [|constructor].
    split; [exact A|]. split; [exact Logic.I|]. cbn [om_props]. auto.
  - intros [A [B [C [D [G _]]]]]. unfold call_objs. split; [|split].
    + apply Forall_forall. intros o Ho. apply in_map_iff in Ho. destruct Ho as [p [<- Hp]].
      rewrite Forall_forall in A. split; [exact (A p Hp)|]. cbn [om_idx om_props om_path].
      split; [|split; [constructor|split; [reflexivity|exact D]]].
      assert (Q : good_idx (RIRaw (call_meta t vs chans))).
      { split; [|reflexivity]. cbn [call_meta rm_n]. destruct (N.eq_dec (lenN chans) 0) as [Z|Z].
        - rewrite Z. destruct (lenN vs); reflexivity.
        - pose proof (N.div_le_upper_bound (lenN vs) (lenN chans) (lenN vs) Z). nia. }
      destruct (channel_format (tf_ix F) p) as [l|]; [destruct (rawmeta_eqb l _)|]; try exact Q. exact Logic.I.
    + now rewrite lenN_map.
    + rewrite lenN_map. exact G.
Qed.

(** A file cut [d] bytes into its last segment. *)
Lemma cut_reopen E f ix bs s m ix' n d :
  build_index E f = Ok ix -> ix_next ix = lenN f -> lenN f <= seek_max E ->
  segment_read E (f ++ bs) (lenN f) = Ok s -> sg_meta s = Some m ->
  add_segment E ix s = (ix', Ok n) -> lenN (f ++ bs) <= n -> (d <= length bs)%nat ->
  (N.of_nat d < 4 -> build_index E (f ++ firstn d bs) = Ok ix)
  /\ (4 <= N.of_nat d < 28 + metadata_size m -> build_index E (f ++ firstn d bs) = EOF)
  /\ (28 + metadata_size m <= N.of_nat d -> build_index E (f ++ firstn d bs) = Ok ix').
Proof.
  intros B Hn Hm R Sm A Hl Hd.
  destruct (segment_read_extent _ _ _ _ R) as [m' [c [Sm' [Hf [Lc [_ [Hs Hp]]]]]]].
  rewrite Sm in Sm'. injection Sm' as <-. rewrite dropN_app_exact in Hf.
  remember (dropN (lenN f + 28 + metadata_size m) (f ++ bs)) as t eqn:Et. clear Et.
  assert (Ld : lenN (firstn d bs) = N.of_nat d) by (unfold lenN; rewrite firstn_length; lia).
  split; [|split].
  - intros K. pose proof (proj1 (C13_tails E f (mkTF ix f) (firstn d bs)
       (proj2 (tdms_new_iff E f (mkTF ix f)) (conj B eq_refl)) ltac:(cbn [tf_ix]; lia))) as T.
    cbn [tf_ix] in T. rewrite Hn, dropN_app_exact, Ld in T. specialize (T K).
    apply tdms_new_iff in T. exact (proj1 T).
  - intros [K1 K2]. apply (reopen_err E f ix _ _ B Hn Hm); [|discriminate].
    assert (Q : firstn d bs = TDSm ++ firstn (d - 4) c).
    { rewrite Hf, firstn_app. change (length TDSm) with 4%nat. rewrite (firstn_all2 TDSm) by (cbn [length TDSm]; lia).
      f_equal. rewrite firstn_app. replace (d - 4 - length c)%nat with 0%nat by (unfold lenN in Lc; lia).
      cbn [firstn]. apply app_nil_r. }
    rewrite Q. apply (segment_read_cut E f c (firstn (d - 4) c) (skipn (d - 4) c) Hp); [symmetry; apply firstn_skipn|].
    intros X. apply (f_equal (@length _)) in X. rewrite skipn_length in X. cbn [length] in X. unfold lenN in Lc. lia.
  - intros K. apply (reopen_one E f ix _ s ix' n B Hn Hm); [|exact A|].
    + assert (Q : firstn d bs = TDSm ++ c ++ firstn (d - 4 - length c) t).
      { rewrite Hf, firstn_app. change (length TDSm) with 4%nat. rewrite (firstn_all2 TDSm) by (cbn [length TDSm]; lia).
        f_equal. rewrite firstn_app, (firstn_all2 c) by (unfold lenN in Lc; lia). reflexivity. }
      rewrite Q. apply segment_read_piece. exact Hs.
    + rewrite lenN_app, Ld. rewrite lenN_app in Hl. unfold lenN in *. lia.
Qed.

(** ** One call, then re-opening *)
Lemma open_inv E f ix : build_index E f = Ok ix -> inv ix.
Proof.
  intros B. destruct (open_history E f ix B) as [H [A _]]. now destruct (accepted_described _ _ _ A).
Qed.
Lemma add_next E ix s ix' n : inv ix -> add_segment E ix s = (ix', Ok n) ->
  n = ix_next ix + 28 + sg_next s /\ n < two64 /\ ix_next ix' = n
  /\ map a_path (ix_active ix') = act_seg (map a_path (ix_active ix)) s.
Proof.
  intros I A. destruct (add_segment_spec E ix s I) as [ix1 [r [E1 [_ R]]]]. rewrite A in E1. injection E1 as <- <-. tauto.
Qed.

(** Whether and how the call's segment is understood by the reader. *)
Definition legible (E : env) (F : tfile) (cl : call) : Prop :=
  match cl with
  | CallProps _ _ _ => True
  | CallChans e t chans vs _ =>
    ~ continues (map a_path (ix_active (tf_ix F))) chans
    \/ (zero_start e t vs /\ alloc_ok E AObjects 0 = true)
  end.

(** What the reader finds where the call wrote. *)
Lemma call_read E F cl F' : inv (tf_ix F) -> ix_next (tf_ix F) = lenN (tf_bytes F) ->
  good_call E cl -> legible E F cl -> do_call E F cl = (F', Ok tt) ->
  exists s m n, segment_read E (tf_bytes F') (lenN (tf_bytes F)) = Ok s /\ sg_meta s = Some m
    /\ add_segment E (tf_ix F) s = (tf_ix F', Ok n) /\ lenN (tf_bytes F') = n
    /\ (~ leaves_out (map a_path (ix_active (tf_ix F))) cl -> lenN (tf_bytes F') = lenN (tf_bytes F) + 28 + metadata_size m + data_bytes cl)
    /\ (leaves_out (map a_path (ix_active (tf_ix F))) cl -> m = []).
Proof.
  intros Iv Hn Gc Lg Ew.
  destruct (call_emits E F cl F' Ew) as [e [tc [m [d [n [Eb [A C]]]]]]].
  destruct (add_next _ _ _ _ _ Iv A) as [En [Hlt [En' Ha]]].
  pose proof (good_call_meta E F cl Gc) as Gm.
  assert (Hs : sg_next (snd (write_segment e tc m d))
      = match m with Some m => metadata_size m | None => 0 end + match d with Some d => wb_size d | None => 0 end) by reflexivity.
  assert (Hsz : match m with Some m => metadata_size m | None => 0 end + match d with Some d => wb_size d | None => 0 end < 2 ^ 64)
    by (rewrite <- Hs; change (2 ^ 64) with two64; lia).
  assert (Hd : lenN match d with Some d0 => wb_bytes d0 | None => [] end = data_bytes cl).
  { destruct cl as [e0 path kvs|e0 t chans vs lay].
    - destruct C as [_ [_ [_ ->]]]. reflexivity.
    - destruct C as [_ [_ [-> [-> _]]]]. reflexivity. }
  assert (Q : lenN match d with Some d0 => wb_bytes d0 | None => [] end = match d with Some d0 => wb_size d0 | None => 0 end).
  { destruct cl as [e0 path kvs|e0 t chans vs lay].
    - destruct C as [_ [_ [_ ->]]]. reflexivity.
    - destruct C as [_ [_ [_ [-> _]]]]. destruct Gc as [_ [_ [_ [_ [_ [G1 G2]]]]]].
      cbn [slice_block wb_bytes wb_size]. now rewrite sized_data. }
  assert (Hl : lenN (tf_bytes F') = n).
  { rewrite Eb, lenN_app, write_segment_len, En, Hs, Hn. unfold LEAD_IN. rewrite Q. lia. }
  destruct m as [m|].
  - exists (snd (write_segment e tc (Some m) d)), m, n. split; [|split; [reflexivity|]].
    { rewrite Eb. rewrite <- (app_nil_r (fst _)). apply segment_round_trip; [|exact Hsz].
      destruct cl as [e0 path kvs|e0 t chans vs lay].
      + destruct C as [_ [_ [C _]]]. injection C as ->. exact Gm.
      + destruct C as [_ [_ [_ [_ [omit [_ [C _]]]]]]]. destruct omit; [discriminate|]. injection C as ->. exact Gm. }
    split; [exact A|]. split; [exact Hl|]. split.
    + intros _. rewrite Eb, lenN_app, write_segment_len, Hd. unfold LEAD_IN. lia.
    + intros O. destruct cl as [e0 path kvs|e0 t chans vs lay]; [destruct O|].
      destruct C as [_ [_ [_ [_ [omit [_ [C Ho]]]]]]]. cbn [leaves_out] in O. apply Ho in O. subst omit. discriminate.
  - destruct cl as [e0 path kvs|e0 t chans vs lay]; [destruct C as [_ [_ [C _]]]; discriminate|].
    destruct C as [_ [_ [-> [-> [omit [-> [C Ho]]]]]]]. destruct omit; [|discriminate].
    destruct Lg as [Lg|[[r Zs] Al]]; [exfalso; apply Lg; now apply Ho|].
    eexists _, [], n. split; [|split; [|split; [|split; [exact Hl|split; [|reflexivity]]]]].
    + rewrite Eb, <- (app_nil_r (fst _)). rewrite segment_no_meta by exact Hsz. cbn [slice_block wb_bytes]. rewrite Zs.
      cbn [app]. rewrite read_metadata_zero by exact Al. cbn [bind]. reflexivity.
    + reflexivity.
    + rewrite <- add_segment_empty_meta. exact A.
    + intros O. exfalso. apply O. now apply Ho.
Qed.

Lemma reopen_call E F cl F' :
  tdms_new E (tf_bytes F) = Ok F -> ix_next (tf_ix F) = lenN (tf_bytes F) -> lenN (tf_bytes F) <= seek_max E ->
  good_call E cl -> legible E F cl -> do_call E F cl = (F', Ok tt) ->
  tdms_new E (tf_bytes F') = Ok F' /\ ix_next (tf_ix F') = lenN (tf_bytes F')
  /\ match cl with
     | CallProps _ _ _ => map a_path (ix_active (tf_ix F')) = map a_path (ix_active (tf_ix F))
     | CallChans _ _ chans _ _ =>
       (continues (map a_path (ix_active (tf_ix F))) chans ->
          map a_path (ix_active (tf_ix F')) = map a_path (ix_active (tf_ix F)))
       /\ (~ continues (map a_path (ix_active (tf_ix F))) chans -> NoDup chans ->
          map a_path (ix_active (tf_ix F')) = chans)
     end.
Proof.
  intros Op Hn Hm Gc Lg Ew. apply tdms_new_iff in Op. destruct Op as [B _].
  pose proof (open_inv _ _ _ B) as Iv.
  destruct (call_emits E F cl F' Ew) as [e [tc [m [d [n [Eb [A C]]]]]]].
  destruct (add_next _ _ _ _ _ Iv A) as [En [Hlt [En' Ha]]].
  destruct (call_read E F cl F' Iv Hn Gc Lg Ew) as [s' [m' [n' [R [_ [A' [Hl _]]]]]]].
  destruct (add_next _ _ _ _ _ Iv A') as [_ [_ [En2 _]]].
  split; [|split].
  - apply tdms_new_iff. split; [|reflexivity]. rewrite Eb in *. eapply reopen_one; eauto. lia.
  - congruence.
  - destruct cl as [e0 path kvs|e0 t chans vs lay].
    + destruct C as [-> [-> [-> ->]]]. exact Ha.
    + destruct C as [_ [_ [-> [-> [omit [-> [-> Ho]]]]]]]. split.
      * intros Q. apply Ho in Q. subst omit. exact Ha.
      * intros Q Nd. destruct omit; [exfalso; apply Q; now apply Ho|]. rewrite Ha, snd_write. unfold act_seg, seg_objs.
        cbn [sg_toc sg_meta write_toc_flags toc_newlist call_toc negb]. unfold call_objs.
        rewrite (fold_act chans) by (exact Nd || (intros p; destruct (channel_format (tf_ix F) p) as [l|];
          [destruct (rawmeta_eqb l _)|]; discriminate)). reflexivity.
Qed.

(** ** A file opens to an index exactly if the index accepts its segments *)
Lemma accepted_opens E f H ix : accepted E H ix -> file_segments E f H -> build_index E f = Ok ix.
Proof.
  intros A Fs. destruct A as [|H ix0 s ix' n A Ha].
  - destruct Fs as [_ [L|L]]; change (offset []) with 0 in L; [|lia].
    unfold build_index. cbn [build_loop].
    assert (R : segment_read E f 0 = Err EEndOfFile) by (apply segment_read_eof; lia). now rewrite R.
  - destruct Fs as [Rd En]. destruct (accepted_described _ _ _ A) as [Iv [Hn _]].
    assert (Nth : nth_error (H ++ [s]) (length H) = Some s) by (rewrite nth_error_app2, Nat.sub_diag by lia; reflexivity).
    destruct (Rd _ _ Nth) as [R Sk].
    rewrite firstn_app, Nat.sub_diag, firstn_all in R, Sk. cbn [firstn] in R, Sk. rewrite app_nil_r in R, Sk.
    assert (Pre : forall i, (i <= length H)%nat -> firstn i (H ++ [s]) = firstn i H).
    { intros i Hi. rewrite firstn_app. replace (i - length H)%nat with 0%nat by lia. cbn [firstn]. apply app_nil_r. }
    assert (Sc : scans E f index_new H ix0).
    { apply scans_of; auto.
      - intros i x Hi. assert (Hlt : (i < length H)%nat) by (apply nth_error_Some; congruence).
        destruct (Rd i x) as [R1 _]; [now rewrite nth_error_app1|]. now rewrite Pre in R1 by lia.
      - intros i Hi. destruct (Nat.eq_dec i (length H)) as [->|Ne]; [now rewrite firstn_all|].
        destruct (nth_error H i) as [x|] eqn:Hx; [|apply nth_error_None in Hx; lia].
        destruct (Rd i x) as [_ S1]; [rewrite nth_error_app1 by lia; exact Hx|]. now rewrite Pre in S1 by lia. }
    rewrite (build_scans E f H ix0 Sc Iv (S (S (length f)))) by (unfold lenN; lia).
    cbn [build_loop]. rewrite Hn, R, Ha. cbn [bind]. unfold seek_to.
    destruct (add_next _ _ _ _ _ Iv Ha) as [Hx _].
    destruct (n <=? seek_max E) eqn:K; [|reflexivity].
    assert (R2 : segment_read E f n = Err EEndOfFile).
    { apply segment_read_eof. rewrite offset_snoc in En. lia. }
    now rewrite R2.
Qed.
