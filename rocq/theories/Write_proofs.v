(** * What a data write does to the history and the bytes *)
From Verif Require Import Base Lib DataTypes MetaData Maps DataBlock Index RawData ChannelReader TdmsFile
  SpecCodec SpecIndex SpecSession SpecRead SpecWrite Codec_proofs Segment_proofs Index_proofs History_proofs
  Session_proofs Block_proofs Request_proofs Plan_proofs Read_proofs Add_proofs Thm_Index Thm_Read.

(** ** The metadata decision *)
Lemma zip_match_prefix : forall act (chans : list str) (m : rawmeta),
  zip_match act (combine chans (repeat m (length chans))) = true
  <-> prefix (map a_path act) chans \/ prefix chans (map a_path act).
Proof.
  induction act as [|a act IH]; intros chans m.
  - cbn [zip_match map]. split; [left; now exists chans|reflexivity].
  - destruct chans as [|c chans].
    + cbn [length repeat combine zip_match]. split; [right; now eexists|reflexivity].
    + cbn [length repeat combine zip_match map fst]. rewrite andb_true_iff, str_eqb_eq, IH. split.
      * intros [-> [[x ->]|[x X]]]; [left; now exists x|right; exists x; cbn [app]; now rewrite X].
      * intros [[x X]|[x X]]; cbn [app] in X; injection X as -> X; (split; [reflexivity|]);
          [left|right]; exists x; assumption.
Qed.

Definition call_meta (t : sty) (vs : list (carrier t)) (chans : list str) : rawmeta :=
  mkRaw (natural t) (lenN vs / lenN chans) None.

(** The objects emitted for [chans]. *)
Definition call_objs (ix : index) (m : rawmeta) (chans : list str) : list objmeta :=
  map (fun p => mkObj p [] (match channel_format ix p with
                            | Some last => if rawmeta_eqb last m then RIMatch else RIRaw m
                            | None => RIRaw m end)) chans.

Definition call_toc (lay : layout) (omit : bool) : toc :=
  mkToc false false false (layout_eqb lay Interleaved) false (negb omit).

Lemma combine_repeat_map {A B} (m : B) (l : list A) : combine l (repeat m (length l)) = map (fun x => (x, m)) l.
Proof. induction l as [|a l IH]; [reflexivity|]. cbn [length repeat combine map]. now rewrite IH. Qed.

Lemma call_stream e t ix chans vs lay : chans <> [] -> lenN vs mod lenN chans = 0 ->
  exists omit,
    (omit = true <-> continues (map a_path (ix_active ix)) chans)
    /\ stream_segment e t ix chans vs lay
       = Ok (write_segment e (call_toc lay omit)
               (if omit then None else Some (call_objs ix (call_meta t vs chans) chans))
               (Some (slice_block e t vs))).
Proof.
  intros Hne Hd. destruct chans as [|c cs]; [congruence|]. set (chans := c :: cs) in *.
  unfold stream_segment. fold chans. replace (lenN vs mod lenN chans =? 0) with true by lia. cbn [negb].
  unfold check_write_values, slice_structure. change (N.of_nat (length chans)) with (lenN chans).
  fold (call_meta t vs chans). set (m := call_meta t vs chans).
  exists (match ix_active ix with [] => false | _ => zip_match (ix_active ix) (combine chans (repeat m (length chans))) end).
  split.
  - unfold continues. destruct (ix_active ix) as [|a act] eqn:Ea; [split; [discriminate|intros [X _]; cbn in X; congruence]|].
    rewrite zip_match_prefix. split; [intros X; split; [discriminate|exact X]|intros [_ X]; exact X].
  - unfold call_toc, call_objs. rewrite combine_repeat_map, !map_map. cbn [fst snd].
    match goal with |- context [Some (map ?g chans)] =>
      match goal with |- _ = Ok (write_segment _ _ (if _ then _ else Some (map ?h chans)) _) =>
        replace (map g chans) with (map h chans);
        [|apply map_ext; intros p; destruct (channel_format ix p) as [l|]; [destruct (rawmeta_eqb l m)|]; reflexivity]
      end end.
    unfold chans at 1. reflexivity.
Qed.

(** ** The history after a data write *)
Lemma fold_act chans : forall (g : str -> rawidx) l, (forall p, g p <> RINone) -> NoDup (l ++ chans) ->
  fold_left act_obj (map (fun p => mkObj p [] (g p)) chans) l = l ++ chans.
Proof.
  induction chans as [|c cs IH]; intros g l Hg Nd; cbn [map fold_left]; [now rewrite app_nil_r|].
  assert (Hc : ~ In c l).
  { intros Hin. apply NoDup_remove_2 in Nd. apply Nd. apply in_or_app. now left. }
  assert (E0 : act_obj l (mkObj c [] (g c)) = l ++ [c]).
  { unfold act_obj. cbn [om_idx om_path]. destruct (existsb (str_eqb c) l) eqn:Ex.
    - apply existsb_str in Ex. contradiction.
    - specialize (Hg c). destruct (g c); [congruence|reflexivity|reflexivity]. }
  rewrite E0, IH; [now rewrite <- app_assoc|exact Hg|now rewrite <- app_assoc].
Qed.

Lemma call_objs_idx ix m chans : call_objs ix m chans
  = map (fun p => mkObj p [] (match channel_format ix p with
                            | Some last => if rawmeta_eqb last m then RIMatch else RIRaw m
                            | None => RIRaw m end)) chans.
Proof. reflexivity. Qed.

Lemma dtype_eqb_eq a b : dtype_eqb a b = true <-> a = b.
Proof. destruct a, b; cbn; split; intros H; try discriminate; reflexivity. Qed.
Lemma rawmeta_eqb_eq a b : rawmeta_eqb a b = true <-> a = b.
Proof.
  destruct a as [t1 n1 o1], b as [t2 n2 o2]. unfold rawmeta_eqb. cbn [rm_type rm_n rm_total].
  rewrite !andb_true_iff, dtype_eqb_eq, N.eqb_eq. split.
  - intros [[-> ->] X]. f_equal. destruct o1, o2; try discriminate; try reflexivity.
    cbn in X. apply N.eqb_eq in X. congruence.
  - intros X. injection X as -> -> ->. split; [auto|]. destruct o2; [apply N.eqb_refl|reflexivity].
Qed.

Lemma fold_fmt_call p m ix (L : option rawmeta) : L = channel_format ix p -> forall chans acc,
  (acc = L \/ acc = Some m) ->
  let r := fold_left (fmt_obj p) (call_objs ix m chans) acc in
  (In p chans -> r = Some m) /\ (~ In p chans -> r = acc) /\ (r = L \/ r = Some m).
Proof.
  intros HL. induction chans as [|c cs IH]; intros acc Ha; cbn [call_objs map fold_left].
  - split; [intros []|]. split; [reflexivity|exact Ha].
  - fold (call_objs ix m cs). set (o := mkObj c [] _).
    destruct (str_eqb p c) eqn:K.
    + apply str_eqb_eq in K. subst c.
      assert (Eo : fmt_obj p acc o = Some m).
      { unfold fmt_obj, o. cbn [om_path om_idx]. rewrite str_eqb_refl. rewrite <- HL.
        destruct L as [last|]; [|reflexivity]. destruct (rawmeta_eqb last m) eqn:R; [|reflexivity].
        apply rawmeta_eqb_eq in R. subst last. destruct Ha; assumption. }
      rewrite Eo. destruct (IH (Some m) (or_intror eq_refl)) as [A [B C]]. cbn zeta in *.
      split; [|split].
      * intros _. destruct (in_dec (list_eq_dec Byte.byte_eq_dec) p cs); auto.
      * intros X. exfalso. apply X. now left.
      * exact C.
    + assert (Eo : fmt_obj p acc o = acc) by (unfold fmt_obj, o; cbn [om_path]; now rewrite K).
      rewrite Eo. apply str_eqb_neq in K. destruct (IH acc Ha) as [A [B C]]. cbn zeta in *.
      split; [|split; [|exact C]].
      * intros [X|X]; [congruence|auto].
      * intros X. apply B. intros Y. apply X. now right.
Qed.

Lemma snd_write e tc m d : snd (write_segment e tc m d)
  = mkSeg (write_toc_flags e tc (match m with Some _ => true | None => false end) (match d with Some _ => true | None => false end))
      ((match m with Some m => metadata_size m | None => 0 end) + (match d with Some d => wb_size d | None => 0 end))
      (match m with Some m => metadata_size m | None => 0 end) m.
Proof. reflexivity. Qed.

(** ** Sizes *)
Lemma natural_size t : fixed t -> dtype_size (natural t) = size_bytes t /\ width (natural t) = size_bytes t
  /\ 0 < size_bytes t /\ In (natural t) (stored_as t).
Proof. intros [A [B C]]. destruct t; try congruence; cbn; repeat split; try lia; auto. Qed.

Lemma enc_len e t (v : carrier t) : fixed t -> lenN (enc e t v) = size_bytes t.
Proof. intros [A [B C]]. rewrite enc_size. destruct t; try congruence; reflexivity. Qed.

Lemma data_len e t (l : list (carrier t)) : fixed t -> lenN (concat (map (enc e t) l)) = lenN l * size_bytes t.
Proof.
  intros Fx. induction l as [|v l IH]; [reflexivity|].
  cbn [map concat]. rewrite lenN_app, (enc_len e t v Fx), IH, lenN_cons. lia.
Qed.

(** Channels with the same number of values and bytes per value. *)
Definition uniform (n w : N) (ms : list rawmeta) : Prop :=
  Forall (fun m => rm_n m = n /\ dtype_size (rm_type m) = w /\ width (rm_type m) = w) ms.
Lemma chunk_uniform n w ms : uniform n w ms -> chunk_bytes ms = lenN ms * (n * w).
Proof.
  induction 1 as [|m ms [A [B _]] U IH]; [reflexivity|]. cbn [chunk_bytes fold_right].
  fold (chunk_bytes ms). rewrite IH, A, B, lenN_cons. lia.
Qed.
Lemma sub_uniform n w ms : uniform n w ms -> sub_bytes ms = lenN ms * (n * w).
Proof.
  induction 1 as [|m ms [A [_ B]] U IH]; [reflexivity|]. cbn [sub_bytes fold_right].
  fold (sub_bytes ms). rewrite IH, A, B, lenN_cons. lia.
Qed.
Lemma row_uniform n w ms : uniform n w ms -> row_bytes ms = lenN ms * w.
Proof.
  induction 1 as [|m ms [A [_ B]] U IH]; [reflexivity|]. cbn [row_bytes fold_right].
  fold (row_bytes ms). rewrite IH, B, lenN_cons. lia.
Qed.
Lemma stored_size t d : fixed t -> In d (stored_as t) -> dtype_size d = size_bytes t /\ width d = size_bytes t.
Proof. intros [A [B C]] Hd. destruct t; try congruence; cbn in Hd; intuition subst; split; reflexivity. Qed.

Lemma share_vs {A} (vs : list A) (chans : list str) : chans <> [] -> vs <> [] -> lenN vs mod lenN chans = 0 ->
  0 < lenN chans /\ 0 < lenN vs / lenN chans /\ lenN vs = lenN chans * (lenN vs / lenN chans).
Proof.
  intros Ne Nv Dv.
  assert (0 < lenN chans) by (destruct chans; [congruence|rewrite lenN_cons; lia]).
  assert (0 < lenN vs) by (destruct vs; [congruence|rewrite lenN_cons; lia]).
  pose proof (N.div_mod (lenN vs) (lenN chans)) as D. rewrite Dv, N.add_0_r in D.
  assert (lenN vs = lenN chans * (lenN vs / lenN chans)) as L by (apply D; lia).
  repeat split; try assumption.
  destruct (N.eq_0_gt_0_cases (lenN vs / lenN chans)) as [Z|Z]; [rewrite Z in L; lia|exact Z].
Qed.

Section DataWrite.
Context (E : env) (e : endian) (H : list segment) (F : tfile) (t : sty) (chans : list str)
  (vs : list (carrier t)) (lay : layout).
Context (Se : session E H F) (Fx : fixed t)
  (Nd : NoDup chans) (Ne : chans <> []) (Dv : lenN vs mod lenN chans = 0).

Local Notation m := (call_meta t vs chans).

(** The segment of this call. *)
Lemma the_segment : exists omit s bs,
  stream_segment e t (tf_ix F) chans vs lay = Ok (bs, s)
  /\ (omit = true <-> continues (active_after H) chans)
  /\ (bs, s) = write_segment e (call_toc lay omit)
               (if omit then None else Some (call_objs (tf_ix F) m chans)) (Some (slice_block e t vs))
  /\ toc_raw (sg_toc s) = true /\ toc_inter (sg_toc s) = layout_eqb lay Interleaved
  /\ toc_big (sg_toc s) = (match e with BigE => true | LittleE => false end)
  /\ sg_next s = sg_raw s + lenN vs * size_bytes t
  /\ bs = firstn (N.to_nat (28 + sg_raw s)) bs ++ concat (map (enc e t) vs)
  /\ lenN bs = 28 + sg_next s
  /\ seg_objs s = (if omit then [] else call_objs (tf_ix F) m chans)
  /\ active_after (H ++ [s]) = (if omit then active_after H else chans)
  /\ (omit = true -> sg_raw s = 0).
Proof.
  destruct (session_accepted _ _ _ Se) as [Ac Pl].
  destruct (accepted_described _ _ _ Ac) as [_ [_ [_ [Ha _]]]].
  destruct (call_stream e t (tf_ix F) chans vs lay Ne Dv) as [omit [Ho Es]]. rewrite Ha in Ho.
  set (md := if omit then None else Some (call_objs (tf_ix F) m chans)) in *.
  exists omit, (snd (write_segment e (call_toc lay omit) md (Some (slice_block e t vs)))),
         (fst (write_segment e (call_toc lay omit) md (Some (slice_block e t vs)))).
  set (s := snd _). set (bs := fst _).
  assert (Ss : s = mkSeg (write_toc_flags e (call_toc lay omit) (match md with Some _ => true | None => false end) true)
      ((match md with Some m => metadata_size m | None => 0 end) + lenN vs * size_bytes t)
      (match md with Some m => metadata_size m | None => 0 end) md) by reflexivity.
  assert (So : seg_objs s = if omit then [] else call_objs (tf_ix F) m chans)
    by (rewrite Ss; unfold seg_objs, md; cbn [sg_meta]; destruct omit; reflexivity).
  assert (Sl : lenN bs = 28 + sg_next s).
  { unfold bs. rewrite write_segment_len. cbn [slice_block wb_bytes]. rewrite data_len by exact Fx. rewrite Ss. cbn [sg_next]. unfold LEAD_IN.
    destruct md; lia. }
  split; [rewrite Es; f_equal; now rewrite surjective_pairing at 1|].
  split; [exact Ho|]. split; [unfold bs, s; now rewrite <- surjective_pairing|].
  split; [rewrite Ss; cbn [sg_toc]; unfold write_toc_flags; destruct md; reflexivity|].
  split; [rewrite Ss; reflexivity|]. split; [rewrite Ss; reflexivity|].
  split; [rewrite Ss; cbn [sg_next sg_raw]; reflexivity|]. split.
  { assert (exists hd, bs = hd ++ concat (map (enc e t) vs)) as [hd Eb].
    { unfold bs, write_segment. cbn [fst slice_block wb_bytes]. eexists. rewrite !app_assoc. reflexivity. }
    assert (Lh : lenN hd = 28 + sg_raw s).
    { rewrite Eb, lenN_app, data_len in Sl by exact Fx. rewrite Ss in Sl |- *. cbn [sg_next sg_raw] in *. lia. }
    rewrite Eb at 2. rewrite <- Lh. unfold lenN. rewrite Nat2N.id, firstn_app_exact. exact Eb. }
  split; [exact Sl|]. split; [exact So|]. split.
  - rewrite active_after_snoc. unfold act_seg. rewrite So.
    replace (toc_newlist (sg_toc s)) with (negb omit)
      by (rewrite Ss; cbn [sg_toc]; unfold write_toc_flags; destruct md; reflexivity).
    destruct omit; cbn [negb]; [reflexivity|].
    unfold call_objs. apply (fold_act chans _ []); [|exact Nd].
    intros p. destruct (channel_format (tf_ix F) p) as [l|]; [destruct (rawmeta_eqb l m)|]; discriminate.
  - intros ->. rewrite Ss. reflexivity.
Qed.

(** A described call. *)
Context (Nv : vs <> []) (Ds : described_call H t lay (lenN vs / lenN chans) chans).

Lemma the_described omit s : (omit = true <-> continues (active_after H) chans) ->
  seg_objs s = (if omit then [] else call_objs (tf_ix F) m chans) ->
  active_after (H ++ [s]) = (if omit then active_after H else chans) ->
  active_after (H ++ [s]) = chans
  /\ (exists n, chunked lay n (lenN vs / lenN chans) chans
       /\ forall p, In p chans -> exists d, last_format (all_objs (H ++ [s])) p = Some (mkRaw d n None) /\ In d (stored_as t))
  /\ (~ continues (active_after H) chans -> forall p, In p chans -> last_format (all_objs (H ++ [s])) p = Some m)
  /\ (continues (active_after H) chans -> forall p, last_format (all_objs (H ++ [s])) p = last_format (all_objs H) p)
  /\ (forall p, ~ In p chans -> last_format (all_objs (H ++ [s])) p = last_format (all_objs H) p)
  /\ (forall o, In o (seg_objs s) -> In (om_path o) chans /\ om_props o = [])
  /\ (forall p, In p chans -> mentioned (all_objs (H ++ [s])) p).
Proof.
  intros Ho So Act.
  destruct (session_accepted _ _ _ Se) as [Ac Pl].
  destruct (accepted_described _ _ _ Ac) as [_ [_ [_ [_ [Hk [Hf _]]]]]].
  destruct (natural_size t Fx) as [_ [_ [_ Sa]]]. destruct (share_vs vs chans Ne Nv Dv) as [_ [Pk _]].
  assert (D : omit = true -> steady H t lay (lenN vs / lenN chans) chans).
  { intros Om. destruct Ds as [D|D]; [exfalso; apply D; now apply Ho|exact D]. }
  assert (New : omit = false -> forall p, In p chans -> last_format (all_objs (H ++ [s])) p = Some m).
  { intros Om p Hp. rewrite all_objs_snoc. unfold last_format. rewrite fold_left_app, So, Om.
    fold (last_format (all_objs H) p).
    destruct (fold_fmt_call p m (tf_ix F) (last_format (all_objs H) p) (eq_sym (Hf p)) chans _ (or_introl eq_refl)) as [A _].
    now apply A. }
  assert (Old : omit = true -> forall p, last_format (all_objs (H ++ [s])) p = last_format (all_objs H) p).
  { intros Om p. rewrite all_objs_snoc, So, Om. now rewrite app_nil_r. }
  split; [rewrite Act; destruct omit; [apply D; reflexivity|reflexivity]|]. split; [|split; [|split; [|split; [|split]]]].
  - destruct omit.
    + destruct (D eq_refl) as [_ [n [Ck Fm]]]. exists n. split; [exact Ck|]. intros p Hp.
      rewrite Old by reflexivity. rewrite Forall_forall in Fm. now apply Fm.
    + exists (lenN vs / lenN chans). split.
      * split; [exact Pk|]. split; [apply N.mod_same; lia|auto].
      * intros p Hp. exists (natural t). split; [now apply New|exact Sa].
  - intros Nc. apply New. destruct omit; [exfalso; apply Nc; now apply Ho|reflexivity].
  - intros Cc. apply Old. now apply Ho.
  - intros p Hp. destruct omit; [now apply Old|]. rewrite all_objs_snoc. unfold last_format. rewrite fold_left_app, So.
    fold (last_format (all_objs H) p).
    destruct (fold_fmt_call p m (tf_ix F) (last_format (all_objs H) p) (eq_sym (Hf p)) chans _ (or_introl eq_refl)) as [_ [A _]].
    now apply A.
  - intros o Hin. rewrite So in Hin. destruct omit; [destruct Hin|]. unfold call_objs in Hin.
    apply in_map_iff in Hin. destruct Hin as [p [<- Hp]]. auto.
  - intros p Hp. unfold mentioned. rewrite all_objs_snoc, map_app. apply in_or_app. rewrite So.
    destruct omit.
    + left. destruct (D eq_refl) as [_ [n [_ Fm]]]. rewrite Forall_forall in Fm. destruct (Fm p Hp) as [d [Ld _]].
      destruct (in_dec (list_eq_dec Byte.byte_eq_dec) p (map om_path (all_objs H))) as [|X]; [assumption|].
      exfalso. assert (Z : ~ known (tf_ix F) p) by (rewrite Hk; exact X).
      specialize (Hf p). rewrite Ld in Hf. unfold known, channel_format in *.
      destruct (map_get p (ix_objs (tf_ix F))); [apply Z|]; congruence.
    + right. unfold call_objs. rewrite map_map. cbn [om_path]. now rewrite map_id.
Qed.
End DataWrite.
