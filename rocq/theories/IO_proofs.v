(** * Lemmas about the buffered writer. *)
From Verif Require Import Base Maps DataTypes MetaData DataBlock Index RawData ChannelReader TdmsFile
  WriterIO Lib SpecWrite SpecIO.

Section Dev.
Context (D : device).

Lemma dev_push_spec : forall fuel d bs d' rest,
  (length bs <= fuel)%nat -> dev_push D fuel d bs = (d', rest) ->
  dv_bytes d' ++ rest = dv_bytes d ++ bs /\ lenN rest <= lenN bs.
Proof.
  induction fuel as [|fuel IH]; intros d bs d' rest L H.
  - destruct bs; [|cbn in L; lia]. cbn in H. injection H as <- <-. split; [reflexivity|lia].
  - destruct bs as [|b bs]; [cbn in H; injection H as <- <-; split; [reflexivity|lia]|].
    cbn [dev_push] in H. unfold dev_write in H.
    destruct (dv_takes D (dv_calls d) (lenN (b :: bs))) as [k|] eqn:Et.
    + cbv zeta in H.
      destruct (N.min k (lenN (b :: bs)) =? 0) eqn:E0.
      * apply N.eqb_eq in E0. rewrite E0 in H. cbn in H. injection H as <- <-. cbn [dv_bytes].
        rewrite app_nil_r. split; [reflexivity|lia].
      * apply IH in H.
        -- cbn [dv_bytes] in H. destruct H as [H1 H2]. rewrite H1. rewrite <- app_assoc, firstn_skipn.
           split; [reflexivity|].
           unfold lenN in *. rewrite skipn_length in H2. lia.
        -- rewrite skipn_length. cbn [length] in *.
           assert (0 < N.min k (lenN (b :: bs))) by lia. lia.
    + injection H as <- <-. cbn [dv_bytes]. split; [reflexivity|lia].
Qed.

Lemma dev_push_reliable : forall fuel d bs d' rest, reliable D ->
  (length bs <= fuel)%nat -> dev_push D fuel d bs = (d', rest) -> rest = [].
Proof.
  induction fuel as [|fuel IH]; intros d bs d' rest R L H.
  - destruct bs; [|cbn in L; lia]. cbn in H. injection H as <- <-. reflexivity.
  - destruct bs as [|b bs]; [cbn in H; injection H as <- <-; reflexivity|].
    cbn [dev_push] in H. unfold dev_write in H.
    destruct (proj1 R (dv_calls d) (lenN (b :: bs))) as (k & Et & K).
    { unfold lenN; cbn [length]; lia. }
    rewrite Et in H. cbv zeta in H.
    assert (M : 0 < N.min k (lenN (b :: bs))) by (unfold lenN in *; cbn [length] in *; lia).
    destruct (N.min k (lenN (b :: bs)) =? 0) eqn:E0; [lia|].
    apply IH in H; [exact H|exact R|]. rewrite skipn_length. cbn [length] in *. lia.
Qed.

Lemma dev_push_grows : forall fuel d bs d' rest,
  dev_push D fuel d bs = (d', rest) -> prefix (dv_bytes d) (dv_bytes d').
Proof.
  induction fuel as [|fuel IH]; intros d bs d' rest H.
  - destruct bs; cbn in H; injection H as <- <-; exists []; symmetry; apply app_nil_r.
  - destruct bs as [|b bs]; [cbn in H; injection H as <- <-; exists []; symmetry; apply app_nil_r|].
    cbn [dev_push] in H. unfold dev_write in H.
    destruct (dv_takes D (dv_calls d) (lenN (b :: bs))) as [k|].
    + cbv zeta in H. destruct (N.min k (lenN (b :: bs)) =? 0).
      * injection H as <- <-. cbn [dv_bytes]. eexists. reflexivity.
      * apply IH in H. destruct H as [p P]. cbn [dv_bytes] in P. rewrite P.
        eexists. rewrite <- app_assoc. reflexivity.
    + injection H as <- <-. exists []. symmetry. apply app_nil_r.
Qed.

Context (cap : N).

(** Everything handed to a buffered writer. *)
Definition content (w : bufw) : list byte := dv_bytes (bw_dev w) ++ bw_buf w.

Lemma flush_buf_spec : forall w w' ok, bw_flush_buf D w = (w', ok) ->
  content w' = content w /\ lenN (bw_buf w') <= lenN (bw_buf w)
  /\ (ok = true -> bw_buf w' = []) /\ (reliable D -> ok = true).
Proof.
  intros w w' ok H. unfold bw_flush_buf in H.
  destruct (dev_push D (length (bw_buf w)) (bw_dev w) (bw_buf w)) as [d rest] eqn:Ep.
  pose proof (dev_push_spec _ _ _ _ _ (le_n _) Ep) as [P1 P2].
  pose proof (fun R => dev_push_reliable _ _ _ _ _ R (le_n _) Ep) as P3.
  injection H as <- <-. unfold content. cbn [bw_dev bw_buf].
  split; [exact P1|]. split; [exact P2|]. split.
  - destruct rest; [reflexivity|discriminate].
  - intro R. rewrite (P3 R). reflexivity.
Qed.

Lemma write_all_spec : forall w bs w' ok, lenN (bw_buf w) <= cap ->
  bw_write_all D cap w bs = (w', ok) ->
  lenN (bw_buf w') <= cap
  /\ (ok = true -> content w' = content w ++ bs)
  /\ (exists p, content w' = content w ++ p /\ prefix p bs)
  /\ (reliable D -> ok = true).
Proof.
  intros w bs w' ok L H. unfold bw_write_all in H. cbv zeta in H.
  destruct (lenN bs <? cap - lenN (bw_buf w)) eqn:E1.
  - injection H as <- <-. unfold content. cbn [bw_dev bw_buf].
    repeat split; intros.
    + unfold lenN in *. rewrite app_length. lia.
    + apply app_assoc.
    + exists bs. split; [rewrite app_assoc; reflexivity|exists []; symmetry; apply app_nil_r].
  - destruct (if cap - lenN (bw_buf w) <? lenN bs then bw_flush_buf D w else (w, true))
      as [w1 ok1] eqn:Ef.
    assert (S1 : content w1 = content w /\ lenN (bw_buf w1) <= lenN (bw_buf w)
                 /\ (reliable D -> ok1 = true)
                 /\ (ok1 = true -> bw_buf w1 = [] \/ lenN bs = cap - lenN (bw_buf w1))).
    { destruct (cap - lenN (bw_buf w) <? lenN bs) eqn:E2.
      - apply flush_buf_spec in Ef. destruct Ef as (F1 & F2 & F3 & F4).
        split; [exact F1|]. split; [exact F2|]. split; [exact F4|]. intro O. left. exact (F3 O).
      - injection Ef as <- <-. split; [reflexivity|]. split; [lia|]. split; [reflexivity|].
        intros _. right. lia. }
    destruct S1 as (S1 & S2 & S3 & S4).
    destruct ok1.
    + destruct (cap <=? lenN bs) eqn:E3.
      * assert (B0 : bw_buf w1 = []).
        { destruct (S4 eq_refl) as [B|B]; [exact B|].
          destruct (bw_buf w1); [reflexivity|]. unfold lenN in *; cbn [length] in *; lia. }
        destruct (dev_push D (length bs) (bw_dev w1) bs) as [d rest] eqn:Ep.
        pose proof (dev_push_spec _ _ _ _ _ (le_n _) Ep) as [P1 P2].
        pose proof (fun R => dev_push_reliable _ _ _ _ _ R (le_n _) Ep) as P3.
        injection H as <- <-. unfold content in *. cbn [bw_dev bw_buf].
        rewrite B0 in *. rewrite app_nil_r in *. rewrite S1 in P1.
        repeat split.
        -- cbn. unfold lenN. cbn. lia.
        -- destruct rest; [|discriminate]. intros _. rewrite app_nil_r in P1. exact P1.
        -- (* the bytes taken are a prefix of what was offered *)
           pose proof (dev_push_grows _ _ _ _ _ Ep) as Pre.
           destruct Pre as [p P]. exists p. rewrite P, <- S1. split; [reflexivity|].
           exists rest. rewrite P, <- S1, <- app_assoc in P1. apply app_inv_head in P1. symmetry. exact P1.
        -- intro R. rewrite (P3 R). reflexivity.
      * injection H as <- <-. unfold content in *. cbn [bw_dev bw_buf]. rewrite app_assoc, S1.
        repeat split.
        -- destruct (S4 eq_refl) as [B|B].
           ++ rewrite B. cbn [app]. lia.
           ++ unfold lenN in *. rewrite app_length. lia.
        -- exists bs. split; [reflexivity|exists []; symmetry; apply app_nil_r].
    + injection H as <- <-. repeat split.
      * lia.
      * discriminate.
      * exists []. rewrite app_nil_r. split; [exact S1|exists bs; reflexivity].
      * exact S3.
Qed.

Lemma prefix_app : forall A (a b c : list A), prefix a b -> prefix a (b ++ c).
Proof. intros A a b c [x ->]. exists (x ++ c). symmetry. apply app_assoc. Qed.

Lemma emit_spec : forall chunks w w' ok, lenN (bw_buf w) <= cap ->
  bw_emit D cap w chunks = (w', ok) ->
  lenN (bw_buf w') <= cap
  /\ (ok = true -> content w' = content w ++ concat chunks)
  /\ (exists p, content w' = content w ++ p /\ prefix p (concat chunks))
  /\ (reliable D -> ok = true).
Proof.
  induction chunks as [|c r IH]; intros w w' ok L H.
  - cbn in H. injection H as <- <-. cbn [concat]. repeat split.
    + exact L.
    + intros _. symmetry. apply app_nil_r.
    + exists []. split; [symmetry; apply app_nil_r|exists []; reflexivity].
  - cbn [bw_emit] in H. destruct (bw_write_all D cap w c) as [w1 ok1] eqn:Ew.
    apply write_all_spec in Ew; [|exact L]. destruct Ew as (L1 & C1 & P1 & R1).
    destruct ok1.
    + apply IH in H; [|exact L1]. destruct H as (L2 & C2 & (p & P2 & Q2) & R2).
      specialize (C1 eq_refl). cbn [concat]. repeat split.
      * exact L2.
      * intro O. rewrite (C2 O), C1, app_assoc. reflexivity.
      * exists (c ++ p). rewrite P2, C1, <- app_assoc. split; [reflexivity|].
        destruct Q2 as [x ->]. exists x. apply app_assoc.
      * exact R2.
    + injection H as <- <-. cbn [concat]. repeat split.
      * exact L1.
      * discriminate.
      * destruct P1 as (p & P1 & Q1). exists p. split; [exact P1|]. apply prefix_app, Q1.
      * exact R1.
Qed.

Lemma sync_spec : forall w w' ok, bw_sync D w = (w', ok) ->
  content w' = content w /\ lenN (bw_buf w') <= lenN (bw_buf w)
  /\ (ok = true -> bw_buf w' = []) /\ (reliable D -> ok = true).
Proof.
  intros w w' ok H. unfold bw_sync in H.
  destruct (bw_flush_buf D w) as [w1 ok1] eqn:Ef. apply flush_buf_spec in Ef.
  destruct Ef as (F1 & F2 & F3 & F4).
  destruct ok1; injection H as <- <-.
  - split; [exact F1|]. split; [exact F2|]. split; [intros _; exact (F3 eq_refl)|].
    intro R. apply (proj2 R).
  - split; [exact F1|]. split; [exact F2|]. split; [discriminate|]. exact F4.
Qed.

Lemma drop_spec : forall w,
  prefix (dv_bytes (bw_dev w)) (dv_bytes (bw_drop D w))
  /\ prefix (dv_bytes (bw_drop D w)) (content w)
  /\ (reliable D -> dv_bytes (bw_drop D w) = content w)
  /\ (bw_buf w = [] -> bw_drop D w = bw_dev w).
Proof.
  intro w. unfold bw_drop. destruct (bw_flush_buf D w) as [w1 ok1] eqn:Ef.
  pose proof Ef as Ef'. apply flush_buf_spec in Ef. destruct Ef as (F1 & F2 & F3 & F4). cbn [fst].
  split; [|split; [|split]].
  - clear F1 F2 F3 F4. unfold bw_flush_buf in Ef'.
    destruct (dev_push D (length (bw_buf w)) (bw_dev w) (bw_buf w)) as [d rest] eqn:Ep.
    injection Ef' as <- <-. cbn [bw_dev]. exact (dev_push_grows _ _ _ _ _ Ep).
  - exists (bw_buf w1). symmetry. exact F1.
  - intro R. unfold content in F1 at 1. rewrite (F3 (F4 R)), app_nil_r in F1. exact F1.
  - intro B. unfold bw_flush_buf in Ef'. rewrite B in Ef'. cbn in Ef'. injection Ef' as <- <-. reflexivity.
Qed.
End Dev.

(** ** The pieces are the bytes *)

Lemma enc_chunks_concat : forall e t v, concat (enc_chunks e t v) = enc e t v.
Proof.
  intros e [] v; cbn [enc_chunks concat]; rewrite ?app_nil_r; reflexivity.
Qed.

Lemma pval_chunks_concat : forall e p, concat (pval_chunks e p) = pval_bytes e p.
Proof. intros e []; cbn [pval_chunks pval_bytes]; try apply enc_chunks_concat; reflexivity. Qed.

Lemma concat_concat_map : forall A B (f : A -> list (list B)) (g : A -> list B) l,
  (forall x, concat (f x) = g x) -> concat (concat (map f l)) = concat (map g l).
Proof.
  intros A B f g l H. induction l as [|x l IH]; [reflexivity|].
  cbn [map concat]. rewrite concat_app, IH, H. reflexivity.
Qed.

Lemma prop_chunks_concat : forall e p, concat (prop_chunks e p) = write_prop e p.
Proof.
  intros e p. unfold prop_chunks, write_prop, write_pval.
  rewrite concat_app, enc_chunks_concat. cbn [app concat]. rewrite pval_chunks_concat. reflexivity.
Qed.

Lemma obj_chunks_concat : forall e o, concat (obj_chunks e o) = write_obj e o.
Proof.
  intros e o. unfold obj_chunks, write_obj. rewrite !concat_app, enc_chunks_concat.
  rewrite (concat_concat_map _ _ _ _ _ (prop_chunks_concat e)).
  replace (concat (rawidx_chunks e (om_idx o))) with (write_rawidx e (om_idx o)).
  2:{ destruct (om_idx o); cbn [rawidx_chunks write_rawidx concat]; rewrite ?app_nil_r; reflexivity. }
  cbn [concat]. rewrite app_nil_r. reflexivity.
Qed.

Lemma metadata_chunks_concat : forall e m, concat (metadata_chunks e m) = write_metadata e m.
Proof.
  intros e m. unfold metadata_chunks, write_metadata. rewrite concat_app.
  rewrite (concat_concat_map _ _ _ _ _ (obj_chunks_concat e)). cbn [concat]. rewrite app_nil_r. reflexivity.
Qed.

Lemma singles_concat : forall (l : list byte), concat (map (fun b => [b]) l) = l.
Proof. induction l as [|b l IH]; [reflexivity|]. cbn [map concat app]. rewrite IH. reflexivity. Qed.

Lemma segment_chunks_concat : forall e t m d data,
  concat data = match d with Some d => wb_bytes d | None => [] end ->
  concat (segment_chunks e (snd (write_segment e t m d)) data) = fst (write_segment e t m d).
Proof.
  intros e t m d data H. unfold segment_chunks, write_segment. cbv zeta.
  cbn [snd fst sg_toc sg_next sg_raw sg_meta].
  rewrite !concat_app, !singles_concat, H.
  replace (concat (match m with Some m => metadata_chunks e m | None => [] end))
    with (match m with Some m => write_metadata e m | None => [] end)
    by (destruct m; [symmetry; apply metadata_chunks_concat|reflexivity]).
  cbn [concat]. rewrite app_nil_r, !app_assoc. reflexivity.
Qed.

(** ** Operations on the writer against the model that appends at once *)
Section Ops.
Context (E : env) (D : device) (cap : N).

Lemma emit_segment_spec : forall s F chunks sg bs s' x,
  writes_to cap s F -> concat chunks = bs ->
  emit_segment E D cap s chunks sg = (s', x) ->
  lenN (bw_buf (ws_w s')) <= cap
  /\ (exists p, handed s' = tf_bytes F ++ p /\ prefix p bs)
  /\ (~ device_error x \/ reliable D ->
      ws_ix s' = fst (add_segment E (tf_ix F) sg) /\ handed s' = tf_bytes F ++ bs
      /\ x = (_n <- snd (add_segment E (tf_ix F) sg) ;; Ok tt))
  /\ (ws_ix s' = tf_ix F \/ ws_ix s' = fst (add_segment E (tf_ix F) sg)).
Proof.
  intros s F chunks sg bs s' x (W1 & W2 & W3) C H. unfold emit_segment in H.
  destruct (bw_emit D cap (ws_w s) chunks) as [w ok] eqn:Ee.
  apply emit_spec in Ee; [|exact W3]. destruct Ee as (L & C1 & P & R).
  unfold handed in *. fold (content (ws_w s)) in W2. rewrite W2, C in *.
  destruct ok.
  - rewrite W1 in H. destruct (add_segment E (tf_ix F) sg) as [ix r]. injection H as <- <-.
    cbn [ws_w ws_ix fst snd]. split; [exact L|]. split; [exact P|]. split.
    + intros _. split; [reflexivity|]. split; [exact (C1 eq_refl)|reflexivity].
    + right. reflexivity.
  - injection H as <- <-. cbn [ws_w ws_ix]. split; [exact L|]. split; [exact P|]. split.
    + intros [O|O]; [exfalso; apply O; reflexivity|]. discriminate (R O).
    + left. exact W1.
Qed.

Lemma call_spec : forall s F c s' x,
  writes_to cap s F -> do_op E D cap s (IoCall c) = (s', x) ->
  lenN (bw_buf (ws_w s')) <= cap
  /\ prefix (tf_bytes F) (handed s') /\ prefix (handed s') (tf_bytes (fst (do_call E F c)))
  /\ (~ device_error x \/ reliable D ->
      writes_to cap s' (fst (do_call E F c)) /\ x = snd (do_call E F c)).
Proof.
  intros s F c s' x W H. pose proof W as (W1 & W2 & W3).
  destruct c as [e path kvs|e t chans vs lay]; cbn [do_op do_call] in *.
  - unfold write_properties_io in H. unfold write_properties_e.
    pose proof (segment_chunks_concat e toc_default (Some [mkObj path kvs RINone]) None [] eq_refl) as C.
    destruct (write_segment e toc_default (Some [mkObj path kvs RINone]) None) as [bs sg].
    cbn [fst snd] in C, H.
    apply (emit_segment_spec _ F _ _ bs) in H; [|exact W|exact C].
    destruct H as (L & (p & P & Q) & O & _).
    destruct (add_segment E (tf_ix F) sg) as [ix r]. cbn [fst snd tf_bytes] in *.
    split; [exact L|]. rewrite P. split; [exists p; reflexivity|]. split.
    + destruct Q as [q ->]. exists q. rewrite app_assoc. reflexivity.
    + intro X. destruct (O X) as (O1 & O2 & O3). split; [|exact O3].
      split; [exact O1|]. split; [exact O2|exact L].
  - unfold write_channels_io in H. unfold write_channels_e. rewrite W1 in H.
    destruct (stream_segment e t (tf_ix F) chans vs lay) as [[bs sg]|er|pa|] eqn:Es.
    + assert (C : concat (segment_chunks e sg (concat (map (enc_chunks e t) vs))) = bs).
      { unfold stream_segment in Es. destruct chans as [|c0 cs]; [discriminate|].
        cbv zeta in Es.
        destruct (negb (lenN vs mod lenN (c0 :: cs) =? 0)); [discriminate|].
        destruct (check_write_values (tf_ix F) _) as [matches idxs].
        apply (f_equal (fun r => match r with Ok y => y | _ => (bs, sg) end)) in Es.
        cbv beta iota in Es.
        match type of Es with write_segment _ ?tc ?m ?d = _ =>
          pose proof (segment_chunks_concat e tc m d (concat (map (enc_chunks e t) vs))) as C end.
        rewrite Es in C. cbn [fst snd] in C. apply C.
        apply concat_concat_map. apply enc_chunks_concat. }
      apply (emit_segment_spec _ F _ _ bs) in H; [|exact W|exact C].
      destruct H as (L & (p & P & Q) & O & _).
      destruct (add_segment E (tf_ix F) sg) as [ix r]. cbn [fst snd tf_bytes] in *.
      split; [exact L|]. rewrite P. split; [exists p; reflexivity|]. split.
      * destruct Q as [q ->]. exists q. rewrite app_assoc. reflexivity.
      * intro X. destruct (O X) as (O1 & O2 & O3). split; [|exact O3].
        split; [exact O1|]. split; [exact O2|exact L].
    + injection H as <- <-. cbn [recast fst snd]. rewrite W2. split; [exact W3|].
      split; [exists []; symmetry; apply app_nil_r|].
      split; [exists []; symmetry; apply app_nil_r|]. intros _. split; [exact W|reflexivity].
    + injection H as <- <-. cbn [recast fst snd]. rewrite W2. split; [exact W3|].
      split; [exists []; symmetry; apply app_nil_r|].
      split; [exists []; symmetry; apply app_nil_r|]. intros _. split; [exact W|reflexivity].
    + injection H as <- <-. cbn [recast fst snd]. rewrite W2. split; [exact W3|].
      split; [exists []; symmetry; apply app_nil_r|].
      split; [exists []; symmetry; apply app_nil_r|]. intros _. split; [exact W|reflexivity].
Qed.

Lemma sync_op_spec : forall s F s' x,
  writes_to cap s F -> sync_io D s = (s', x) ->
  writes_to cap s' F /\ (x = Ok tt -> bw_buf (ws_w s') = [])
  /\ (x = Ok tt \/ device_error x) /\ (reliable D -> x = Ok tt).
Proof.
  intros s F s' x (W1 & W2 & W3) H. unfold sync_io in H.
  destruct (bw_sync D (ws_w s)) as [w ok] eqn:Es. apply sync_spec in Es.
  destruct Es as (S1 & S2 & S3 & S4). injection H as <- <-.
  unfold writes_to, handed in *. cbn [ws_w ws_ix]. fold (content w). rewrite S1.
  split; [split; [exact W1|split; [exact W2|lia]]|].
  split; [destruct ok; [intros _; exact (S3 eq_refl)|discriminate]|].
  split; [destruct ok; [left; reflexivity|right; reflexivity]|].
  intro R. rewrite (S4 R). reflexivity.
Qed.

(** The operations do what the calls do when bytes are appended at once. *)
Lemma ops_spec : forall ops s F b s' xs F' ys,
  writes_to cap s F -> (b = true -> bw_buf (ws_w s) = []) ->
  clean b ops xs \/ reliable D ->
  run_ops E D cap s ops = (s', xs) -> run_calls E F (calls_of ops) = (F', ys) ->
  writes_to cap s' F' /\ call_results ops xs = ys
  /\ (reliable D -> forall i, nth_error ops i = Some IoSync -> nth_error xs i = Some (Ok tt)).
Proof.
  induction ops as [|o ops IH]; intros s F b s' xs F' ys W B X H C.
  - cbn in H, C. injection H as <- <-. injection C as <- <-.
    split; [exact W|]. split; [reflexivity|]. intros _ [|i]; discriminate.
  - cbn [run_ops] in H. destruct (do_op E D cap s o) as [s1 x] eqn:Eo.
    destruct (run_ops E D cap s1 ops) as [s2 xs'] eqn:Er. injection H as <- <-.
    destruct o as [c| |].
    + cbn [calls_of run_calls] in C. destruct (do_call E F c) as [F1 y] eqn:Ec.
      destruct (run_calls E F1 (calls_of ops)) as [F2 ys'] eqn:Ecs. injection C as <- <-.
      apply (call_spec s F c s1 x) in Eo; [|exact W]. destruct Eo as (_ & _ & _ & O).
      assert (X0 : ~ device_error x \/ reliable D) by (destruct X as [[X _]|X]; [left|right]; exact X).
      specialize (O X0). rewrite Ec in O. cbn [fst snd] in O. destruct O as [W1 ->].
      destruct (IH s1 F1 false s2 xs' F2 ys' W1) as (I1 & I2 & I3); try assumption.
      { discriminate. }
      { destruct X as [[_ X]|X]; [left|right]; exact X. }
      split; [exact I1|]. cbn [call_results]. rewrite I2. split; [reflexivity|].
      intros R [|i]; [discriminate|]. exact (I3 R i).
    + cbn [calls_of] in C. cbn [do_op] in Eo.
      apply (sync_op_spec s F s1 x) in Eo; [|exact W]. destruct Eo as (W1 & S2 & S3 & S4).
      destruct (IH s1 F (is_ok x) s2 xs' F' ys W1) as (I1 & I2 & I3); try assumption.
      { destruct S3 as [->| ->]; [intros _; exact (S2 eq_refl)|discriminate]. }
      split; [exact I1|]. split; [exact I2|]. intros R [|i] Hi; [|exact (I3 R i Hi)].
      cbn [nth_error]. now rewrite (S4 R).
    + cbn [calls_of] in C. cbn [do_op] in Eo. injection Eo as <- <-.
      assert (W1 : writes_to cap (new_writer_io D s) F).
      { destruct W as (W1 & W2 & W3). unfold writes_to, new_writer_io, handed in *.
        cbn [ws_ix ws_w bw_dev bw_buf]. split; [exact W1|]. split; [|unfold lenN; cbn; lia].
        rewrite app_nil_r. pose proof (drop_spec D (ws_w s)) as (_ & _ & D3 & D4).
        destruct X as [[Y _]|Y].
        - rewrite (D4 (B Y)). rewrite (B Y), app_nil_r in W2. exact W2.
        - rewrite (D3 Y). exact W2. }
      destruct (IH (new_writer_io D s) F true s2 xs' F' ys W1) as (I1 & I2 & I3); try assumption.
      { reflexivity. }
      { destruct X as [[_ X]|X]; [left|right]; exact X. }
      split; [exact I1|]. split; [exact I2|]. intros R [|i]; [discriminate|]. exact (I3 R i).
Qed.

(** Bytes on the device stay there, whatever fails. *)
Lemma write_all_grows : forall w bs w' ok, bw_write_all D cap w bs = (w', ok) ->
  prefix (dv_bytes (bw_dev w)) (dv_bytes (bw_dev w')).
Proof.
  intros w bs w' ok H. unfold bw_write_all in H. cbv zeta in H.
  destruct (lenN bs <? cap - lenN (bw_buf w)).
  { injection H as <- <-. exists []. symmetry. apply app_nil_r. }
  destruct (if cap - lenN (bw_buf w) <? lenN bs then bw_flush_buf D w else (w, true)) as [w1 ok1] eqn:Ef.
  assert (P : prefix (dv_bytes (bw_dev w)) (dv_bytes (bw_dev w1))).
  { destruct (cap - lenN (bw_buf w) <? lenN bs).
    - pose proof (drop_spec D w) as [P _]. unfold bw_drop in P. rewrite Ef in P. exact P.
    - injection Ef as <- <-. exists []. symmetry. apply app_nil_r. }
  destruct ok1; [|injection H as <- <-; exact P].
  destruct (cap <=? lenN bs); [|injection H as <- <-; exact P].
  destruct (dev_push D (length bs) (bw_dev w1) bs) as [d rest] eqn:Ep.
  apply dev_push_grows in Ep. injection H as <- <-. cbn [bw_dev].
  destruct P as [p P], Ep as [q Q]. exists (p ++ q). rewrite Q, P, app_assoc. reflexivity.
Qed.

Lemma prefix_trans : forall A (a b c : list A), prefix a b -> prefix b c -> prefix a c.
Proof. intros A a b c [x ->] [y ->]. exists (x ++ y). symmetry. apply app_assoc. Qed.

Lemma prefix_refl : forall A (a : list A), prefix a a.
Proof. intros A a. exists []. symmetry. apply app_nil_r. Qed.

Lemma emit_grows : forall chunks w w' ok, bw_emit D cap w chunks = (w', ok) ->
  prefix (dv_bytes (bw_dev w)) (dv_bytes (bw_dev w')).
Proof.
  induction chunks as [|c r IH]; intros w w' ok H; cbn [bw_emit] in H.
  - injection H as <- <-. apply prefix_refl.
  - destruct (bw_write_all D cap w c) as [w1 [|]] eqn:Ew; apply write_all_grows in Ew.
    + apply IH in H. eapply prefix_trans; eassumption.
    + injection H as <- <-. exact Ew.
Qed.

Lemma emit_segment_grows : forall s chunks sg s' x, emit_segment E D cap s chunks sg = (s', x) ->
  prefix (on_device s) (on_device s').
Proof.
  intros s chunks sg s' x H. unfold emit_segment in H.
  destruct (bw_emit D cap (ws_w s) chunks) as [w [|]] eqn:Ee; apply emit_grows in Ee.
  - destruct (add_segment E (ws_ix s) sg). injection H as <- <-. exact Ee.
  - injection H as <- <-. exact Ee.
Qed.

Lemma op_grows : forall o s s' x, do_op E D cap s o = (s', x) -> prefix (on_device s) (on_device s').
Proof.
  intros [[e path kvs|e t chans vs lay]| |] s s' x H; cbn [do_op] in H.
  - exact (emit_segment_grows _ _ _ _ _ H).
  - unfold write_channels_io in H.
    destruct (stream_segment e t (ws_ix s) chans vs lay) as [[bs sg]|er|pa|];
      [exact (emit_segment_grows _ _ _ _ _ H)| | |]; injection H as <- <-; apply prefix_refl.
  - unfold sync_io, bw_sync in H. pose proof (drop_spec D (ws_w s)) as [P _]. unfold bw_drop in P.
    destruct (bw_flush_buf D (ws_w s)) as [w1 [|]]; injection H as <- <-; exact P.
  - injection H as <- <-. exact (proj1 (drop_spec D (ws_w s))).
Qed.

Lemma ops_grow : forall ops s s' xs, run_ops E D cap s ops = (s', xs) -> prefix (on_device s) (on_device s').
Proof.
  induction ops as [|o ops IH]; intros s s' xs H; cbn [run_ops] in H.
  - injection H as <- <-. apply prefix_refl.
  - destruct (do_op E D cap s o) as [s1 x] eqn:Eo. destruct (run_ops E D cap s1 ops) as [s2 xs'] eqn:Er.
    injection H as <- <-. apply op_grows in Eo. apply IH in Er. eapply prefix_trans; eassumption.
Qed.

Lemma run_ops_app : forall a b s, run_ops E D cap s (a ++ b) =
  let '(s1, xs) := run_ops E D cap s a in
  let '(s2, ys) := run_ops E D cap s1 b in (s2, xs ++ ys).
Proof.
  induction a as [|o a IH]; intros b s.
  - cbn [app run_ops]. destruct (run_ops E D cap s b). reflexivity.
  - cbn [app run_ops]. destruct (do_op E D cap s o) as [s1 x]. rewrite IH.
    destruct (run_ops E D cap s1 a) as [s2 xs]. destruct (run_ops E D cap s2 b) as [s3 ys]. reflexivity.
Qed.

Lemma calls_of_app : forall a b, calls_of (a ++ b) = calls_of a ++ calls_of b.
Proof. induction a as [|[] a IH]; intro b; cbn [app calls_of]; rewrite ?IH; reflexivity. Qed.
End Ops.

(** ** The model without a device never reports a device error *)
Definition no_io {A} (r : res A) : Prop := forall k, r <> Err (EIo k).
Ltac nio := repeat (first [ progress cbn [fst snd bind recast] in * | intros k; discriminate
  | assumption | match goal with
  | |- no_io (snd (match ?x with _ => _ end)) => destruct x eqn:?
  | |- no_io (match ?x with _ => _ end) => destruct x eqn:? end ]).
Lemma nio_recast A B (r : res A) : no_io r -> no_io (recast r : res B).
Proof. intros H k. destruct r; cbn; try discriminate. specialize (H k). congruence. Qed.
Lemma nio_bind A B (r : res A) (f : A -> res B) : no_io r -> (forall a, no_io (f a)) -> no_io (bind r f).
Proof. intros H G k. destruct r; cbn; try discriminate; [apply G|]. specialize (H k). congruence. Qed.
Lemma nio_od od o : no_io (snd (od_update od o)).
Proof. unfold od_update. nio. Qed.
Lemma nio_meta ix o : no_io (snd (update_meta_object ix o)).
Proof.
  unfold update_meta_object, od_from. destruct (map_get _ _).
  - pose proof (nio_od o0 o). destruct (od_update o0 o). exact H.
  - pose proof (nio_od (mkOD (om_path o) [] [] None) o). destruct (od_update _ o) as [od r]. cbn [snd] in H.
    destruct r; cbn [bind]; nio.
Qed.
Lemma nio_act ix o : no_io (snd (update_or_activate ix o)).
Proof.
  unfold update_or_activate. destruct (is_active _ _).
  - cbv zeta. destruct (map_get _ _); [|intros k; discriminate]. pose proof (nio_od o0 o). destruct (od_update o0 o). exact H.
  - pose proof (nio_meta ix o). destruct (update_meta_object ix o) as [ix1 [| | |]]; try exact H. nio.
Qed.
Lemma nio_objs objs : forall ix, no_io (snd (add_objects ix objs)).
Proof.
  induction objs as [|o r IH]; intros ix; cbn [add_objects]; [intros k; discriminate|].
  assert (Q : no_io (snd (match om_idx o with RINone => update_meta_object ix o | _ => update_or_activate ix o end)))
    by (destruct (om_idx o); apply nio_meta || apply nio_act).
  destruct (match om_idx o with RINone => _ | _ => _ end) as [ix1 [| | |]]; [apply IH|exact Q..].
Qed.
Lemma nio_locs l : forall objs bl ch i, no_io (snd (insert_locs objs bl ch i l)).
Proof. induction l as [|x l IH]; intros; cbn [insert_locs]; nio. apply IH. Qed.
Lemma nio_metas objs l : no_io (active_metas objs l).
Proof. induction l as [|x l IH]; cbn [active_metas]; nio. apply nio_bind; [exact IH|intros; intros k; discriminate]. Qed.
Lemma nio_cc a b : no_io (chunk_combine a b).
Proof. unfold chunk_combine. nio. Qed.
Lemma nio_csf l : forall c, no_io (chunk_size_from c l).
Proof.
  induction l as [|x l IH]; intros c; cbn [chunk_size_from]; [intros k; discriminate|].
  apply nio_bind; [|exact IH]. nio; apply nio_cc.
Qed.
Lemma nio_chunks b : no_io (number_of_chunks b).
Proof. unfold number_of_chunks, chunk_size. apply nio_bind; [apply nio_csf|intros; intros k; discriminate]. Qed.
Lemma nio_uadd E x y : no_io (uadd E x y).
Proof. unfold uadd. nio. Qed.
Lemma nio_from E s st ms : no_io (from_segment E s st ms).
Proof.
  unfold from_segment. nio. apply nio_bind; [apply nio_uadd|intros ?]. apply nio_bind; [apply nio_uadd|intros ? k; discriminate].
Qed.
Lemma nio_insert ix b : no_io (snd (insert_data_block ix b)).
Proof.
  unfold insert_data_block. pose proof (nio_chunks b) as Q. destruct (number_of_chunks b) as [n| | |]; try (intros k; discriminate).
  - pose proof (nio_locs (ix_active ix) (ix_objs ix) (length (ix_blocks ix)) n 0) as Q2.
    destruct (insert_locs _ _ _ _ _). exact Q2.
  - exact (nio_recast _ _ _ Q).
Qed.
Lemma nio_raw E ix s : no_io (snd (add_raw E ix s)).
Proof.
  unfold add_raw. pose proof (nio_metas (ix_objs ix) (ix_active ix)) as Q. destruct (active_metas _ _) as [ms| | |].
  - destruct ms as [|m ms]; [intros k; discriminate|]. pose proof (nio_from E s (ix_next ix) (m :: ms)) as Q2.
    destruct (from_segment _ _ _ _); [apply nio_insert|exact (nio_recast _ _ _ Q2)..].
  - exact (nio_recast _ _ _ Q).
  - intros k; discriminate.
  - intros k; discriminate.
Qed.
(** Adding a segment to the index involves no input or output. *)
Lemma add_segment_no_io E ix s : no_io (snd (add_segment E ix s)).
Proof.
  unfold add_segment. cbv zeta. set (ix0 := if toc_newlist (sg_toc s) then _ else _).
  assert (Q : no_io (snd (match sg_meta s with Some objs => add_objects ix0 objs | None => (ix0, Ok tt) end)))
    by (destruct (sg_meta s); [apply nio_objs|intros k; discriminate]).
  destruct (match sg_meta s with Some objs => _ | None => _ end) as [ix1 r]. cbn [snd] in Q.
  destruct r; [|exact (nio_recast _ _ _ Q)|intros k; discriminate|intros k; discriminate].
  assert (Q2 : no_io (snd (if toc_raw (sg_toc s) then add_raw E ix1 s else (ix1, Ok tt))))
    by (destruct (toc_raw (sg_toc s)); [apply nio_raw|intros k; discriminate]).
  destruct (if toc_raw (sg_toc s) then _ else _) as [ix2 r2]. cbn [snd] in Q2.
  destruct r2; [|exact (nio_recast _ _ _ Q2)|intros k; discriminate|intros k; discriminate].
  unfold total_size_bytes. destruct (checked_add _ _); [|intros k; discriminate]. destruct (checked_add _ _); intros k; discriminate.
Qed.
Lemma do_call_no_io E F c : no_io (snd (do_call E F c)).
Proof.
  destruct c as [e path kvs|e t chans vs lay]; cbn [do_call].
  - unfold write_properties_e. destruct (write_segment _ _ _ _) as [bs sg].
    pose proof (add_segment_no_io E (tf_ix F) sg) as Q. destruct (add_segment _ _ _) as [ix r]. cbn [snd] in *.
    apply nio_bind; [exact Q|intros ? k; discriminate].
  - unfold write_channels_e. destruct (stream_segment _ _ _ _ _ _) as [[bs sg]| | |] eqn:Es.
    + pose proof (add_segment_no_io E (tf_ix F) sg) as Q. destruct (add_segment _ _ _) as [ix r]. cbn [snd] in *.
      apply nio_bind; [exact Q|intros ? k; discriminate].
    + cbn [snd recast]. unfold stream_segment in Es. destruct chans; [injection Es as <-; intros k; discriminate|].
      destruct (negb _); [injection Es as <-; intros k; discriminate|]. cbv zeta in Es.
      destruct (check_write_values _ _) in Es. discriminate.
    + intros k; discriminate.
    + intros k; discriminate.
Qed.
