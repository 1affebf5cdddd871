(** * Reading several channels in step from a file of which only a beginning is left: exactly what arrives *)
From Coq Require Import Sorting.Sorted.
From Verif Require Import Base Lib DataTypes MetaData DataBlock Index RawData ChannelReader
  SpecIndex SpecCutFile Parse_proofs Cut_proofs Block_proofs CutFile_proofs Request_proofs SpecRead SpecArrive Plan_proofs Read_proofs MultiCut_proofs
  Short_proofs ShortStep_proofs Arrive_proofs.

(** Places (byte order and address) of the first [n] samples of channel number [i] of a block. *)
Definition places_in (b : dblock) (i : nat) (n : N) : list (endian * N) :=
  map (fun k => (b_order b, sample_addr b i (N.of_nat k))) (seq 0 (N.to_nat n)).

Section Block.
Context (E : env) (f x : list byte) (t : sty).
Hypothesis (Fx : fixed t) (Ad : addressable E (f ++ x)).
Local Notation V := (carrier t).
Local Notation sz := (size_bytes t).
Local Notation W := (f ++ x).

(** The values at places that are in the file. *)
Definition pick (L : list (endian * N)) : list V := map (value_at W t) (filter (present f t) L).
Lemma pick_gv e L : pick (map (pair e) L) = gv f x t e L.
Proof.
  unfold pick, gv. induction L as [|a L IH]; [reflexivity|]. cbn [map filter]. unfold present at 1, av at 1. cbn [snd].
  destruct (a + sz <=? lenN f); cbn [map]; [f_equal|]; exact IH.
Qed.
Lemma pick_app a b : pick (a ++ b) = pick a ++ pick b.
Proof. unfold pick. now rewrite filter_app, map_app. Qed.
Lemma pick_late L : (forall q, In q L -> lenN f < snd q + sz) -> pick L = [].
Proof.
  unfold pick. induction L as [|a L IH]; intros H; [reflexivity|]. cbn [filter]. unfold present at 1.
  pose proof (H a (or_introl eq_refl)). replace (snd a + sz <=? lenN f) with false by lia. apply IH. intros b Hb. apply H. now right.
Qed.

Lemma ca_places start c n m off : 0 < n ->
  ca t start c n m off =
  map (fun k => start + (N.of_nat k / n) * c + off + (N.of_nat k mod n) * sz) (seq 0 (m * N.to_nat n)).
Proof.
  intros Hn. revert start. induction m as [|m IH]; intros start; [reflexivity|]. rewrite ca_S, IH.
  cbn [Nat.mul]. rewrite seq_app, map_app. f_equal.
  - unfold ra. apply map_ext_in. intros k Hk. apply in_seq in Hk.
    rewrite N.div_small, N.mod_small by lia. lia.
  - cbn [Nat.add]. rewrite <- (Nat.add_0_r (N.to_nat n)) at 2.
    assert (Sh : forall a len, seq (N.to_nat n + a) len = map (fun k => (N.to_nat n + k)%nat) (seq a len)).
    { intros a len. revert a. induction len as [|len IHl]; intros a; [reflexivity|]. cbn [seq map]. f_equal.
      rewrite <- IHl. f_equal. lia. }
    rewrite Sh, map_map. apply map_ext. intros k.
    replace (N.of_nat (N.to_nat n + k)) with (N.of_nat k + 1 * n) by lia.
    rewrite N.div_add, N.mod_add by lia. lia.
Qed.

Lemma avs_present e L : avs f t L <-> Forall (fun a => present f t a = true) (map (pair e) L).
Proof. unfold avs. rewrite Forall_map. unfold present, av. cbn [snd]. tauto. Qed.
Lemma allin_nth step lim D es : forall off, allin f t step lim D off es <->
  forall j y o g rm s, nth_error es j = Some y -> en_plan y = PRead o g rm s ->
    avs f t (firstn (lim rm) (D (off + fold_right (fun y a => step y + a) 0 (firstn j es)) y)).
Proof.
  induction es as [|y es IH]; intros off; cbn [allin].
  - split; [|tauto]. intros _ j y o g rm s Hj. destruct j; discriminate.
  - rewrite IH. split.
    + intros [A B] [|j] z o g rm s Hj Hp.
      * cbn [nth_error] in Hj. injection Hj as <-. rewrite Hp in A. cbn [firstn fold_right]. now rewrite N.add_0_r.
      * cbn [nth_error] in Hj. cbn [firstn fold_right]. rewrite N.add_assoc. eapply B; eauto.
    + intros A. split.
      * destruct (en_plan y) as [b|o g rm s] eqn:P; [exact Logic.I|]. specialize (A 0%nat y o g rm s eq_refl P). cbn [firstn fold_right] in A. now rewrite N.add_0_r in A.
      * intros j z o g rm s Hj Hp. specialize (A (S j) z o g rm s Hj Hp). cbn [firstn fold_right] in A. now rewrite N.add_assoc in A.
Qed.
Lemma allin_reqs step lim D chans reqs : NoDup (map rq_chan reqs) -> Forall (valid_req t chans) reqs ->
  let es := entries t chans reqs in
  allin f t step lim (fun o _ => D o) 0 es <->
  forall q, In q reqs -> avs f t (firstn (lim (rq_room q)) (D (fold_right (fun y a => step y + a) 0 (firstn (rq_chan q) es)))).
Proof.
  intros ND Hv es. rewrite allin_nth. split.
  - intros A q Hq. destruct (In_nth_error _ _ Hq) as [o Ho]. rewrite Forall_forall in Hv.
    destruct (entries_req t chans reqs o q ND Ho (Hv q Hq)) as [y [Hy P]]. exact (A _ _ _ _ _ _ Hy P).
  - intros A j y o g rm s Hj Hp. destruct (entries_at t chans reqs j y ND Hj) as [m [_ [_ [[o' [q [Hq [Hc P]]]]|[b P]]]]]; [|congruence].
    rewrite Hp in P. injection P as _ _ -> _. rewrite <- Hc. apply A. eapply nth_error_In; eauto.
Qed.
Lemma max_room_le es R : (forall y o g rm s, In y es -> en_plan y = PRead o g rm s -> (rm <= R)%nat) -> (max_room t es <= R)%nat.
Proof.
  induction es as [|y es IH]; intros A; cbn [max_room]; [lia|].
  apply Nat.max_lub; [|apply IH; intros z o g rm s Hz Hp; exact (A z o g rm s (or_intror Hz) Hp)].
  destruct (en_plan y) as [b|o g rm s] eqn:P; [lia|]. exact (A y _ _ _ _ (or_introl eq_refl) P).
Qed.
Lemma max_room_ge es y o g rm s : In y es -> en_plan y = PRead o g rm s -> (rm <= max_room t es)%nat.
Proof.
  intros Hy P. induction es as [|z es IH]; [contradiction|]. cbn [max_room]. destruct Hy as [->|Hy]; [rewrite P; lia|]. specialize (IH Hy). lia.
Qed.
Lemma list_max_ge l r : In r l -> (r <= list_max l)%nat.
Proof. induction l as [|a l IH]; [contradiction|]. cbn [list_max fold_right]. fold (list_max l). intros [->|K]; [lia|]. specialize (IH K). lia. Qed.
Lemma max_rooms es reqs :
  (forall y o g rm s, In y es -> en_plan y = PRead o g rm s -> exists q, In q reqs /\ rm = rq_room q) ->
  (forall q, In q reqs -> exists y o g s, In y es /\ en_plan y = PRead o g (rq_room q) s) ->
  max_room t es = list_max (map rq_room reqs).
Proof.
  intros A B. apply Nat.le_antisymm.
  - apply max_room_le. intros y o g rm s Hy P. destruct (A y o g rm s Hy P) as [q [Hq ->]]. apply list_max_ge. now apply in_map.
  - apply list_max_le. apply Forall_forall. intros r Hr. apply in_map_iff in Hr. destruct Hr as [q [<- Hq]].
    destruct (B q Hq) as [y [o [g [s [Hy P]]]]]. eapply max_room_ge; eauto.
Qed.
Lemma list_max_same reqs R q : Forall (fun q => rq_room q = R) reqs -> In q reqs -> list_max (map rq_room reqs) = R.
Proof.
  intros F Hq. rewrite Forall_forall in F. apply Nat.le_antisymm.
  - apply list_max_le. apply Forall_forall. intros r Hr. apply in_map_iff in Hr. destruct Hr as [q' [<- Hq']]. now rewrite (F q' Hq').
  - rewrite <- (F q Hq). apply list_max_ge. now apply in_map.
Qed.

Lemma forall_in_iff {A} (L : list A) (P Q : A -> Prop) : (forall q, In q L -> (P q <-> Q q)) ->
  ((forall q, In q L -> P q) <-> (forall q, In q L -> Q q)).
Proof. intros H. split; intros K q Hq; apply (H q Hq), K, Hq. Qed.
Lemma block_cut b reqs s n c sk :
  0 < n -> 0 < c -> b_chans b <> [] ->
  Forall (fun m => rm_n m = n /\ 0 < width (rm_type m)) (b_chans b) ->
  chunks b c -> b_start b + c * sub_bytes (b_chans b) <= lenN W ->
  Forall (valid_req t (b_chans b)) reqs -> NoDup (map rq_chan reqs) -> s <= c * n ->
  (sk = false -> s = 0) -> Forall (fun q => rq_skip q = s) reqs ->
  exists r, any_read E t f b reqs sk = (map (fun q => firstn (rq_room q) (pick (skipn (N.to_nat s) (places_in b (rq_chan q) (c * n))))) reqs, r)
    /\ ((exists l, r = Ok l) \/ (r = eof /\ lenN f < b_start b + b_len b))
    /\ (okr r <-> forall q, In q reqs -> Forall (fun a => present f t a = true)
            (firstn (match b_layout b with Interleaved => S (list_max (map rq_room reqs)) | Contigious => rq_room q end)
                    (skipn (N.to_nat s) (places_in b (rq_chan q) (c * n))))).
Proof.
  intros Hn Hc Hne Hu Hb He Hv ND Hs Hsk Hss. set (outs := map _ reqs).
  assert (Hun : Forall (fun m => rm_n m = n) (b_chans b)) by (eapply Forall_impl; [|exact Hu]; cbv beta; tauto).
  assert (Hw : Forall (fun m => 0 < width (rm_type m)) (b_chans b)) by (eapply Forall_impl; [|exact Hu]; cbv beta; tauto).
  set (es := entries t (b_chans b) reqs).
  assert (F2 : Forall2 (Request_proofs.rel t) es (b_chans b)) by (apply set_readable_rel; [exact Fx|now apply base_rel|exact Hv]).
  pose proof (rel_good t _ _ F2) as G. pose proof (rel_len t n _ _ F2 Hun) as L.
  assert (Hes : es <> []) by (intros K; rewrite K in F2; inversion F2; congruence).
  pose proof (nreads_entries t (b_chans b) reqs ND Hv) as Nr. fold es in Nr.
  assert (Bp : build_record_plan t (b_chans b) reqs = Ok es).
  { unfold build_record_plan. rewrite validate_ok by exact Hv. reflexivity. }
  assert (Sk : map rq_skip reqs = repeat s (nreads t es)).
  { rewrite Nr. clear -Hss. induction Hss as [|q reqs Hq Q IH]; cbn [map length repeat]; [reflexivity|]. now rewrite Hq, IH. }
  assert (Cs0 : common_skip t 0 es).
  { intros y Hy o g r s' P. apply In_nth_error in Hy. destruct Hy as [j Hj].
    destruct (entries_at t (b_chans b) reqs j y ND Hj) as [m [_ [_ [[o' [q [Hq [_ P']]]]|[b' P']]]]]; congruence. }
  assert (Szw : forall q, In q reqs -> exists m, nth_error (b_chans b) (rq_chan q) = Some m /\ rm_n m = n /\ width (rm_type m) = sz).
  { intros q Hq. rewrite Forall_forall in Hv. destruct (Hv q Hq) as [m [Hm Hsu]]. exists m. split; [exact Hm|].
    rewrite Forall_forall in Hun. split; [apply Hun; eapply nth_error_In; eauto|]. symmetry. now apply (width_sty t). }
  unfold chunks in Hb. unfold any_read, block_read, block_read_skips. rewrite Bp. destruct (b_layout b) eqn:Lay.
  - assert (Rt : rowtotal t es = row_bytes (b_chans b)) by now apply rel_row.
    assert (Hlen : b_len b = N.of_nat (N.to_nat (c * n)) * rowtotal t es).
    { rewrite Hb, (sub_row n) by exact Hun. rewrite Rt, N2Nat.id. lia. }
    assert (Hcn : 0 < c * n) by nia.
    assert (Main : exists es' r, inter_read E f t (b_order b) (b_start b) (b_len b) (set_all_skips s es) = (es', r)
        /\ outputs reqs es' = outs /\ ((exists l, r = Ok l) \/ (r = eof /\ lenN f < b_start b + b_len b))
        /\ (okr r <-> forall q, In q reqs -> Forall (fun a => present f t a = true)
                (firstn (S (list_max (map rq_room reqs))) (skipn (N.to_nat s) (places_in b (rq_chan q) (c * n)))))).
    { pose proof (exts_skip t (wd t) s es 0) as X1.
      assert (G1 : Forall (good_entry t) (set_all_skips s es))
        by (eapply exts_forall; [|exact X1|exact G]; intros vs y y' A; apply ext_wd in A; tauto).
      assert (R1 : rowtotal t (set_all_skips s es) = rowtotal t es) by (eapply exts_rowtotal; exact X1).
      destruct (inter_cut E f x t (b_order b) Fx Ad (b_start b) (b_len b) (set_all_skips s es) s (N.to_nat (c * n)))
        as [es' [r [R [X [K B]]]]]; auto; try lia.
      { unfold set_all_skips. intros K. apply map_eq_nil in K. contradiction. }
      { intros y Hy. apply (set_all_entry t s es y Hy). }
      exists es', r. split; [exact R|]. split; [|split; [exact K|]].
      2:{ rewrite B, (allin_same f t (wd t) (fun _ => S (max_room t (set_all_skips s es))) _ es (wd_stable t) ltac:(reflexivity) 0 _ _ X1), R1, Rt.
          rewrite (max_room_exts t (wd t) (fun _ _ => []) 0%nat es 0 _ (fun _ _ _ => eq_refl) X1), Nat.sub_0_r. unfold es at 2.
          rewrite (allin_reqs (wd t) (fun _ => S (max_room t es)) (fun o => skipn (N.to_nat s) (ia (b_start b) (row_bytes (b_chans b)) (N.to_nat (c * n)) o)) (b_chans b) reqs ND Hv).
          apply forall_in_iff. intros q Hq.
          assert (Mx : max_room t es = list_max (map rq_room reqs)).
          { apply max_rooms.
            - intros z o' g rm s' Hz Hp. destruct (In_nth_error _ _ Hz) as [j Hj].
              destruct (entries_at t (b_chans b) reqs j z ND Hj) as [m [_ [_ [[o2 [q2 [Hq2 [_ P2]]]]|[b2 P2]]]]]; [|congruence].
              rewrite Hp in P2. injection P2 as _ _ -> _. exists q2. split; [eapply nth_error_In; eauto|reflexivity].
            - intros q2 Hq2. destruct (In_nth_error _ _ Hq2) as [o Ho]. rewrite Forall_forall in Hv.
              destruct (entries_req t (b_chans b) reqs o q2 ND Ho (Hv q2 Hq2)) as [y [Hy P]].
              exists y, o, [], 0. split; [eapply nth_error_In; exact Hy|exact P]. }
          rewrite Mx. generalize (list_max (map rq_room reqs)). intros LM.
          rewrite (avs_present (b_order b)), <- firstn_map, <- skipn_map.
          change (fold_right (fun y a => wd t y + a) 0 (firstn (rq_chan q) (entries t (b_chans b) reqs)))
            with (rowtotal t (firstn (rq_chan q) es)).
          rewrite (rel_row t _ _ (rel_firstn t _ _ F2 (rq_chan q))).
          unfold places_in, ia. rewrite map_map. erewrite map_ext; [apply iff_refl|]. intros k.
          unfold sample_addr. now rewrite Lay. }
      assert (X' : exts t (wd t) (fun o _ => [] ++ gv f x t (b_order b) (skipn (N.to_nat s) (ia (b_start b) (rowtotal t es) (N.to_nat (c * n)) o))) 0 es es').
      { rewrite R1 in X. eapply exts_app; [apply wd_stable| |exact X1|exact X]. intros vs y y' o A. reflexivity. }
      cbn [app] in X'.
      rewrite (exts_outputs t (wd t) (fun o => gv f x t (b_order b) (skipn (N.to_nat s) (ia (b_start b) (rowtotal t es) (N.to_nat (c * n)) o)))
                 (b_chans b) reqs es' ND Hv X').
      unfold outs. apply map_ext_in. intros q Hq. f_equal.
      change (fold_right (fun y a => wd t y + a) 0 (firstn (rq_chan q) (entries t (b_chans b) reqs)))
        with (rowtotal t (firstn (rq_chan q) es)).
      rewrite (rel_row t _ _ (rel_firstn t _ _ F2 (rq_chan q))), Rt.
      rewrite <- pick_gv, <- skipn_map. f_equal. f_equal. unfold places_in, ia. rewrite map_map. apply map_ext. intros k.
      unfold sample_addr. now rewrite Lay. }
    destruct Main as [es' [r [R [O [K B]]]]]. exists r. split; [|split; [exact K|exact B]]. destruct sk.
    + rewrite Sk, zip_repeat. now rewrite R, O.
    + rewrite (Hsk eq_refl) in R. assert (Id : set_all_skips 0 es = es).
      { unfold set_all_skips. rewrite <- (map_id es) at 2. apply map_ext_in. intros y Hy. unfold set_skip.
        destruct (en_plan y) as [b'|o g r' s'] eqn:P; [reflexivity|]. rewrite (Cs0 y Hy _ _ _ _ P) in P.
        destruct y as [l p]. cbn [en_len en_plan] in *. congruence. }
      rewrite Id in R. now rewrite R, O.
  - assert (Tt : total t es = sub_bytes (b_chans b)) by now apply rel_total.
    assert (Hlen : b_len b / total t es = N.of_nat (N.to_nat c)) by (rewrite Tt, N2Nat.id; exact Hb).
    assert (Hin : b_start b + N.of_nat (N.to_nat c) * total t es <= lenN W) by (rewrite Tt, N2Nat.id; exact He).
    assert (Lb : N.of_nat (N.to_nat c) * total t es <= b_len b).
    { rewrite <- Hlen. rewrite N.mul_comm. destruct (N.eq_dec (total t es) 0) as [Z|Z]; [rewrite Z; lia|]. now apply N.mul_div_le. }
    assert (Out : forall es', exts t (esz t) (fun off _ => gv f x t (b_order b) (skipn (N.to_nat s) (ca t (b_start b) (total t es) n (N.to_nat c) off))) 0 es es' ->
              outputs reqs es' = outs).
    { intros es' X.
      rewrite (exts_outputs t (esz t) (fun off => gv f x t (b_order b) (skipn (N.to_nat s) (ca t (b_start b) (total t es) n (N.to_nat c) off)))
                 (b_chans b) reqs es' ND Hv X).
      unfold outs. apply map_ext_in. intros q Hq. f_equal.
      change (fold_right (fun y a => esz t y + a) 0 (firstn (rq_chan q) (entries t (b_chans b) reqs)))
        with (total t (firstn (rq_chan q) es)).
      rewrite (rel_total t _ _ (rel_firstn t _ _ F2 (rq_chan q))), Tt, ca_places by exact Hn.
      rewrite <- pick_gv, <- skipn_map. f_equal. f_equal. unfold places_in. rewrite map_map.
      replace (N.to_nat (c * n)) with (N.to_nat c * N.to_nat n)%nat by lia.
      apply map_ext. intros k. unfold sample_addr. rewrite Lay.
      destruct (Szw q Hq) as [m [Hm [Nm Wm]]]. now rewrite Hm, Wm, Nm. }
    assert (Bok : forall r, (okr r <-> allin f t (esz t) (fun r => r) (fun off _ => skipn (N.to_nat s) (ca t (b_start b) (total t es) n (N.to_nat c) off)) 0 es) ->
      (@okr N r <-> forall q, In q reqs -> Forall (fun a => present f t a = true)
            (firstn (rq_room q) (skipn (N.to_nat s) (places_in b (rq_chan q) (c * n)))))).
    { intros r B. rewrite B. unfold es at 2.
      rewrite (allin_reqs (esz t) (fun r => r) (fun off => skipn (N.to_nat s) (ca t (b_start b) (total t es) n (N.to_nat c) off)) (b_chans b) reqs ND Hv).
      apply forall_in_iff. intros q Hq. rewrite (avs_present (b_order b)), <- firstn_map, <- skipn_map.
      change (fold_right (fun y a => esz t y + a) 0 (firstn (rq_chan q) (entries t (b_chans b) reqs)))
        with (total t (firstn (rq_chan q) es)).
      rewrite (rel_total t _ _ (rel_firstn t _ _ F2 (rq_chan q))), Tt, ca_places by exact Hn.
      unfold places_in. rewrite map_map.
      replace (N.to_nat (c * n)) with (N.to_nat c * N.to_nat n)%nat by lia.
      erewrite map_ext; [apply iff_refl|]. intros k. unfold sample_addr. rewrite Lay.
      destruct (Szw q Hq) as [m [Hm [Nm Wm]]]. now rewrite Hm, Wm, Nm. }
    destruct sk.
    + rewrite Sk.
      destruct (skips_cut E f x t (b_order b) Fx Ad (b_start b) (b_len b) es s n (N.to_nat c)) as [es' [r [R [X [K B]]]]]; auto; try lia.
      rewrite R, (Out es' X). exists r. split; [reflexivity|]. split; [|now apply Bok]. destruct K as [K|[-> K]]; [left; exact K|right; split; [reflexivity|lia]].
    + rewrite (Hsk eq_refl) in *.
      destruct (from_cut E f x t (b_order b) Fx Ad (b_start b) (b_len b) es 0 n (N.to_nat c)) as [es' [r [R [X [K B]]]]]; auto; try lia.
      rewrite R, (Out es' X). exists r. split; [reflexivity|]. split; [|now apply Bok]. destruct K as [K|[-> K]]; [left; exact K|right; split; [reflexivity|lia]].
Qed.
End Block.

(** ** Places of needed locations *)
Section Places.
Context (bs : list dblock).
Local Notation nplaces := (rest_places bs).
Lemma located_places l : located bs l ->
  loc_places bs l = nplaces (l_block l, l_chan l, 0) /\ length (loc_places bs l) = N.to_nat (l_n l).
Proof.
  intros [b [m [B [M L]]]]. unfold loc_places, rest_places. rewrite B, M. fold (places_in b (l_chan l) (l_n l)). rewrite L. fold (places_in b (l_chan l) (rm_n m * whole_chunks b)). change (N.to_nat 0) with 0%nat. cbn [skipn].
  split; [reflexivity|]. unfold places_in. now rewrite map_length, seq_length.
Qed.
Lemma needed_places ls : Forall (located bs) ls -> forall s,
  concat (map nplaces (needed ls s)) = skipn (N.to_nat s) (concat (map (loc_places bs) ls)).
Proof.
  induction 1 as [|l ls Hl F IH]; intros s; cbn [needed map concat]; [now rewrite skipn_nil|].
  destruct (located_places l Hl) as [E1 L1]. rewrite skipn_app, L1. destruct (l_n l <=? s) eqn:Q.
  - rewrite IH. rewrite (skipn_all2 (loc_places bs l)) by lia. cbn [app]. f_equal. lia.
  - cbn [map concat]. rewrite IH. replace (N.to_nat s - N.to_nat (l_n l))%nat with 0%nat by lia.
    change (N.to_nat 0) with 0%nat. cbn [skipn]. f_equal. rewrite E1. unfold rest_places. destruct (nth_error bs (l_block l)) as [b|]; [|now rewrite skipn_nil].
    destruct (nth_error (b_chans b) (l_chan l)); [reflexivity|now rewrite skipn_nil].
Qed.
(** The value at a place does not depend on what is behind it. *)
Lemma value_cut f x t q : present f t q = true -> value_at (f ++ x) t q = value_at f t q.
Proof.
  destruct q as [e a]. unfold present, value_at. cbn [fst snd]. intros P. f_equal. unfold slice.
  assert (a + size_bytes t <= lenN f) as L by lia. clear P. unfold lenN in L.
  rewrite skipn_app, firstn_app. replace (N.to_nat (size_bytes t) - length (skipn (N.to_nat a) f))%nat with 0%nat by (rewrite skipn_length; lia).
  now rewrite firstn_O, app_nil_r.
Qed.
Lemma pick_arrived f x t L : pick f x t L = map (value_at f t) (filter (present f t) L).
Proof. unfold pick. apply map_ext_in. intros q Hq. apply filter_In in Hq. now apply value_cut. Qed.
Lemma nplaces_behind j i s b a : nth_error bs j = Some b -> In a (nplaces (j, i, s)) -> b_start b <= snd a.
Proof.
  intros B H. unfold rest_places in H. rewrite B in H. destruct (nth_error (b_chans b) i) as [m|] eqn:M; [|destruct H].
  assert (H' : In a (places_in b i (rm_n m * whole_chunks b))).
  { rewrite <- (firstn_skipn (N.to_nat s)). apply in_or_app. now right. }
  unfold places_in in H'. apply in_map_iff in H'. destruct H' as [k [<- _]]. cbn [snd]. unfold sample_addr. rewrite M.
  destruct (b_layout b); repeat rewrite <- N.add_assoc; apply N.le_add_r.
Qed.
End Places.

(** ** The plan *)
Section Run.
Context (E : env) (f x : list byte) (t : sty) (ix : index).
Hypothesis (Fx : fixed t) (Ad : addressable E (f ++ x)).
Local Notation V := (carrier t).
Local Notation W := (f ++ x).
Local Notation bs := (ix_blocks ix).
Hypothesis (Ord : forall j j' b b', (j < j')%nat -> nth_error bs j = Some b -> nth_error bs j' = Some b' -> b_start b + b_len b <= b_start b').

Definition arr (nd : list (nat * nat * N)) : list V := pick f x t (concat (map (rest_places bs) nd)).
Lemma arr_late br rest b i : StronglySorted lt (map br_block (br :: rest)) -> nth_error bs (br_block br) = Some b ->
  lenN f < b_start b + b_len b -> arr (planned i rest) = [].
Proof.
  intros Ss Bb L. unfold arr. apply pick_late. intros a Ha. apply in_concat in Ha. destruct Ha as [l [Hl Ha]].
  apply in_map_iff in Hl. destruct Hl as [[[j ci] s] [<- Hj]].
  unfold planned in Hj. apply in_flat_map in Hj. destruct Hj as [br' [Hbr Hj]].
  destruct (nth_error (br_chans br') i) as [[[c' s']|]|]; cbn [In] in Hj; try contradiction. destruct Hj as [Hj|[]]. injection Hj as <- <- <-.
  cbn [map] in Ss. inversion Ss as [|y ys _ S2]; subst. rewrite Forall_forall in S2.
  pose proof (S2 _ (in_map br_block _ _ Hbr)) as Lt.
  destruct (nth_error bs (br_block br')) as [b'|] eqn:B'; [|unfold rest_places in Ha; rewrite B' in Ha; destruct Ha].
  pose proof (Ord _ _ _ _ Lt Bb B'). pose proof (nplaces_behind bs _ _ _ _ _ B' Ha). lia.
Qed.

Lemma map_same {A B} (g h : A -> B) l : map g l = map h l -> forall a, In a l -> g a = h a.
Proof. induction l as [|b l IH]; intros Hm a Ha; [destruct Ha|]. cbn [map] in Hm. injection Hm as H1 H2. destruct Ha as [->|Ha]; auto. Qed.
Lemma fits_nth {A} prs (outs : list (list A)) i pr o : fits prs outs -> nth_error prs i = Some pr -> nth_error outs i = Some o -> pr_target pr = lenN o.
Proof.
  intros F. revert i. induction F as [|p q prs outs Hq F IH]; intros [|i] Hp Ho; cbn [nth_error] in *; try discriminate; [congruence|eauto].
Qed.

Lemma exec_cut : forall plan prs outs, fair_run W t ix plan prs -> fits prs outs -> StronglySorted lt (map br_block plan) ->
  exists outs1 r, execute E f t ix plan prs outs = (outs1, r) /\ length outs1 = length outs
    /\ (forall i pr o, nth_error prs i = Some pr -> nth_error outs i = Some o ->
         nth_error outs1 i = Some (splice o (pr_read pr) (firstn (room_of pr) (arr (planned i plan)))))
    /\ (r = Ok tt \/ exists br b, In br plan /\ nth_error bs (br_block br) = Some b /\ lenN f < b_start b + b_len b).
Proof.
  induction plan as [|br rest IH]; intros prs outs Fr F Ss.
  - exists outs, (Ok tt). split; [reflexivity|]. split; [reflexivity|]. split; [|now left]. intros i pr o _ Ho. rewrite Ho. f_equal.
    unfold arr. cbn [planned flat_map map concat]. unfold pick. cbn [filter map]. now rewrite firstn_nil, splice_nil.
  - assert (Lp : length prs = length outs) by (clear - F; induction F; cbn [length]; congruence).
    assert (Ss' : StronglySorted lt (map br_block rest)) by (cbn [map] in Ss; now inversion Ss).
    destruct Fr as [b [n [c [s [Rb [Lbr Fk]]]]]].
    destruct Rb as [Bb [Hn [Hc [Hne [Hu [Hbl [Hin [Hs [Hch [Hsk Hd]]]]]]]]]].
    set (reqs := block_requests (br_chans br) prs) in *.
    assert (Hv : Forall (valid_req t (b_chans b)) reqs).
    { apply Forall_forall. intros q Hq. apply in_requests in Hq. destruct Hq as [i [ci [si [pr [Hi [_ [_ ->]]]]]]].
      destruct (Hch _ _ _ Hi) as [_ [m Hm]]. exists m. exact Hm. }
    assert (Hss : Forall (fun q => rq_skip q = s) reqs).
    { apply Forall_forall. intros q Hq. apply in_requests in Hq. destruct Hq as [i [ci [si [pr [Hi [_ [_ ->]]]]]]].
      destruct (Hch _ _ _ Hi) as [Hx _]. exact Hx. }
    pose proof (distinct_nodup _ prs Hd) as ND. fold reqs in ND.
    destruct (block_ok E W t b reqs s n c Fx Ad Hn Hc Hne Hu Hbl Hin Hv ND Hs) as [k [Ck [_ [R0 Rs]]]].
    set (G := fun q => firstn (rq_room q) (skipn (N.to_nat s) (block_samples W t b (rq_chan q) (c * n)))) in *.
    assert (RW : any_read E t W b reqs (any_skip (br_chans br)) = (map G reqs, Ok k)).
    { unfold any_read. destruct (any_skip (br_chans br)) eqn:As; [apply Rs; exact Hss|apply R0; now apply Hsk]. }
    destruct (block_cut E f x t Fx Ad b reqs s n c (any_skip (br_chans br)) Hn Hc Hne Hu Hbl Hin Hv ND Hs Hsk Hss) as [r [Rf [Kr _]]].
    set (G1 := fun q => firstn (rq_room q) (pick f x t (skipn (N.to_nat s) (places_in b (rq_chan q) (c * n))))) in *.
    destruct (Fk k Ck) as [Fair Frest]. pose proof (counted_le _ _ _ _ Ck) as Kle.
    assert (Np : forall i ci si, nth_error (br_chans br) i = Some (Some (ci, si)) ->
              si = s /\ rest_places bs (br_block br, ci, si) = skipn (N.to_nat s) (places_in b ci (c * n))).
    { intros i ci si Hi. destruct (Hch _ _ _ Hi) as [-> [m [Hm Sm]]]. split; [reflexivity|]. unfold rest_places. rewrite Bb, Hm. unfold places_in. f_equal. do 3 f_equal.
      rewrite (whole_chunks_of b c); [|eapply Forall_impl; [|exact Hu]; cbv beta; tauto|apply (sub_bytes_pos n); assumption|exact Hbl].
      rewrite Forall_forall in Hu. rewrite (proj1 (Hu m (nth_error_In _ _ Hm))). lia. }
    assert (Pl : forall i, arr (planned i (br :: rest))
              = match nth_error (br_chans br) i with Some (Some (ci, _)) => pick f x t (skipn (N.to_nat s) (places_in b ci (c * n))) | _ => [] end
                ++ arr (planned i rest)).
    { intros i. unfold planned. cbn [flat_map]. fold (planned i rest). unfold arr. rewrite map_app, concat_app, pick_app. f_equal.
      destruct (nth_error (br_chans br) i) as [[[ci si]|]|] eqn:Hi; cbn [map concat]; [|reflexivity..].
      rewrite app_nil_r. now rewrite (proj2 (Np _ _ _ Hi)). }
    assert (Lg : forall q, In q reqs -> length (G q) = Nat.min (rq_room q) (N.to_nat (c * n - s))).
    { intros q _. unfold G. rewrite firstn_length, skipn_length, block_samples_length. lia. }
    cbn [execute]. unfold get_data_block. rewrite Bb. cbv zeta. fold reqs. rewrite any_read_is, Rf.
    destruct Kr as [[l ->]|[-> Kr]].
    + assert (Eq : map G1 reqs = map G reqs /\ l = k).
      { destruct (block_short E t f x b reqs (any_skip (br_chans br))) as [Q|[Q _]].
        - rewrite Rf, RW in Q. now injection Q.
        - rewrite Rf in Q. discriminate Q. }
      destruct Eq as [EG ->]. pose proof (map_same _ _ _ EG) as EG1. rewrite EG in *. clear EG.
      set (prs' := advance (br_chans br) k prs) in *. set (outs' := store (br_chans br) prs outs (map G reqs)).
      assert (F' : fits prs' outs').
      { apply fits_advance. destruct (store_short t (br_chans br) prs outs _ _ F (begins_refl t (map G reqs))) as [X _]; [|exact X].
        fold reqs. clear - Lg. induction reqs as [|q reqs IH]; cbn [map]; constructor.
        - rewrite (Lg q (or_introl eq_refl)). lia.
        - apply IH. intros q' Hq'. apply Lg. now right. }
      (* what a channel has after this block, whatever the later blocks give *)
      assert (Step : forall i pr o, nth_error prs i = Some pr -> nth_error outs i = Some o ->
         exists pr' o', nth_error prs' i = Some pr' /\ nth_error outs' i = Some o'
           /\ forall more, splice o' (pr_read pr') (firstn (room_of pr') more)
              = splice o (pr_read pr) (firstn (room_of pr)
                  (match nth_error (br_chans br) i with Some (Some (ci, _)) => pick f x t (skipn (N.to_nat s) (places_in b ci (c * n))) | _ => [] end ++ more))).
      { intros i pr o Hpr Ho. assert (Hi : (i < length prs)%nat) by (apply nth_error_Some; congruence).
        destruct (nth_error (br_chans br) i) as [p|] eqn:Hp; [|apply nth_error_None in Hp; lia].
        eexists _, _. split; [apply (nth_advance k _ _ _ _ _ Hp Hpr)|]. split; [apply (nth_store G _ _ _ _ _ _ _ Hp Hpr Ho)|].
        intros more. destruct p as [[ci si]|]; [|reflexivity]. destruct (Np _ _ _ Hp) as [-> _]. unfold room_of. cbn [pr_read pr_target].
        destruct (complete pr) eqn:C; unfold complete in C.
        - replace (N.to_nat (pr_target pr - (pr_read pr + k))) with 0%nat by lia. replace (N.to_nat (pr_target pr - pr_read pr)) with 0%nat by lia.
          rewrite !firstn_O, !splice_nil. reflexivity.
        - assert (Qin : In (mkReq ci (room_of pr) s) reqs) by (eapply requests_in; eauto).
          pose proof (fits_nth _ _ _ _ _ F Hpr Ho) as T.
          specialize (Fair _ Qin). specialize (Lg _ Qin). specialize (EG1 _ Qin). unfold G1 in EG1. cbn [rq_room rq_chan] in *.
          fold (room_of pr) in *. set (blk := pick f x t (skipn (N.to_nat s) (places_in b ci (c * n)))) in *.
          rewrite <- EG1 in Lg |- *. rewrite firstn_length in Lg. unfold room_of in *.
          destruct (N.le_gt_cases (N.of_nat (N.to_nat (pr_target pr - pr_read pr))) k) as [Le|Gt].
          + replace (N.to_nat (pr_target pr - (pr_read pr + k))) with 0%nat by lia. rewrite firstn_O, splice_nil.
            rewrite firstn_app. replace (N.to_nat (pr_target pr - pr_read pr) - length blk)%nat with 0%nat by lia. now rewrite firstn_O, app_nil_r.
          + assert (Kk : k = c * n - s) by (destruct Fair as [Fa|Fa]; [exfalso; lia|exact Fa]).
            rewrite (firstn_all2 blk) by lia. rewrite firstn_app, (firstn_all2 blk) by lia.
            replace k with (lenN blk) at 1 by (unfold lenN; lia).
            rewrite splice_splice by (unfold lenN in *; lia). do 3 f_equal. lia. }
      destruct (forallb complete prs') eqn:Fc.
      * exists outs', (Ok tt). split; [reflexivity|]. split; [unfold outs'; apply store_length|]. split; [|now left]. intros i pr o Hpr Ho.
        destruct (Step i pr o Hpr Ho) as (pr' & o' & Hpr' & Ho' & Sp). rewrite Pl, <- Sp, Ho'.
        rewrite forallb_forall in Fc. pose proof (Fc pr' (nth_error_In _ _ Hpr')) as C. unfold complete in C. unfold room_of.
        replace (N.to_nat (pr_target pr' - pr_read pr')) with 0%nat by lia. now rewrite firstn_O, splice_nil.
      * destruct (IH prs' outs' (Frest eq_refl) F' Ss') as (outs1 & r & X1 & X2 & X3 & X4). exists outs1, r. split; [exact X1|].
        split; [rewrite X2; unfold outs'; apply store_length|].
        split; [|destruct X4 as [X4|(br' & b' & X4 & X5)]; [now left|right; exists br', b'; split; [now right|exact X5]]]. intros i pr o Hpr Ho.
        destruct (Step i pr o Hpr Ho) as (pr' & o' & Hpr' & Ho' & Sp). rewrite Pl, <- Sp. now apply X3.
    + cbn [recast eof]. eexists _, _. split; [reflexivity|]. split; [apply store_length|].
      split; [|right; exists br, b; split; [now left|now split]]. intros i pr o Hpr Ho.
      assert (Hi : (i < length prs)%nat) by (apply nth_error_Some; congruence).
      destruct (nth_error (br_chans br) i) as [p|] eqn:Hp; [|apply nth_error_None in Hp; lia].
      unfold reqs. rewrite (nth_store G1 _ _ _ _ _ _ _ Hp Hpr Ho). f_equal. rewrite Pl, (arr_late br rest b i Ss Bb Kr), app_nil_r, Hp.
      destruct p as [[ci si]|]; [|now rewrite firstn_nil, splice_nil]. destruct (complete pr) eqn:C; unfold complete in C.
      * unfold room_of. replace (N.to_nat (pr_target pr - pr_read pr)) with 0%nat by lia. now rewrite firstn_O, splice_nil.
      * unfold G1. reflexivity.
Qed.
End Run.

(** ** When it succeeds *)
Section Succeeds.
Context (E : env) (f x : list byte) (t : sty) (ix : index) (nch : nat).
Hypothesis (Fx : fixed t) (Ad : addressable E (f ++ x)) (Some_ch : (0 < nch)%nat).
Local Notation V := (carrier t).
Local Notation W := (f ++ x).
Local Notation bs := (ix_blocks ix).
Local Notation here := (fun a => present f t a = true).

Lemma forallb_repeat {A} (g : A -> bool) a n : (0 < n)%nat -> forallb g (repeat a n) = g a.
Proof.
  intros H. destruct n as [|n]; [lia|]. clear H. induction n as [|n IH]; cbn [repeat forallb] in *; [apply andb_true_r|]. rewrite IH. apply andb_diag.
Qed.
Lemma advance_repeat k pr chs : Forall (fun p => p <> None) chs ->
  advance chs k (repeat pr (length chs)) = repeat (mkPr (pr_read pr + k) (pr_target pr)) (length chs).
Proof.
  induction 1 as [|p l Hp A IH]; [reflexivity|]. cbn [length repeat advance]. destruct p; [|congruence]. now rewrite IH.
Qed.

Lemma exec_ok : forall plan pr outs, readable_plan W t ix nch plan ->
  Forall (fun br => Forall (fun p => p <> None) (br_chans br)) plan -> complete pr = false ->
  (snd (execute E f t ix plan (repeat pr nch) outs) = Ok tt
   <-> forall i, (i < nch)%nat -> Forall here (looked_at bs (planned i plan) (room_of pr))).
Proof.
  induction plan as [|br rest IH]; intros pr outs R A C.
  - cbn [execute snd planned flat_map looked_at]. split; [intros _ i _; constructor|reflexivity].
  - inversion R as [|y l [Ln [b [n [c [s Rb]]]]] R']; subst y l. inversion A as [|y l A1 A']; subst y l.
    destruct Rb as [Bb [Hn [Hc [Hne [Hu [Hbl [Hin [Hs [Hch [Hsk Hd]]]]]]]]]].
    set (reqs := block_requests (br_chans br) (repeat pr nch)) in *.
    assert (Hv : Forall (valid_req t (b_chans b)) reqs).
    { apply Forall_forall. intros q Hq. apply in_requests in Hq. destruct Hq as [i [ci [si [pr' [Hi [_ [_ ->]]]]]]].
      destruct (Hch _ _ _ Hi) as [_ [m Hm]]. exists m. exact Hm. }
    assert (Hss : Forall (fun q => rq_skip q = s) reqs).
    { apply Forall_forall. intros q Hq. apply in_requests in Hq. destruct Hq as [i [ci [si [pr' [Hi [_ [_ ->]]]]]]].
      destruct (Hch _ _ _ Hi) as [Hx _]. exact Hx. }
    assert (Hrm : Forall (fun q => rq_room q = room_of pr) reqs).
    { apply Forall_forall. intros q Hq. apply in_requests in Hq. destruct Hq as [i [ci [si [pr' [_ [Hp [_ ->]]]]]]].
      apply nth_error_In, repeat_spec in Hp. now subst pr'. }
    pose proof (distinct_nodup _ (repeat pr nch) Hd) as ND. fold reqs in ND.
    assert (Each : forall i, (i < nch)%nat -> exists ci, nth_error (br_chans br) i = Some (Some (ci, s)) /\ In (mkReq ci (room_of pr) s) reqs
              /\ rest_places bs (br_block br, ci, s) = skipn (N.to_nat s) (places_in b ci (c * n))).
    { intros i Hi. rewrite <- Ln in Hi. destruct (nth_error (br_chans br) i) as [p|] eqn:Hp; [|apply nth_error_None in Hp; lia].
      rewrite Forall_forall in A1. pose proof (A1 p (nth_error_In _ _ Hp)) as Np. destruct p as [[ci si]|]; [|congruence].
      destruct (Hch _ _ _ Hp) as [-> [m [Hm Sm]]]. exists ci. split; [reflexivity|]. split.
      - apply (requests_in (br_chans br) (repeat pr nch) i ci s pr Hp); [|exact C]. apply nth_error_repeat. lia.
      - unfold rest_places. rewrite Bb, Hm. unfold places_in. f_equal. do 3 f_equal.
        rewrite (whole_chunks_of b c); [|eapply Forall_impl; [|exact Hu]; cbv beta; tauto|apply (sub_bytes_pos n); assumption|exact Hbl].
        rewrite Forall_forall in Hu. rewrite (proj1 (Hu m (nth_error_In _ _ Hm))). lia. }
    assert (Every : forall q, In q reqs -> exists i, (i < nch)%nat /\ nth_error (br_chans br) i = Some (Some (rq_chan q, s))).
    { intros q Hq. apply in_requests in Hq. destruct Hq as [i [ci [si [pr' [Hi [Hp [_ ->]]]]]]]. exists i. destruct (Hch _ _ _ Hi) as [-> _].
      split; [|exact Hi]. rewrite <- Ln. apply nth_error_Some. congruence. }
    destruct (block_ok E W t b reqs s n c Fx Ad Hn Hc Hne Hu Hbl Hin Hv ND Hs) as [k [Ck [_ [R0 Rs]]]].
    set (G := fun q => firstn (rq_room q) (skipn (N.to_nat s) (block_samples W t b (rq_chan q) (c * n)))) in *.
    assert (RW : any_read E t W b reqs (any_skip (br_chans br)) = (map G reqs, Ok k)).
    { unfold any_read. destruct (any_skip (br_chans br)) eqn:As; [apply Rs; exact Hss|apply R0; now apply Hsk]. }
    destruct (block_cut E f x t Fx Ad b reqs s n c (any_skip (br_chans br)) Hn Hc Hne Hu Hbl Hin Hv ND Hs Hsk Hss) as [r [Rf [Kr Br]]].
    assert (Br' : okr r <-> forall q, In q reqs -> Forall here
        (firstn (match b_layout b with Interleaved => S (room_of pr) | Contigious => room_of pr end) (skipn (N.to_nat s) (places_in b (rq_chan q) (c * n))))).
    { rewrite Br. apply forall_in_iff. intros q Hq. rewrite (list_max_same reqs (room_of pr) q Hrm Hq). rewrite Forall_forall in Hrm. now rewrite (Hrm q Hq). }
    clear Br. rename Br' into Br.
    assert (Kk : k = N.min (N.of_nat (room_of pr)) (c * n - s)).
    { destruct (Each 0%nat Some_ch) as [ci [_ [Hq _]]]. destruct Ck as [_ Ck].
      assert (Ne : reqs <> []) by (intros Z; rewrite Z in Hq; contradiction).
      rewrite Forall_forall in Hrm. specialize (Ck Ne). destruct (b_layout b); destruct Ck as [q' [Hq' [_ ->]]]; now rewrite (Hrm q' Hq'). }
    assert (Pl : forall i ci, nth_error (br_chans br) i = Some (Some (ci, s)) -> planned i (br :: rest) = (br_block br, ci, s) :: planned i rest).
    { intros i ci Hi. unfold planned. cbn [flat_map]. now rewrite Hi. }
    assert (Lp : forall ci, length (skipn (N.to_nat s) (places_in b ci (c * n))) = N.to_nat (c * n - s)).
    { intros ci. rewrite skipn_length. unfold places_in. rewrite map_length, seq_length. lia. }
    cbn [execute]. unfold get_data_block. rewrite Bb. cbv zeta. fold reqs. rewrite any_read_is, Rf.
    destruct Kr as [[l ->]|[-> Kr]].
    + assert (Eq : l = k).
      { destruct (block_short E t f x b reqs (any_skip (br_chans br))) as [Q|[Q _]].
        - rewrite Rf, RW in Q. now injection Q.
        - rewrite Rf in Q. discriminate Q. }
      subst l. pose proof (proj1 Br Logic.I) as Pres.
      assert (Adv : advance (br_chans br) k (repeat pr nch) = repeat (mkPr (pr_read pr + k) (pr_target pr)) nch)
        by (rewrite <- Ln; apply (advance_repeat k pr _ A1)).
      rewrite Adv, forallb_repeat by exact Some_ch.
      set (pr' := mkPr (pr_read pr + k) (pr_target pr)).
      assert (Lk : forall i, (i < nch)%nat -> (Forall here (looked_at bs (planned i (br :: rest)) (room_of pr)) <->
                 (complete pr' = true \/ Forall here (looked_at bs (planned i rest) (room_of pr'))))).
      { intros i Hi. destruct (Each i Hi) as [ci [Hi' [Hq Rp]]]. rewrite (Pl i ci Hi'). cbn [looked_at fst]. rewrite Bb, Rp, Lp, Forall_app.
        specialize (Pres _ Hq). cbn [rq_chan] in Pres. unfold complete, room_of in *. subst pr'. cbn [pr_read pr_target].
        destruct (Nat.leb (N.to_nat (pr_target pr - pr_read pr)) (N.to_nat (c * n - s))) eqn:Le.
        - split; [intros _; left; apply Nat.leb_le in Le; lia|]. intros _. split; [exact Pres|constructor].
        - apply Nat.leb_gt in Le. replace (N.to_nat (pr_target pr - pr_read pr) - N.to_nat (c * n - s))%nat
            with (N.to_nat (pr_target pr - (pr_read pr + k))) by lia.
          split; [intros [_ Y]; now right|]. intros [Y|Y]; [exfalso; lia|]. split; [exact Pres|exact Y]. }
      destruct (complete pr') eqn:C'.
      * cbn [snd]. split; [|reflexivity]. intros _ i Hi. apply (Lk i Hi). now left.
      *  rewrite (IH pr' _ R' A' C'). split; intros Y i Hi.
        -- apply (Lk i Hi). right. now apply Y.
        -- destruct (proj1 (Lk i Hi) (Y i Hi)) as [Z|Z]; [discriminate|exact Z].
    + cbn [recast eof snd]. split; [discriminate|]. intros Y. exfalso. apply Br. intros q Hq. destruct (Every q Hq) as [i [Hi Hi']].
      destruct (Each i Hi) as [ci [Hc' [_ Rp]]]. rewrite Hi' in Hc'. injection Hc' as <-.
      specialize (Y i Hi). rewrite (Pl i _ Hi') in Y. cbn [looked_at fst] in Y. rewrite Bb, Rp in Y. apply Forall_app in Y. exact (proj1 Y).
Qed.

(** Buffers with room for everything that is left. *)
Lemma exec_roomy : forall plan prs outs, readable_plan W t ix nch plan -> length prs = nch -> roomy W t ix plan prs ->
  (snd (execute E f t ix plan prs outs) = Ok tt
   <-> forall i, (i < nch)%nat -> Forall here (concat (map (rest_places bs) (planned i plan)))).
Proof.
  clear Some_ch.
  induction plan as [|br rest IH]; intros prs outs R Lp A.
  - cbn [execute snd planned flat_map map concat]. split; [intros _ i _; constructor|reflexivity].
  - inversion R as [|y l [Ln [b [n [c [s Rb]]]]] R']; subst y l.
    destruct Rb as [Bb [Hn [Hc [Hne [Hu [Hbl [Hin [Hs [Hch [Hsk Hd]]]]]]]]]].
    set (reqs := block_requests (br_chans br) prs) in *.
    assert (Hv : Forall (valid_req t (b_chans b)) reqs).
    { apply Forall_forall. intros q Hq. apply in_requests in Hq. destruct Hq as [i [ci [si [pr' [Hi [_ [_ ->]]]]]]].
      destruct (Hch _ _ _ Hi) as [_ [m Hm]]. exists m. exact Hm. }
    assert (Hss : Forall (fun q => rq_skip q = s) reqs).
    { apply Forall_forall. intros q Hq. apply in_requests in Hq. destruct Hq as [i [ci [si [pr' [Hi [_ [_ ->]]]]]]].
      destruct (Hch _ _ _ Hi) as [Hx _]. exact Hx. }
    assert (Wm : forall ci m, nth_error (b_chans b) ci = Some m -> rm_n m * whole_chunks b = c * n).
    { intros ci m Hm. rewrite (whole_chunks_of b c); [|eapply Forall_impl; [|exact Hu]; cbv beta; tauto|apply (sub_bytes_pos n); assumption|exact Hbl].
      rewrite Forall_forall in Hu. rewrite (proj1 (Hu m (nth_error_In _ _ Hm))). lia. }
    assert (Len : forall i ci si, nth_error (br_chans br) i = Some (Some (ci, si)) -> si = s /\
       length (nsamp W t bs (br_block br, ci, si)) = N.to_nat (c * n - s)
       /\ rest_places bs (br_block br, ci, si) = skipn (N.to_nat s) (places_in b ci (c * n))).
    { intros i ci si Hi. destruct (Hch _ _ _ Hi) as [-> [m [Hm _]]]. split; [reflexivity|]. split.
      - unfold nsamp, chan_samples. rewrite Bb, Hm, skipn_length, block_samples_length, (Wm _ _ Hm). lia.
      - unfold rest_places. rewrite Bb, Hm, (Wm _ _ Hm). reflexivity. }
    assert (Lp' : forall ci, length (skipn (N.to_nat s) (places_in b ci (c * n))) = N.to_nat (c * n - s)).
    { intros ci. rewrite skipn_length. unfold places_in. rewrite map_length, seq_length. lia. }
    assert (Pl : forall i ci si, nth_error (br_chans br) i = Some (Some (ci, si)) -> planned i (br :: rest) = (br_block br, ci, si) :: planned i rest).
    { intros i ci si Hi. unfold planned. cbn [flat_map]. now rewrite Hi. }
    assert (Pn : forall i, nth_error (br_chans br) i = Some None -> planned i (br :: rest) = planned i rest).
    { intros i Hi. unfold planned. cbn [flat_map]. now rewrite Hi. }
    assert (Roomq : forall q, In q reqs -> c * n - s <= N.of_nat (rq_room q)).
    { intros q Hq. apply in_requests in Hq. destruct Hq as [i [ci [si [pr [Hi [Hpr [_ ->]]]]]]].
      specialize (A i pr Hpr). rewrite (Pl _ _ _ Hi) in A. cbn [map concat] in A. destruct (Len _ _ _ Hi) as [_ [Ll _]].
      rewrite app_length, Ll in A. cbn [rq_room]. unfold room_of. lia. }
    pose proof (distinct_nodup _ prs Hd) as ND. fold reqs in ND.
    destruct (block_ok E W t b reqs s n c Fx Ad Hn Hc Hne Hu Hbl Hin Hv ND Hs) as [k [Ck [_ [R0 Rs]]]].
    set (G := fun q => firstn (rq_room q) (skipn (N.to_nat s) (block_samples W t b (rq_chan q) (c * n)))) in *.
    assert (RW : any_read E t W b reqs (any_skip (br_chans br)) = (map G reqs, Ok k)).
    { unfold any_read. destruct (any_skip (br_chans br)) eqn:As; [apply Rs; exact Hss|apply R0; now apply Hsk]. }
    pose proof (counted_le _ _ _ _ Ck) as Kle.
    destruct (block_cut E f x t Fx Ad b reqs s n c (any_skip (br_chans br)) Hn Hc Hne Hu Hbl Hin Hv ND Hs Hsk Hss) as [r [Rf [Kr Br]]].
    assert (Br' : okr r <-> forall q, In q reqs -> Forall here (skipn (N.to_nat s) (places_in b (rq_chan q) (c * n)))).
    { rewrite Br. apply forall_in_iff. intros q Hq. rewrite firstn_all2; [reflexivity|]. rewrite Lp'. pose proof (Roomq q Hq) as Q.
      pose proof (list_max_ge _ _ (in_map rq_room _ _ Hq)) as Q'. destruct (b_layout b); lia. }
    clear Br.
    (* what the block holds of a channel is in the file for all channels iff for all requests *)
    assert (Bl : (forall q, In q reqs -> Forall here (skipn (N.to_nat s) (places_in b (rq_chan q) (c * n))))
              <-> forall i ci si, nth_error (br_chans br) i = Some (Some (ci, si)) -> Forall here (rest_places bs (br_block br, ci, si))).
    { split.
      - intros X i ci si Hi. destruct (Len _ _ _ Hi) as [-> [Ll ->]].
        assert (Hi0 : (i < length prs)%nat) by (rewrite Lp, <- Ln; apply nth_error_Some; congruence).
        destruct (nth_error prs i) as [pr|] eqn:Hpr; [|apply nth_error_None in Hpr; lia].
        destruct (complete pr) eqn:C.
        + specialize (A i pr Hpr). rewrite (Pl _ _ _ Hi) in A. cbn [map concat] in A. rewrite app_length, Ll in A. unfold complete in C.
          assert (Z : length (skipn (N.to_nat s) (places_in b ci (c * n))) = 0%nat) by (rewrite Lp'; lia).
          apply length_zero_iff_nil in Z. rewrite Z. constructor.
        + exact (X _ (requests_in (br_chans br) prs i ci s pr Hi Hpr C)).
      - intros X q Hq. apply in_requests in Hq. destruct Hq as [i [ci [si [pr [Hi [_ [_ ->]]]]]]]. cbn [rq_chan].
        specialize (X _ _ _ Hi). destruct (Len _ _ _ Hi) as [-> [_ E1]]. now rewrite E1 in X. }
    assert (All : (forall i, (i < nch)%nat -> Forall here (concat (map (rest_places bs) (planned i (br :: rest)))))
        <-> (forall i ci si, nth_error (br_chans br) i = Some (Some (ci, si)) -> Forall here (rest_places bs (br_block br, ci, si)))
            /\ (forall i, (i < nch)%nat -> Forall here (concat (map (rest_places bs) (planned i rest))))).
    { split.
      - intros X. split.
        + intros i ci si Hi. assert (Hi0 : (i < nch)%nat) by (rewrite <- Ln; apply nth_error_Some; congruence).
          specialize (X i Hi0). rewrite (Pl _ _ _ Hi) in X. cbn [map concat] in X. apply Forall_app in X. exact (proj1 X).
        + intros i Hi0. specialize (X i Hi0). destruct (nth_error (br_chans br) i) as [[[ci si]|]|] eqn:Hi.
          * rewrite (Pl _ _ _ Hi) in X. cbn [map concat] in X. apply Forall_app in X. exact (proj2 X).
          * now rewrite (Pn _ Hi) in X.
          * apply nth_error_None in Hi. lia.
      - intros [X Y] i Hi0. destruct (nth_error (br_chans br) i) as [[[ci si]|]|] eqn:Hi.
        + rewrite (Pl _ _ _ Hi). cbn [map concat]. apply Forall_app. split; [eapply X; eauto|now apply Y].
        + rewrite (Pn _ Hi). now apply Y.
        + apply nth_error_None in Hi. lia. }
    rewrite All, <- Bl, <- Br'. clear All Bl.
    cbn [execute]. unfold get_data_block. rewrite Bb. cbv zeta. fold reqs. rewrite any_read_is, Rf.
    destruct Kr as [[l ->]|[-> Kr]].
    + assert (Eq : l = k).
      { destruct (block_short E t f x b reqs (any_skip (br_chans br))) as [Q|[Q _]].
        - rewrite Rf, RW in Q. now injection Q.
        - rewrite Rf in Q. discriminate Q. }
      subst l. clear Br'.
      assert (A' : roomy W t ix rest (advance (br_chans br) k prs)).
      { intros i pr' Hpr'.
        assert (Hi : (i < length prs)%nat) by (rewrite <- (advance_length k (br_chans br) prs); apply nth_error_Some; congruence).
        destruct (nth_error prs i) as [pr|] eqn:Hpr; [|apply nth_error_None in Hpr; lia].
        destruct (nth_error (br_chans br) i) as [p|] eqn:Hp; [|apply nth_error_None in Hp; lia].
        rewrite (nth_advance k _ _ _ _ _ Hp Hpr) in Hpr'. injection Hpr' as <-.
        specialize (A i pr Hpr). destruct p as [[ci si]|]; [|now rewrite (Pn _ Hp) in A].
        rewrite (Pl _ _ _ Hp) in A. cbn [map concat] in A. destruct (Len _ _ _ Hp) as [_ [Ll _]]. rewrite app_length, Ll in A. cbn [pr_read pr_target]. lia. }
      destruct (forallb complete (advance (br_chans br) k prs)) eqn:C.
      * cbn [snd]. split; [|reflexivity]. intros _. split; [exact Logic.I|]. intros i Hi0.
        destruct (nth_error (advance (br_chans br) k prs) i) as [pr|] eqn:Hpr; [|apply nth_error_None in Hpr; rewrite advance_length in Hpr; lia].
        specialize (A' i pr Hpr). rewrite forallb_forall in C. specialize (C pr (nth_error_In _ _ Hpr)). unfold complete in C.
        assert (Z : length (concat (map (nsamp W t bs) (planned i rest))) = 0%nat) by lia.
        assert (Lr : forall L, length (concat (map (rest_places bs) L)) = length (concat (map (nsamp W t bs) L))).
        { induction L as [|[[j ci] si] L IHL]; [reflexivity|]. cbn [map concat]. rewrite !app_length, IHL. f_equal.
          unfold rest_places, nsamp, chan_samples. destruct (nth_error bs j) as [b'|]; [|now rewrite ?skipn_nil].
          destruct (nth_error (b_chans b') ci) as [m|]; [|now rewrite ?skipn_nil].
          now rewrite !skipn_length, map_length, seq_length, block_samples_length. }
        rewrite <- Lr in Z. apply length_zero_iff_nil in Z. rewrite Z. constructor.
      * assert (La : length (advance (br_chans br) k prs) = nch) by (rewrite advance_length; exact Lp).
        rewrite (IH _ _ R' La A'). split; [intros X; split; [exact Logic.I|exact X]|tauto].
    + cbn [recast eof snd]. split; [discriminate|]. intros [[] _].
Qed.
End Succeeds.
