(** * Copying a file through the library *)
From Verif Require Import Base Lib DataTypes Paths MetaData Maps DataBlock Index RawData ChannelReader TdmsFile
  SpecCodec SpecIndex SpecSession SpecPaths SpecRead SpecWrite SpecLocal SpecGrammar SpecCopy Maps_proofs Codec_proofs Segment_proofs
  Index_proofs Session_proofs Open_proofs Grammar_proofs Block_proofs Read_proofs Paths_proofs Thm_Index Thm_Paths Thm_Read Thm_Write
  Program_proofs Reopen_proofs Thm_Reopen Vectors Thm_Open.

(** ** What is read from a file can be written *)
Lemma number_4 e n bs : number e 4 n bs -> n < 2 ^ 32.
Proof. intros X. apply uint_lt in X. exact X. Qed.
Lemma text_good E e s bs : text E e s bs -> good_str E s.
Proof. intros [l [_ [Nu [W Al]]]]. split; [exact W|]. split; [exact (number_4 _ _ _ Nu)|exact Al]. Qed.
Lemma value_good E e p bs : value_bytes E e p bs -> good_pval E p.
Proof.
  assert (U : forall w n c, number e w n c -> n < 256 ^ N.of_nat w) by (intros; eapply uint_lt; eassumption).
  destruct p; cbn [value_bytes]; intros X; unfold good_pval; cbn [rust_pval storable_pval can_alloc_pval rust_value storable can_alloc];
    try (split; [exact Logic.I|split; exact Logic.I]);
    try (destruct X as [m [_ [X _]]]; split; [exact X|split; exact Logic.I]);
    try (apply U in X; split; [exact X|split; exact Logic.I]).
  - apply U in X. change (256 ^ N.of_nat 10) with (2 ^ 80) in X. split; [|split; [exact X|exact Logic.I]].
    eapply N.lt_trans; [exact X|reflexivity].
  - apply text_good in X. exact X.
  - match goal with c : (_ * _)%type |- _ => destruct c as [re im] end. destruct X as [a [b [_ [X Y]]]]. apply U in X, Y. split; [split; [exact X|exact Y]|split; exact Logic.I].
  - match goal with c : (_ * _)%type |- _ => destruct c as [re im] end. destruct X as [a [b [_ [X Y]]]]. apply U in X, Y. split; [split; [exact X|exact Y]|split; exact Logic.I].
Qed.
Definition sound_obj (E : env) (o : objmeta) : Prop :=
  good_str E (om_path o) /\ Forall (fun p => good_str E (fst p) /\ good_pval E (snd p)) (om_props o).
Lemma items_all {A} (R : A -> list byte -> Prop) (P : A -> Prop) xs bs :
  (forall x c, R x c -> P x) -> items R xs bs -> Forall P xs.
Proof.
  intros HP [ps [_ F]]. induction F as [|x c xs ps Hx F IH]; constructor; eauto.
Qed.
Lemma file_sound E f H : file_segments E f H -> Forall (sound_obj E) (all_objs H).
Proof.
  intros [Hs _]. apply Forall_forall. intros o Ho. unfold all_objs in Ho. apply in_flat_map in Ho. destruct Ho as [s [Hi Ho]].
  apply In_nth_error in Hi. destruct Hi as [i Hi]. destruct (Hs i s Hi) as [Rd _]. apply segment_grammar in Rd.
  destruct Rd as [pre [bs [rest [_ [_ Sb]]]]]. unfold segment_bytes in Sb. cbv zeta in Sb.
  destruct Sb as [w [t [v [n [r [m [os [_ [_ [_ [_ [_ [_ [Em Mb]]]]]]]]]]]]]].
  unfold seg_objs in Ho. rewrite Em in Ho. destruct Mb as [nb [q [_ [_ [_ It]]]]].
  assert (A : Forall (sound_obj E) os); [|rewrite Forall_forall in A; auto].
  apply (items_all (object_bytes E (if toc_big (sg_toc s) then BigE else LittleE)) _ os q); [|exact It].
  intros x c [p0 [i0 [n0 [q0 [_ [Tp [_ [_ [_ Ip]]]]]]]]]. split; [eapply text_good, Tp|].
  eapply items_all; [|exact Ip].
  intros pr c0 [nn [cc [vv [tt0 [_ [T1 [_ [_ T2]]]]]]]]. split; [eapply text_good, T1|eapply value_good, T2].
Qed.
Lemma last_prop_sound E os p n v : Forall (sound_obj E) os -> last_prop os p n = Some v -> good_str E n /\ good_pval E v.
Proof.
  intros Fo L. apply last_prop_spec in L. destruct L as [[os1 [o [os2 [a [b [-> [_ [Ep _]]]]]]]]|[L _]]; [|discriminate].
  rewrite Forall_app in Fo. destruct Fo as [_ Fo]. inversion Fo as [|x l [_ Hp] _]; subst.
  rewrite Ep in Hp. rewrite Forall_app in Hp. destruct Hp as [_ Hp]. inversion Hp; subst. assumption.
Qed.

(** ** Values that were read exist in Rust *)
Lemma signed_rust w n : (0 < w)%nat -> n < 256 ^ N.of_nat w -> in_signed (8 * Z.of_nat w) (to_signed w n).
Proof.
  intros Hw Hn. unfold in_signed, to_signed.
  assert (P : (2 ^ (8 * Z.of_nat w) = 2 * 2 ^ (8 * Z.of_nat w - 1))%Z).
  { replace (8 * Z.of_nat w)%Z with (Z.succ (8 * Z.of_nat w - 1)) at 1 by lia. apply Z.pow_succ_r. lia. }
  assert (Q : Z.of_N (2 ^ (8 * N.of_nat w - 1)) = (2 ^ (8 * Z.of_nat w - 1))%Z).
  { rewrite N2Z.inj_pow. f_equal. lia. }
  assert (R : Z.of_N (256 ^ N.of_nat w) = (2 ^ (8 * Z.of_nat w))%Z).
  { rewrite N2Z.inj_pow. change (Z.of_N 256) with (2 ^ 8)%Z. rewrite <- Z.pow_mul_r by lia. f_equal. lia. }
  destruct (n <? 2 ^ (8 * N.of_nat w - 1)) eqn:C; lia.
Qed.
Lemma elem_rust e t bs : fixed t -> lenN bs <= size_bytes t -> rust_value t (elem e t bs).
Proof.
  intros [F1 [F2 F3]] L. assert (U : forall c, uint_val e c < 256 ^ lenN c) by (intros; apply uint_val_bound).
  assert (V : forall c k, lenN c <= k -> uint_val e c < 256 ^ k).
  { intros c k Hk. eapply N.lt_le_trans; [apply U|]. apply N.pow_le_mono_r; [discriminate|exact Hk]. }
  destruct t; try congruence; cbn [rust_value elem] in *.
  all: try exact Logic.I.
  all: try (first [exact (V _ 1 L)|exact (V _ 2 L)|exact (V _ 4 L)|exact (V _ 8 L)]).
  all: try (match goal with |- in_signed _ (to_signed ?w _) => apply (signed_rust w); [apply Nat.lt_0_succ|exact (V _ (N.of_nat w) L)] end).
  - cbn [fst snd]. split; [apply (V _ 4)|apply (V _ 4)]; unfold lenN in *; rewrite ?firstn_length, ?skipn_length; cbn [size_bytes] in L; lia.
  - cbn [fst snd]. split; [apply (V _ 8)|apply (V _ 8)]; unfold lenN in *; rewrite ?firstn_length, ?skipn_length; cbn [size_bytes] in L; lia.
Qed.
Lemma samples_rust f t H p : fixed t -> stored f t H p -> Forall (rust_value t) (samples_after f t H p).
Proof.
  intros Fx St. unfold samples_after, samples_at. unfold stored in St.
  induction St as [|l ls [b [m [Hb [_ [Hm Ht]]]]] _ IH]; [constructor|]. cbn [map concat]. rewrite Forall_app. split; [|exact IH].
  unfold loc_samples. rewrite Hb. unfold block_samples. apply Forall_forall. intros v Hv. apply in_map_iff in Hv.
  destruct Hv as [k [<- _]]. unfold sample. rewrite Hm. apply elem_rust; [exact Fx|].
  destruct (width_sty t (rm_type m) Fx) as [-> _]; [now apply stored_as_supports|].
  unfold slice, lenN. rewrite firstn_length. lia.
Qed.

(** ** Sorted lists with the same members *)
Lemma pairs_same {V} : forall a b : list (str * V), sorted (map fst a) -> sorted (map fst b) ->
  (forall x, In x a <-> In x b) -> a = b.
Proof.
  induction a as [|x a IH]; intros [|y b] Sa Sb Eq; [reflexivity| | |].
  - exfalso. apply (proj2 (Eq y)). now left.
  - exfalso. apply (proj1 (Eq x)). now left.
  - cbn [map] in Sa, Sb. inversion Sa as [|? ? Sa1 Fa]; subst. inversion Sb as [|? ? Sb1 Fb]; subst.
    rewrite Forall_forall in Fa, Fb.
    assert (Exy : x = y).
    { destruct (proj1 (Eq x) (or_introl eq_refl)) as [E1|E1]; [now symmetry|].
      destruct (proj2 (Eq y) (or_introl eq_refl)) as [E2|E2]; [exact E2|].
      exfalso. apply (str_lt_irrefl (fst x)). apply (str_lt_trans _ (fst y)); [apply Fa|apply Fb]; apply in_map; assumption. }
    subst y. f_equal. apply IH; [exact Sa1|exact Sb1|]. intros z. split; intros Hz.
    + destruct (proj1 (Eq z) (or_intror Hz)) as [<-|Hb]; [|exact Hb].
      exfalso. apply (str_lt_irrefl (fst x)). apply Fa. now apply in_map.
    + destruct (proj2 (Eq z) (or_intror Hz)) as [<-|Hb]; [|exact Hb].
      exfalso. apply (str_lt_irrefl (fst x)). apply Fb. now apply in_map.
Qed.
Lemma sorted_same : forall a b : list str, sorted a -> sorted b -> (forall x, In x a <-> In x b) -> a = b.
Proof.
  intros a b Sa Sb Eq.
  assert (X : map (fun s => (s, tt)) a = map (fun s => (s, tt)) b).
  { apply pairs_same.
    - now rewrite map_map, map_id.
    - now rewrite map_map, map_id.
    - intros [s []]. rewrite !in_map_iff. split; intros [z [Ez Hz]]; exists z; (split; [exact Ez|now apply Eq]). }
  apply (f_equal (map fst)) in X. now rewrite !map_map, !map_id in X.
Qed.

(** ** The program *)
Lemma dealt_one {A} lay (vs : list A) : dealt lay 1 0 vs = vs.
Proof.
  unfold dealt. rewrite Nat.div_1_r. destruct lay.
  - assert (G : forall (k a : nat) (ws : list A), (forall j, nth_error vs (a + j) = nth_error ws j) -> length ws = k ->
      flat_map (fun j => match nth_error vs (j * 1 + 0) with Some v => [v] | None => [] end) (seq a k) = ws).
    { induction k as [|k IH]; intros a ws Hn L.
      - destruct ws; [reflexivity|discriminate].
      - destruct ws as [|w ws]; [discriminate|]. cbn [seq flat_map]. replace (a * 1 + 0)%nat with (a + 0)%nat by lia.
        rewrite (Hn 0%nat). cbn [nth_error app]. f_equal. apply IH; [|now injection L].
        intros j. change (nth_error ws j) with (nth_error (w :: ws) (S j)). rewrite <- (Hn (S j)). f_equal. lia. }
    apply (G _ 0%nat); reflexivity.
  - cbn [Nat.mul skipn]. apply firstn_all.
Qed.

Lemma c_dec_all (A : list segment) p : {mentioned (all_objs A) p} + {~ mentioned (all_objs A) p}.
Proof. apply (in_dec (list_eq_dec Byte.byte_eq_dec)). Qed.

Lemma overlay_whole {A} (x : A) (s : list A) : overlay (repeat x (length s)) s = s.
Proof. unfold overlay. rewrite skipn_all2 by (rewrite repeat_length; lia). apply app_nil_r. Qed.

Section Copy.
Context (E : env) (ord : str -> endian) (lay : str -> layout) (ty : str -> sty) (blank : forall t, carrier t).
Context (f : list byte) (F : tfile) (H : list segment).
Context (Op : tdms_new E f = Ok F) (Fs : file_segments E f H) (Ad : addressable E f).
Let men p := mentioned (all_objs H) p.
Context (Fx : forall p, men p -> fixed (ty p)) (St : forall p, men p -> stored f (ty p) H p)
  (Le : forall p, men p -> length_after H p < 2 ^ 64).
Context (Ro : enough_room E F).
Let S p := samples_after f (ty p) H p.

Lemma c_session : session E H F. Proof. eapply ss_open; eauto. Qed.
Lemma c_any : any_session E H F. Proof. apply session_any, c_session. Qed.
Lemma c_bytes : tf_bytes F = f. Proof. now destruct (tdms_new_ok _ _ _ Op). Qed.
Lemma c_dec p : {men p} + {~ men p}.
Proof. apply c_dec_all. Qed.

Lemma c_length p : men p -> channel_length E F p = Ok (Some (lenN (S p))).
Proof. intros M. unfold S. rewrite C36_samples_count. apply (C19_channel_length E H F p c_session); [now apply Le|exact M]. Qed.
Lemma c_read p start out : men p ->
  read_channel_from E F (ty p) p start out = (overlay out (firstn (length out) (skipn (N.to_nat start) (S p))), Ok tt).
Proof.
  intros M. unfold S. rewrite <- c_bytes.
  apply C28_window; [exact c_session|now apply Fx|rewrite c_bytes; exact Ad|exact M|rewrite c_bytes; now apply St].
Qed.
Let D p := if lenN (S p) =? 0 then [] else [CallChans (ord p) (ty p) [p] (S p) (lay p)].
Lemma c_data p : men p -> copy_data E ord lay ty blank F p = D p.
Proof.
  intros M. unfold copy_data, D. rewrite (c_length p M). destruct (lenN (S p) =? 0); [reflexivity|].
  unfold read_channel. rewrite (c_read p 0 _ M). cbn [fst N.to_nat skipn]. rewrite repeat_length.
  unfold lenN. rewrite Nat2N.id, firstn_all. now rewrite overlay_whole.
Qed.
Lemma c_unmentioned p : ~ men p -> copy_data E ord lay ty blank F p = [] /\ copy_props ord F p = [].
Proof.
  intros Np. unfold copy_data, copy_props.
  rewrite (proj1 (proj2 (C19_channel_length E H F p c_session)) Np).
  now rewrite (proj2 (proj1 (C16_read_all E H F p c_any)) Np).
Qed.
Lemma c_props p : men p -> exists kvs, copy_props ord F p = [CallProps (ord p) p kvs] /\ read_all_properties F p = Some kvs
  /\ NoDup (map fst kvs) /\ (forall n, fold_left (prop_step n) kvs None = last_prop (all_objs H) p n)
  /\ Forall (fun x => good_str E (fst x) /\ good_pval E (snd x)) kvs.
Proof.
  intros M. destruct (C16_read_all E H F p c_any) as [Nn Sm]. unfold copy_props.
  destruct (read_all_properties F p) as [kvs|] eqn:R; [|exfalso; now apply (proj1 Nn)].
  exists kvs. split; [reflexivity|]. split; [reflexivity|]. destruct (Sm kvs eq_refl) as [Nd Hi]. split; [exact Nd|].
  assert (V : forall n v, In (n, v) kvs <-> last_prop (all_objs H) p n = Some v).
  { intros n v. rewrite Hi, (proj1 (property_value E H F p n c_any) M). split; [intros X; now injection X as X|intros ->; reflexivity]. }
  split.
  - intros n. destruct (last_prop (all_objs H) p n) as [v|] eqn:L.
    + apply V in L. apply in_split in L. destruct L as [k1 [k2 ->]]. apply fold_prop_last.
      rewrite map_app in Nd. cbn [map fst] in Nd. apply NoDup_remove_2 in Nd. intros X. apply Nd. apply in_or_app. now right.
    + apply fold_prop_none. intros X. apply in_map_iff in X. destruct X as [[n' v] [En Hv]]. cbn [fst] in En. subst n'.
      apply V in Hv. congruence.
  - apply Forall_forall. intros [n v] Hv. apply V in Hv. cbn [fst snd]. eapply last_prop_sound; [|exact Hv].
    eapply file_sound, Fs.
Qed.

(** *** The calls *)
Let P := copy_props ord F.
Let C := copy_data E ord lay ty blank F.
Lemma seq_props paths : forall prev cs, sequenced prev cs -> sequenced prev (flat_map P paths ++ cs).
Proof.
  induction paths as [|p paths IH]; intros prev cs Sq; [exact Sq|]. cbn [flat_map]. rewrite <- app_assoc.
  unfold P at 1, copy_props. destruct (read_all_properties F p); cbn [app sequenced]; now apply IH.
Qed.
Lemma res_props paths : forall prev cs, restarts E prev cs -> restarts E prev (flat_map P paths ++ cs).
Proof.
  induction paths as [|p paths IH]; intros prev cs Sq; [exact Sq|]. cbn [flat_map]. rewrite <- app_assoc.
  unfold P at 1, copy_props. destruct (read_all_properties F p); cbn [app restarts]; now apply IH.
Qed.
Lemma apart_lists q p : q <> p -> ~ continues [q] [p].
Proof. intros Ne [_ [[c X]|[c X]]]; injection X as X _; congruence. Qed.
Lemma data_good p : men p -> lenN (S p) <> 0 -> good_values (ty p) [p] (S p).
Proof.
  intros M L. split; [now apply Fx|]. split; [apply samples_rust; auto|]. split; [repeat constructor; intros []|].
  split; [discriminate|]. split; [intros X; apply L; now rewrite X|]. apply N.mod_1_r.
Qed.
Lemma C_cases p : C p = [] \/ (men p /\ lenN (S p) <> 0 /\ C p = [CallChans (ord p) (ty p) [p] (S p) (lay p)]).
Proof.
  unfold C. destruct (c_dec p) as [M|M].
  - rewrite (c_data p M). unfold D. destruct (lenN (S p) =? 0) eqn:L; [now left|]. apply N.eqb_neq in L. right. auto.
  - left. now apply c_unmentioned.
Qed.
Lemma seq_data : forall paths prev, NoDup paths ->
  match prev with None => True | Some (_, _, l) => exists q, l = [q] /\ ~ In q paths end ->
  sequenced prev (flat_map C paths).
Proof.
  induction paths as [|p paths IH]; intros prev Nd Hp; [exact Logic.I|]. inversion Nd as [|? ? Np Nd']; subst. cbn [flat_map].
  destruct (C_cases p) as [->|[M [L ->]]].
  - apply IH; [exact Nd'|]. destruct prev as [[[d k] l]|]; [|exact Logic.I]. destruct Hp as [q [-> Hq]]. exists q.
    split; [reflexivity|]. intros X. apply Hq. now right.
  - cbn [app sequenced]. split; [now apply data_good|].
    assert (R : sequenced (Some (natural (ty p), lenN (S p) / lenN [p], [p])) (flat_map C paths)) by (apply IH; [exact Nd'|exists p; auto]).
    destruct prev as [[[d k] l]|]; [|exact R]. left. split; [|exact R]. destruct Hp as [q [-> Hq]]. apply apart_lists.
    intros ->. apply Hq. now left.
Qed.
Lemma res_data : forall paths prev, NoDup paths -> (prev = [] \/ exists q, prev = [q] /\ ~ In q paths) ->
  restarts E prev (flat_map C paths).
Proof.
  induction paths as [|p paths IH]; intros prev Nd Hp; [exact Logic.I|]. inversion Nd as [|? ? Np Nd']; subst. cbn [flat_map].
  destruct (C_cases p) as [->|[M [L ->]]].
  - apply IH; [exact Nd'|]. destruct Hp as [->|[q [-> Hq]]]; [now left|]. right. exists q.
    split; [reflexivity|]. intros X. apply Hq. now right.
  - cbn [app restarts]. left. split; [|split; [repeat constructor; intros []|]].
    + destruct Hp as [->|[q [-> Hq]]]; [intros [X _]; now apply X|]. apply apart_lists. intros ->. apply Hq. now left.
    + apply IH; [exact Nd'|]. right. exists p. auto.
Qed.
Lemma path_good p : men p -> good_str E p.
Proof.
  intros M. unfold men, mentioned in M. apply in_map_iff in M. destruct M as [o [<- Ho]].
  pose proof (file_sound E f H Fs) as A. rewrite Forall_forall in A. now apply A.
Qed.
Lemma calls_good paths : Forall (good_call E) (copy E ord lay ty blank F paths).
Proof.
  destruct Ro as [R1 [R0 Rk]]. unfold copy. rewrite Forall_app. split; apply Forall_forall; intros c Hc; apply in_flat_map in Hc;
    destruct Hc as [p [_ Hc]].
  - destruct (c_dec p) as [M|M]; [|rewrite (proj2 (c_unmentioned p M)) in Hc; destruct Hc].
    destruct (c_props p M) as [kvs [X [Rd [_ [_ G]]]]]. rewrite X in Hc. destruct Hc as [<-|[]]. cbn [good_call].
    destruct (Rk p kvs Rd) as [A B]. repeat (split; [first [now apply path_good|exact G|exact A|exact B]|]). exact R1.
  - destruct (C_cases p) as [X|[M [_ X]]]; unfold C in X; rewrite X in Hc; [destruct Hc|]. destruct Hc as [<-|[]]. cbn [good_call].
    split; [repeat constructor; now apply path_good|]. split; [reflexivity|]. split; [|split; [exact R0|split; [exact R1|]]].
    + unfold S. rewrite C36_samples_count. now apply Le.
    + destruct (Fx p M) as [A [B _]]. auto.
Qed.
(** What the calls say about one object. *)
Lemma names_props p paths : Exists (names p) (flat_map P paths) <-> In p paths /\ men p.
Proof.
  rewrite Exists_exists. split.
  - intros [c [Hc Nc]]. apply in_flat_map in Hc. destruct Hc as [q [Hq Hc]]. unfold P in Hc.
    destruct (c_dec q) as [M|M]; [|rewrite (proj2 (c_unmentioned q M)) in Hc; destruct Hc].
    destruct (c_props q M) as [kvs [X _]]. rewrite X in Hc. destruct Hc as [<-|[]]. cbn [names] in Nc. subst q. auto.
  - intros [Hp M]. destruct (c_props p M) as [kvs [X _]]. exists (CallProps (ord p) p kvs). split; [|reflexivity].
    apply in_flat_map. exists p. split; [exact Hp|]. unfold P. rewrite X. now left.
Qed.
Lemma names_all p paths : Exists (names p) (copy E ord lay ty blank F paths) <-> In p paths /\ men p.
Proof.
  unfold copy. fold P C. rewrite Exists_app, names_props. split; [|now left]. intros [X|X]; [exact X|].
  apply Exists_exists in X. destruct X as [c [Hc Nc]]. apply in_flat_map in Hc. destruct Hc as [q [Hq Hc]].
  destruct (C_cases q) as [X|[M [_ X]]]; rewrite X in Hc; [destruct Hc|]. destruct Hc as [<-|[]]. cbn [names] in Nc.
  destruct Nc as [->|[]]. auto.
Qed.
Lemma told_data p n : forall paths acc, fold_left (prop_call p n) (flat_map C paths) acc = acc.
Proof.
  induction paths as [|q paths IH]; intros acc; [reflexivity|]. cbn [flat_map]. rewrite fold_left_app.
  destruct (C_cases q) as [->|[_ [_ ->]]]; cbn [fold_left prop_call]; apply IH.
Qed.
Lemma told_other p n : forall paths acc, ~ In p paths -> fold_left (prop_call p n) (flat_map P paths) acc = acc.
Proof.
  induction paths as [|q paths IH]; intros acc Np; [reflexivity|]. cbn [flat_map]. rewrite fold_left_app.
  assert (X : fold_left (prop_call p n) (P q) acc = acc).
  { unfold P, copy_props. destruct (read_all_properties F q); [|reflexivity]. cbn [fold_left prop_call].
    rewrite (proj2 (str_eqb_neq p q)); [reflexivity|]. intros ->. apply Np. now left. }
  rewrite X. apply IH. intros Y. apply Np. now right.
Qed.
Lemma told_here p n paths : NoDup paths -> In p paths -> men p ->
  fold_left (prop_call p n) (copy E ord lay ty blank F paths) None = last_prop (all_objs H) p n.
Proof.
  intros Nd Hp M. unfold copy. fold P C. rewrite fold_left_app, told_data.
  apply in_split in Hp. destruct Hp as [l1 [l2 ->]]. apply NoDup_remove_2 in Nd. rewrite in_app_iff in Nd.
  rewrite flat_map_app, fold_left_app, (told_other p n l1) by tauto. cbn [flat_map]. rewrite fold_left_app.
  rewrite (told_other p n l2) by tauto. destruct (c_props p M) as [kvs [X [_ [_ [V _]]]]]. unfold P. rewrite X.
  cbn [fold_left prop_call]. rewrite str_eqb_refl. apply V.
Qed.
Lemma given_props p : forall paths, exists vss, Forall2 (gives (ty p) p) (flat_map P paths) vss /\ concat vss = [].
Proof.
  induction paths as [|q paths [vss [G Z]]]; [exists []; split; [constructor|reflexivity]|]. cbn [flat_map].
  unfold P at 1, copy_props. destruct (read_all_properties F q).
  - exists ([] :: vss). split; [constructor; [constructor|exact G]|exact Z].
  - exists vss. auto.
Qed.
Lemma given_other p : forall paths, ~ In p paths -> exists vss, Forall2 (gives (ty p) p) (flat_map C paths) vss /\ concat vss = [].
Proof.
  induction paths as [|q paths IH]; intros Np; [exists []; split; [constructor|reflexivity]|]. cbn [flat_map].
  destruct IH as [vss [G Z]]; [intros X; apply Np; now right|].
  destruct (C_cases q) as [->|[_ [_ ->]]]; [exists vss; auto|].
  exists ([] :: vss). split; [constructor; [|exact G]|exact Z]. apply gives_other. intros [X|[]]. apply Np. now left.
Qed.
Lemma given_data p paths : NoDup paths -> In p paths -> men p ->
  exists vss, Forall2 (gives (ty p) p) (flat_map C paths) vss /\ concat vss = S p.
Proof.
  intros Nd Hp M. apply in_split in Hp. destruct Hp as [l1 [l2 ->]]. apply NoDup_remove_2 in Nd. rewrite in_app_iff in Nd.
  destruct (given_other p l1) as [v1 [G1 Z1]]; [tauto|]. destruct (given_other p l2) as [v2 [G2 Z2]]; [tauto|].
  rewrite flat_map_app. cbn [flat_map]. unfold C at 2. rewrite (c_data p M). unfold D.
  destruct (lenN (S p) =? 0) eqn:L.
  - exists (v1 ++ v2). split; [now apply Forall2_app|]. rewrite concat_app, Z1, Z2. apply N.eqb_eq in L.
    destruct (S p); [reflexivity|discriminate].
  - exists (v1 ++ S p :: v2). split; [|rewrite concat_app; cbn [concat]; rewrite Z1, Z2; apply app_nil_r].
    apply Forall2_app; [exact G1|]. constructor; [|exact G2]. rewrite <- (dealt_one (lay p) (S p)) at 2.
    apply (gives_chans (ty p) p (ord p) [p] (S p) (lay p) 0). reflexivity.
Qed.
Lemma given p paths : NoDup paths -> In p paths -> men p ->
  exists vss, Forall2 (gives (ty p) p) (copy E ord lay ty blank F paths) vss /\ concat vss = S p.
Proof.
  intros Nd Hp M. destruct (given_props p paths) as [v1 [G1 Z1]]. destruct (given_data p paths Nd Hp M) as [v2 [G2 Z2]].
  exists (v1 ++ v2). split; [now apply Forall2_app|]. now rewrite concat_app, Z1, Z2.
Qed.

(** *** The copy *)
Lemma keys_same A A' (F1 F2 : tfile) : any_session E A F1 -> any_session E A' F2 ->
  (forall p, mentioned (all_objs A') p <-> mentioned (all_objs A) p) ->
  list_groups F2 = list_groups F1 /\ forall s, list_channels_in_group F2 s = list_channels_in_group F1 s.
Proof.
  intros S1 S2 Me. destruct (session_keys E _ _ S1) as [K1 M1]. destruct (session_keys E _ _ S2) as [K2 M2].
  assert (Ek : all_paths (tf_ix F2) = all_paths (tf_ix F1)).
  { apply sorted_same; [exact K2|exact K1|]. intros p. now rewrite M1, M2. }
  split; [unfold list_groups; now rewrite Ek|]. intros s. unfold list_channels_in_group, paths_starting_with.
  rewrite (range_prefix s _ K1), (range_prefix s _ K2). unfold all_paths in Ek. now rewrite Ek.
Qed.
Lemma props_same A A' (F1 F2 : tfile) : any_session E A F1 -> any_session E A' F2 ->
  (forall p, mentioned (all_objs A') p <-> mentioned (all_objs A) p) ->
  (forall p n, read_property F2 p n = read_property F1 p n) ->
  forall p, read_all_properties F2 p = read_all_properties F1 p.
Proof.
  intros S1 S2 Me Rp p. destruct (C16_read_all E _ _ p S1) as [N1 I1]. destruct (C16_read_all E _ _ p S2) as [N2 I2].
  destruct (read_all_properties F1 p) as [l1|] eqn:E1.
  - destruct (read_all_properties F2 p) as [l2|] eqn:E2.
    + f_equal. apply pairs_same.
      * pose proof (any_session_psorted _ _ _ S2) as Ps. unfold read_all_properties, get_object_properties in E2.
        destruct (map_get p (ix_objs (tf_ix F2))) as [od|] eqn:G; [|discriminate]. injection E2 as <-. exact (Ps _ _ G).
      * pose proof (any_session_psorted _ _ _ S1) as Ps. unfold read_all_properties, get_object_properties in E1.
        destruct (map_get p (ix_objs (tf_ix F1))) as [od|] eqn:G; [|discriminate]. injection E1 as <-. exact (Ps _ _ G).
      * intros [n v]. rewrite (proj2 (I2 l2 eq_refl)), (proj2 (I1 l1 eq_refl)), Rp. tauto.
    + exfalso. apply (proj1 N2 eq_refl). apply Me. destruct (c_dec_all A p) as [Y|Y]; [exact Y|].
      apply (proj2 N1) in Y. discriminate.
  - apply N2. intros X. apply (proj1 N1 eq_refl). now apply Me.
Qed.
Lemma copied paths F' rs : NoDup paths -> (forall p, men p -> In p paths) ->
  run_calls E empty_file (copy E ord lay ty blank F paths) = (F', rs) -> addressable E (tf_bytes F') ->
  Forall (eq (Ok tt)) rs /\ tdms_new E (tf_bytes F') = Ok F' /\ ix_next (tf_ix F') = lenN (tf_bytes F')
  /\ same_contents E ty F F'.
Proof.
  intros Nd Cov Er Ad'. set (cs := copy E ord lay ty blank F paths) in *.
  assert (Sq : sequenced None cs) by (unfold cs, copy; fold P C; apply seq_props, seq_data; [exact Nd|exact Logic.I]).
  assert (Rs : restarts E [] cs) by (unfold cs, copy; fold P C; apply res_props, res_data; [exact Nd|now left]).
  assert (A3 : lenN (tf_bytes F') < 2 ^ 64) by (destruct Ad' as [A1 _]; etransitivity; [exact A1|reflexivity]).
  destruct (program E cs [] empty_file F' rs None (fresh_session E) eq_refl eq_refl Sq Er A3) as [Ok [H' [Se' [Ex' [Men [Pr Sam]]]]]].
  split; [exact Ok|].
  destruct (reopen_run E cs empty_file F' rs (C13_empty E [] eq_refl) eq_refl (calls_good paths) Rs Er Ok (proj2 Ad')) as [Op' Nx'].
  split; [exact Op'|]. split; [exact Nx'|].
  assert (Me : forall p, mentioned (all_objs H') p <-> men p).
  { intros p. rewrite Men. unfold cs. rewrite names_all. split; [intros [[]|[_ X]]; exact X|]. intros M. right. auto. }
  pose proof (session_any _ _ _ Se') as An'.
  assert (Rp : forall p n, read_property F' p n = read_property F p n).
  { intros p n. destruct (property_value E H' F' p n An') as [A' B']. destruct (property_value E H F p n c_any) as [A B].
    destruct (c_dec p) as [M|M]; [|rewrite B, B'; [reflexivity|now rewrite Me|exact M]].
    rewrite A by exact M. rewrite A' by now apply Me. f_equal. rewrite Pr. cbn [all_objs flat_map last_prop fold_left].
    apply told_here; auto. }
  destruct (keys_same H H' F F' c_any An' Me) as [K1 K2].
  split; [exact K1|]. split; [exact K2|]. split; [exact Rp|]. split; [exact (props_same H H' F F' c_any An' Me Rp)|].
  assert (Sp : forall p, men p -> stored (tf_bytes F') (ty p) H' p /\ samples_after (tf_bytes F') (ty p) H' p = S p).
  { intros p M. destruct (given p paths Nd (Cov p M) M) as [vss [G Z]].
    destruct (Sam (ty p) p vss) as [_ [S1 S2]]; [constructor|exact G|]. split; [exact S1|]. rewrite S2, Z. reflexivity. }
  split.
  - intros p. destruct (c_dec p) as [M|M].
    + rewrite (c_length p M). destruct (Sp p M) as [_ S2]. rewrite <- S2, C36_samples_count.
      apply (C19_channel_length E H' F' p Se'); [|now apply Me].
      rewrite <- (C36_samples_count (tf_bytes F') (ty p)), S2. unfold S. rewrite C36_samples_count. now apply Le.
    + rewrite (proj1 (proj2 (C19_channel_length E H F p c_session)) M).
      apply (proj2 (C19_channel_length E H' F' p Se')). now rewrite Me.
  - intros p start out. destruct (c_dec p) as [M|M].
    + rewrite (c_read p start out M). destruct (Sp p M) as [S1 S2].
      rewrite (C28_window E H' F' (ty p) p start out Se' (Fx p M) Ad' (proj2 (Me p) M) S1). now rewrite S2.
    + rewrite (C33_unknown_single E H F (ty p) p start out c_session M).
      apply (C33_unknown_single E H' F' (ty p) p start out Se'). now rewrite Me.
Qed.
End Copy.
