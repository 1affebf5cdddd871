(** * Valid UTF-8 through paths and parsed metadata *)
From Verif Require Import Base Lib Utf8 DataTypes Paths MetaData Maps DataBlock Index TdmsFile SpecCodec SpecPaths SpecIndex SpecSession
  Codec_proofs Parse_proofs Paths_proofs.

Local Notation wf := well_formed_utf8.

Lemma wf_nil : wf [].
Proof. exists []. split; [constructor|reflexivity]. Qed.
Lemma wf_app a b : wf a -> wf b -> wf (a ++ b).
Proof.
  intros [ca [Fa ->]] [cb [Fb ->]]. exists (ca ++ cb). split; [now apply Forall_app|]. now rewrite map_app, concat_app.
Qed.
Lemma ascii_encode b : Byte.to_N b < 128 -> utf8_encode (Byte.to_N b) = [b].
Proof. intros H. unfold utf8_encode. replace (Byte.to_N b <? 128) with true by lia. cbn [map]. now rewrite byte_of_to_N. Qed.
Lemma wf_ascii b : Byte.to_N b < 128 -> wf [b].
Proof.
  intros H. exists [Byte.to_N b]. split; [constructor; [left; lia|constructor]|]. cbn [map concat]. now rewrite ascii_encode.
Qed.
(** The bytes of a character: one below 128, or all of them at least 128. *)
Lemma encode_bytes c : scalar c ->
  (c < 128 /\ utf8_encode c = [byte_of_N c]) \/ Forall (fun b => 128 <= Byte.to_N b) (utf8_encode c).
Proof.
  intros Sc. unfold utf8_encode. destruct (c <? 128) eqn:A; [left; split; [lia|reflexivity]|right].
  assert (Big : forall n, 128 <= n < 256 -> 128 <= Byte.to_N (byte_of_N n)).
  { intros n Hn. rewrite byte_of_N_to_N, N.mod_small by lia. lia. }
  pose proof (N.mod_lt c 64 ltac:(discriminate)) as M0. pose proof (N.mod_lt (c / 64) 64 ltac:(discriminate)) as M1.
  pose proof (N.mod_lt (c / 4096) 64 ltac:(discriminate)) as M2.
  destruct (c <? 2048) eqn:Q1; [|destruct (c <? 65536) eqn:Q2].
  - assert (c / 64 < 32) by (apply N.div_lt_upper_bound; lia).
    cbn [map]. repeat (apply Forall_cons; [apply Big; lia|]). constructor.
  - assert (c / 4096 < 16) by (apply N.div_lt_upper_bound; lia).
    cbn [map]. repeat (apply Forall_cons; [apply Big; lia|]). constructor.
  - assert (c / 262144 < 5) by (apply N.div_lt_upper_bound; [discriminate|]; unfold scalar in Sc; lia).
    cbn [map]. repeat (apply Forall_cons; [apply Big; lia|]). constructor.
Qed.
(** A string can be cut at an ASCII character. *)
Lemma wf_cut b (Hb : Byte.to_N b < 128) a c : wf (a ++ b :: c) -> wf a /\ wf c.
Proof.
  intros [cs [Fs Eq]]. revert a Eq. induction cs as [|x cs IH]; intros a Eq; [destruct a; discriminate|].
  inversion Fs as [|y l Hx Fs']; subst. specialize (IH Fs'). cbn [map concat] in Eq.
  assert (W : wf (concat (map utf8_encode cs))) by (exists cs; auto).
  destruct (encode_bytes x Hx) as [[Lx Ex]|Big].
  - rewrite Ex in Eq. cbn [app] in Eq. destruct a as [|y a]; cbn [app] in Eq.
    + injection Eq as _ ->. split; [apply wf_nil|exact W].
    + injection Eq as -> Eq. destruct (IH a Eq) as [Wa Wc]. split; [|exact Wc].
      apply (wf_app [byte_of_N x] a); [|exact Wa]. rewrite <- Ex. exists [x].
      split; [now constructor|]. cbn [map concat]. now rewrite app_nil_r.
  - assert (Pre : exists a', a = utf8_encode x ++ a').
    { clear -Big Hb Eq. revert a Eq. induction Big as [|y l Hy _ IHl]; intros a Eq; [now exists a|].
      destruct a as [|z a]; cbn [app] in Eq; [injection Eq as -> _; lia|]. injection Eq as -> Eq.
      destruct (IHl a Eq) as [a' ->]. now exists a'. }
    destruct Pre as [a' ->]. rewrite <- app_assoc in Eq. apply app_inv_head in Eq. destruct (IH a' Eq) as [Wa Wc].
    split; [|exact Wc]. apply wf_app; [|exact Wa]. exists [x]. split; [now constructor|]. cbn [map concat]. now rewrite app_nil_r.
Qed.
Lemma wf_tail b c : Byte.to_N b < 128 -> wf (b :: c) -> wf c.
Proof. intros Hb W. now apply (wf_cut b Hb [] c) in W. Qed.
Lemma wf_escape s : wf s -> wf (escape_name s).
Proof.
  intros [cs [Fs ->]]. induction cs as [|x cs IH]; [apply wf_nil|]. inversion Fs as [|y l Hx Fs']; subst.
  cbn [map concat]. unfold escape_name in *. rewrite map_app. apply wf_app; [|now apply IH].
  destruct (encode_bytes x Hx) as [[Lx Ex]|Big].
  - rewrite Ex. cbn [map]. destruct (Byte.eqb (byte_of_N x) squote); [apply wf_ascii; reflexivity|]. apply wf_ascii.
    rewrite byte_of_N_to_N, N.mod_small by lia. exact Lx.
  - replace (map _ (utf8_encode x)) with (utf8_encode x).
    + exists [x]. split; [now constructor|]. cbn [map concat]. now rewrite app_nil_r.
    + symmetry. rewrite <- (map_id (utf8_encode x)) at 2. apply map_ext_in. intros b Hb. rewrite Forall_forall in Big.
      specialize (Big b Hb). destruct (Byte.eqb b squote) eqn:Q; [|reflexivity]. apply byte_eqb_eq in Q. subst b.
      vm_compute in Big. exfalso. now apply Big.
Qed.

(** ** Paths *)
Lemma wf_path_group g : wf g -> wf (path_group g).
Proof.
  intros W. unfold path_group. apply wf_app; [|apply wf_app; [now apply wf_escape|apply wf_ascii; reflexivity]].
  apply (wf_app [slash] [squote]); apply wf_ascii; reflexivity.
Qed.
Lemma wf_path_channel g c : wf g -> wf c -> wf (path_channel g c).
Proof.
  intros Wg Wc. unfold path_channel. apply (wf_app [slash; squote]).
  { apply (wf_app [slash] [squote]); apply wf_ascii; reflexivity. }
  apply wf_app; [now apply wf_escape|]. apply (wf_app [squote; slash; squote]).
  { apply (wf_app [squote] [slash; squote]); [apply wf_ascii; reflexivity|]. apply (wf_app [slash] [squote]); apply wf_ascii; reflexivity. }
  apply wf_app; [now apply wf_escape|apply wf_ascii; reflexivity].
Qed.
Lemma wf_raw_group g : wf (raw_group g) -> wf g.
Proof.
  unfold raw_group. intros W. apply wf_tail in W; [|reflexivity]. apply wf_tail in W; [|reflexivity].
  now apply wf_cut in W; [|reflexivity].
Qed.
Lemma wf_raw_channel g c : wf (raw_channel g c) -> wf g /\ wf c.
Proof.
  unfold raw_channel, raw_group. intros W. cbn [app] in W. apply wf_tail in W; [|reflexivity]. apply wf_tail in W; [|reflexivity].
  rewrite <- app_assoc in W. cbn [app] in W. apply wf_cut in W; [|reflexivity]. destruct W as [Wg W]. split; [exact Wg|].
  apply wf_tail in W; [|reflexivity]. apply wf_tail in W; [|reflexivity]. now apply wf_cut in W; [|reflexivity].
Qed.
Lemma wf_parse s g c : wf s -> parse_path s = Ok (g, c) ->
  (forall x, g = Some x -> wf x) /\ (forall x, c = Some x -> wf x).
Proof.
  intros W P. pose proof (parse_path_inv s) as Q. rewrite P in Q.
  destruct g as [g|], c as [c|]; [| | contradiction |].
  - destruct Q as [_ [_ ->]]. apply wf_raw_channel in W. destruct W. split; intros x X; injection X as <-; assumption.
  - destruct Q as [_ ->]. apply wf_raw_group in W. split; intros x X; [injection X as <-; assumption|discriminate].
  - split; discriminate.
Qed.
Lemma wf_split s : wf s -> Forall wf (split_slash s).
Proof.
  remember (length s) as n eqn:Hn. assert (Le : (length s <= n)%nat) by lia. clear Hn. revert s Le.
  induction n as [|n IH]; intros s Le W.
  - destruct s; [|cbn [length] in Le; lia]. cbn [split_slash]. constructor; [exact W|constructor].
  - destruct (split_inv s) as [p [_ [[-> ->]|[r [-> ->]]]]]; [constructor; [exact W|constructor]|].
    apply wf_cut in W; [|reflexivity]. destruct W as [Wp Wr]. constructor; [exact Wp|]. apply IH; [|exact Wr].
    rewrite app_length in Le. cbn [length] in Le. lia.
Qed.
Lemma wf_strip p x : wf p -> quoted p = true -> strip p = Ok x -> wf x.
Proof.
  intros W Q St. unfold strip in St. destruct (Nat.ltb (length p) 2) eqn:L; [discriminate|]. injection St as <-.
  destruct p as [|b p]; [discriminate|]. cbn [tl]. unfold quoted in Q. apply andb_true_iff in Q. destruct Q as [Q1 Q2].
  apply byte_eqb_eq in Q1, Q2. subst b. apply wf_tail in W; [|reflexivity].
  destruct p as [|y p]; [cbn in L; discriminate|]. assert (Ne : y :: p <> []) by discriminate.
  rewrite (app_removelast_last x00 Ne) in W. change (last (squote :: y :: p) x00) with (last (y :: p) x00) in Q2.
  rewrite Q2 in W. now apply wf_cut in W; [|reflexivity].
Qed.
Lemma wf_levels ps : Forall wf ps -> forall n x, levels_nth n ps = Ok (Some x) -> wf x.
Proof.
  induction 1 as [|p ps Wp _ IH]; intros n x; cbn [levels_nth]; [discriminate|].
  destruct (quoted p) eqn:Q; [|apply IH]. destruct (strip p) as [y| | |] eqn:St; try discriminate. cbn [bind].
  destruct n as [|n]; [|apply IH]. intros X. injection X as <-. eapply wf_strip; eauto.
Qed.
Lemma wf_tl s : wf s -> Forall wf (tl (split_slash s)).
Proof. intros W. apply wf_split in W. destruct W; [constructor|assumption]. Qed.
Lemma wf_try_from s x : wf s -> pp_try_from s = Ok x -> wf x.
Proof.
  intros W. unfold pp_try_from. destruct (parse_path s) as [[g c]| | |] eqn:P; try discriminate. cbn [bind].
  destruct (wf_parse s g c W P) as [Wg Wc]. destruct g as [g|], c as [c|]; intros X; try discriminate; injection X as <-.
  - now apply wf_path_channel; [apply Wg|apply Wc].
  - apply wf_path_group. now apply Wg.
  - apply wf_ascii. reflexivity.
Qed.
Lemma wf_cp_try_from s x : wf s -> cp_try_from s = Ok x -> wf x.
Proof.
  intros W. unfold cp_try_from. destruct (pp_try_from s) as [p| | |] eqn:P; try discriminate. cbn [bind].
  unfold cp_of_pp. destruct (is_channel p); [|discriminate]. intros X. injection X as <-. eapply wf_try_from; eauto.
Qed.
Lemma insert_in x g l : In x (set_insert g l) -> x = g \/ In x l.
Proof.
  induction l as [|y l IH]; cbn [set_insert In]; [intuition|].
  destruct (str_cmp g y); cbn [In]; intuition.
Qed.
Lemma wf_collect ps : Forall wf ps -> forall acc l, Forall wf acc -> collect_groups ps acc = Ok l -> Forall wf l.
Proof.
  induction 1 as [|p ps Wp _ IH]; intros acc l Wa; cbn [collect_groups]; [intros X; injection X as <-; exact Wa|].
  destruct (path_group_name p) as [g| | |] eqn:Pg; try discriminate. cbn [bind]. apply IH.
  destruct g as [g|]; [|exact Wa]. unfold path_group_name in Pg.
  destruct (parse_path p) as [[g' c']| | |] eqn:P; try discriminate. injection Pg as ->.
  destruct (wf_parse p _ _ Wp P) as [Wg _]. apply Forall_forall. intros x Hx. apply insert_in in Hx.
  destruct Hx as [->|Hx]; [now apply Wg|]. rewrite Forall_forall in Wa. now apply Wa.
Qed.
Lemma wf_filter ps : Forall wf ps -> forall l, filter_channels ps = Ok l -> Forall wf l.
Proof.
  induction 1 as [|p ps Wp _ IH]; intros l; cbn [filter_channels]; [intros X; injection X as <-; constructor|].
  destruct (cp_try_from p) as [c| | |] eqn:Cp; try discriminate; [|apply IH].
  destruct (filter_channels ps) as [r| | |]; try discriminate. cbn [bind]. intros X. injection X as <-.
  constructor; [eapply wf_cp_try_from; eauto|now apply IH].
Qed.

(** ** Parsed metadata *)
Definition wf_pval (v : pval) : Prop := match v with PString s => wf s | _ => True end.
Definition wf_obj (o : objmeta) : Prop :=
  wf (om_path o) /\ Forall (fun p => wf (fst p) /\ wf_pval (snd p)) (om_props o).

Lemma wf_dec E e bs s r : dec E e SStr bs = Ok (s, r) -> wf s.
Proof.
  cbn [dec]. unfold dec_str. destruct (dec_uint e 4 bs) as [[n r1]| | |]; try discriminate. cbn [bind].
  destruct (alloc_ok E AString n); [|discriminate]. destruct (read_exact n r1) as [[b r2]| | |]; try discriminate. cbn [bind].
  destruct (utf8_valid b) eqn:U; [|discriminate]. intros X. injection X as <- <-. now apply utf8_valid_iff.
Qed.
Lemma wf_read_pval E e bs v r : read_pval E e bs = Ok (v, r) -> wf_pval v.
Proof.
  unfold read_pval. destruct (read_dtype e bs) as [[d r1]| | |]; try discriminate. cbn [bind]. intros X.
  assert (A : forall A (p : parser A) c, (forall y, wf_pval (c y)) -> read_as p c r1 = Ok (v, r) -> wf_pval v).
  { intros A p c Hc. unfold read_as. destruct (p r1) as [[y r']| | |]; try discriminate. cbn [bind]. intros Y. injection Y as <- _. apply Hc. }
  destruct d; try discriminate X;
    try (refine (A _ _ _ _ X); intros y; exact Logic.I).
  - injection X as <- _. exact Logic.I.
  - unfold read_as in X. destruct (dec E e SStr r1) as [[y r']| | |] eqn:D; try discriminate. cbn [bind] in X.
    injection X as <- _. eapply wf_dec; eauto.
Qed.
Lemma wf_read_props E e : forall fuel count bs ps r, read_props E e fuel count bs = Ok (ps, r) ->
  Forall (fun p => wf (fst p) /\ wf_pval (snd p)) ps.
Proof.
  induction fuel as [|fuel IH]; intros count bs ps r; cbn [read_props];
    (destruct (count =? 0); [intros X; injection X as <- _; constructor|]); [discriminate|].
  destruct (dec E e SStr bs) as [[nm r1]| | |] eqn:D; try discriminate. cbn [bind].
  destruct (read_pval E e r1) as [[v r2]| | |] eqn:V; try discriminate. cbn [bind].
  destruct (read_props E e fuel (N.pred count) r2) as [[rest r3]| | |] eqn:Rp; try discriminate. cbn [bind].
  intros X. injection X as <- _. constructor; [|eapply IH; eauto]. cbn [fst snd].
  split; [eapply wf_dec; eauto|eapply wf_read_pval; eauto].
Qed.
Lemma wf_read_obj E e bs o r : read_obj E e bs = Ok (o, r) -> wf_obj o.
Proof.
  unfold read_obj. destruct (dec E e SStr bs) as [[p r1]| | |] eqn:D; try discriminate. cbn [bind].
  destruct (read_rawidx e r1) as [[i r2]| | |]; try discriminate. cbn [bind].
  destruct (dec_uint e 4 r2) as [[c r3]| | |]; try discriminate. cbn [bind].
  destruct (alloc_ok E AProps c); [|discriminate].
  destruct (read_props E e (S (length r3)) c r3) as [[ps r4]| | |] eqn:Rp; try discriminate. cbn [bind].
  intros X. injection X as <- _. split; cbn [om_path om_props]; [eapply wf_dec; eauto|eapply wf_read_props; eauto].
Qed.
Lemma wf_read_objs E e : forall fuel count bs os r, read_objs E e fuel count bs = Ok (os, r) -> Forall wf_obj os.
Proof.
  induction fuel as [|fuel IH]; intros count bs os r; cbn [read_objs];
    (destruct (count =? 0); [intros X; injection X as <- _; constructor|]); [discriminate|].
  destruct (read_obj E e bs) as [[o r1]| | |] eqn:D; try discriminate. cbn [bind].
  destruct (read_objs E e fuel (N.pred count) r1) as [[rest r3]| | |] eqn:Rp; try discriminate. cbn [bind].
  intros X. injection X as <- _. constructor; [eapply wf_read_obj; eauto|eapply IH; eauto].
Qed.
Lemma wf_segment E f pos s : segment_read E f pos = Ok s ->
  match sg_meta s with Some os => Forall wf_obj os | None => True end.
Proof.
  unfold segment_read. cbv zeta. destruct (read_exact 4 (dropN pos f)) as [[tag r1]| | |]; try discriminate.
  destruct (str_eqb tag TDSm); [|discriminate]. destruct (read_exact 4 r1) as [[tb r2]| | |]; try discriminate. cbn [bind].
  unfold read_segment. cbv zeta. set (t := toc_of_u32 (le_val tb)).
  destruct (dec_uint (toc_endian t) 4 r2) as [[n1 q1]| | |]; try discriminate. cbn [bind].
  destruct (dec_uint (toc_endian t) 8 q1) as [[n2 q2]| | |]; try discriminate. cbn [bind].
  destruct (dec_uint (toc_endian t) 8 q2) as [[n3 q3]| | |]; try discriminate. cbn [bind].
  unfold read_metadata. destruct (dec_uint (toc_endian t) 4 q3) as [[n4 q4]| | |]; try discriminate. cbn [bind].
  destruct (alloc_ok E AObjects n4); [|discriminate].
  destruct (read_objs E (toc_endian t) (S (length q4)) n4 q4) as [[os q5]| | |] eqn:Ro; try discriminate. cbn [bind].
  intros X. injection X as <-. cbn [sg_meta]. eapply wf_read_objs; eauto.
Qed.
Lemma wf_file E f H : file_segments E f H -> Forall wf_obj (all_objs H).
Proof.
  intros [Hs _]. apply Forall_forall. intros o Ho. unfold all_objs in Ho. apply in_flat_map in Ho. destruct Ho as [s [Hin Ho]].
  apply In_nth_error in Hin. destruct Hin as [i Hi]. destruct (Hs i s Hi) as [Rd _]. apply wf_segment in Rd.
  unfold seg_objs in Ho. destruct (sg_meta s) as [os|]; [|contradiction]. rewrite Forall_forall in Rd. now apply Rd.
Qed.
