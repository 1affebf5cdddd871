(** * C90 The index takes memory in proportion to the file *)
From Coq Require Import Strings.String Logic.FinFun.
From Verif Require Import Base Lib Utf8 DataTypes MetaData Maps DataBlock Index RawData ChannelReader TdmsFile Vectors
  SpecCodec SpecIndex SpecSession SpecRead SpecWrite SpecLocal SpecCost SpecBulk Codec_proofs Segment_proofs Index_proofs History_proofs
  Session_proofs Block_proofs Request_proofs Plan_proofs Read_proofs Add_proofs Open_proofs Thm_Index Thm_Read Write_proofs
  Step_proofs Program_proofs Thm_Open Thm_Write Reopen_proofs Thm_Reopen Text_proofs SpecKept Thm_Kept SpecLasting Thm_Lasting.
Close Scope string_scope.

Lemma total_of_app {A} (g : A -> N) l1 l2 : total_of g (l1 ++ l2) = total_of g l1 + total_of g l2.
Proof. unfold total_of. induction l1 as [|x l IH]; cbn [app fold_right]; [reflexivity|]. rewrite IH. lia. Qed.

(** ** An upper bound *)
Lemma act_obj_len l o : lenN (act_obj l o) <= lenN l + 1.
Proof.
  unfold act_obj. destruct (om_idx o); try lia; destruct (existsb (str_eqb (om_path o)) l); try lia;
    rewrite lenN_app; change (lenN [om_path o]) with 1; lia.
Qed.
Lemma act_objs_len os : forall l, lenN (fold_left act_obj os l) <= lenN l + lenN os.
Proof.
  induction os as [|o os IH]; intros l; cbn [fold_left]; [lia|]. specialize (IH (act_obj l o)).
  pose proof (act_obj_len l o). rewrite lenN_cons. lia.
Qed.
Lemma active_len H : lenN (active_after H) <= lenN (all_objs H).
Proof.
  induction H as [|s H IH] using rev_ind; [vm_compute; congruence|].
  rewrite active_after_snoc, all_objs_snoc, lenN_app. unfold act_seg.
  pose proof (act_objs_len (seg_objs s) (if toc_newlist (sg_toc s) then [] else active_after H)) as K.
  destruct (toc_newlist (sg_toc s)); [change (lenN (@nil str)) with 0 in K|]; lia.
Qed.
Lemma formats_len H : lenN (active_formats H) = lenN (active_after H).
Proof. unfold active_formats, lenN. now rewrite map_length. Qed.
Lemma held_bound H : total_of (fun b => lenN (b_chans b)) (blocks_after H) <= lenN H * lenN (all_objs H).
Proof.
  induction H as [|s H IH] using rev_ind; [vm_compute; congruence|].
  rewrite blocks_after_snoc, total_of_app. pose proof (active_len (H ++ [s])) as K.
  assert (X : total_of (fun b => lenN (b_chans b)) (if toc_raw (sg_toc s) then [block_of H s] else []) <= lenN (all_objs (H ++ [s]))).
  { destruct (toc_raw (sg_toc s)); unfold total_of; cbn [fold_right block_of b_chans]; [rewrite formats_len|]; lia. }
  rewrite lenN_app. change (lenN [s]) with 1. rewrite all_objs_snoc, lenN_app in *. nia.
Qed.

(** Whatever file is opened: at most one format for every segment and every
    object in the metadata of the file, and every segment takes 28 bytes. *)
Theorem C90_bound_partial : forall E f F H, tdms_new E f = Ok F -> file_segments E f H ->
  formats_held (tf_ix F) <= lenN H * lenN (all_objs H) /\ 28 * lenN H <= lenN f.
Proof.
  intros E f F H O Fs. pose proof (ss_open E f F H Fs O) as Se. destruct (session_accepted _ _ _ Se) as [A _].
  destruct (accepted_described _ _ _ A) as [_ [_ [_ [_ [_ [_ [_ Hb]]]]]]].
  unfold formats_held. split; [rewrite Hb; apply held_bound|].
  destruct Fs as [Rd _].
  assert (Ho : forall G, 28 * lenN G <= offset G).
  { clear. induction G as [|s G IH] using rev_ind; [vm_compute; congruence|]. rewrite offset_snoc, lenN_app. change (lenN [s]) with 1. lia. }
  clear Se A Hb O. destruct H as [|s0 H0 _] using rev_ind; [change (lenN (@nil segment)) with 0; lia|].
  destruct (Rd (length H0) s0) as [R _]. { rewrite nth_error_app2, Nat.sub_diag by lia. reflexivity. }
  rewrite firstn_app, Nat.sub_diag, firstn_all in R. cbn [firstn] in R. rewrite app_nil_r in R.
  destruct (segment_read_extent E f _ s0 R) as [m [c [_ [_ [_ [L _]]]]]].
  rewrite lenN_app. change (lenN [s0]) with 1. specialize (Ho H0). lia.
Qed.

(** ** A segment of one byte of data *)
Definition pad_write : list byte * segment :=
  write_segment LittleE (mkToc false false false false false false) (Some []) (Some (mkWB 1 [x00])).
Definition pad : list byte := fst pad_write.
Fixpoint pads (m : nat) : list byte := match m with O => [] | S m' => pads m' ++ pad end.

Lemma lenN_pad : lenN pad = 33. Proof. reflexivity. Qed.
Lemma lenN_pads m : lenN (pads m) = 33 * N.of_nat m.
Proof. induction m as [|m IH]; [reflexivity|]. cbn [pads]. rewrite lenN_app, IH, lenN_pad. lia. Qed.

Definition padded (E : env) (act : list str) (fs : list rawmeta) (f : list byte) (ix : index) : Prop :=
  exists H, accepted E H ix /\ Forall plain H /\ build_index E f = Ok ix /\ offset H = lenN f
    /\ active_after H = act /\ active_formats H = fs.

Lemma pad_step E act fs f ix : padded E act fs f ix -> act <> [] -> 1 < chunk_bytes fs < 2 ^ 64 ->
  lenN f + 33 <= seek_max E -> lenN f + 33 < 2 ^ 64 -> alloc_ok E AObjects 0 = true ->
  exists ix', padded E act fs (f ++ pad) ix' /\ formats_held ix' = formats_held ix + lenN act.
Proof.
  intros [H [A [P [B [Eo [Ea Ef]]]]]] Na Ck Hs H64 Al.
  set (s := snd pad_write).
  assert (Aa : active_after (H ++ [s]) = act) by (rewrite active_after_snoc; exact Ea).
  assert (Ao : all_objs (H ++ [s]) = all_objs H) by (rewrite all_objs_snoc; apply app_nil_r).
  assert (Af : active_formats (H ++ [s]) = fs).
  { unfold active_formats in *. rewrite Aa, Ao, <- Ea. exact Ef. }
  assert (Ps : plain s) by constructor.
  destruct (add_segment_ok E H ix s A P Ps) as [ix' Ad].
  - intros o [].
  - rewrite Eo. change (sg_next s) with 5. unfold two64. lia.
  - intros _. split; [reflexivity|]. rewrite Aa, Af. split; [exact Na|]. split; [unfold two64; lia|].
    assert (W : whole_chunks (block_of H s) = 0).
    { unfold whole_chunks. cbn [block_of b_chans b_len]. rewrite Af. change (sg_next s - sg_raw s) with 1.
      destruct (chunk_bytes fs =? 0); [reflexivity|]. apply N.div_small. lia. }
    rewrite W. apply Forall_forall. intros x _. rewrite N.mul_0_r. reflexivity.
  - exists ix'. pose proof (acc_snoc E H ix s ix' _ A Ad) as A'.
    destruct (accepted_described _ _ _ A) as [_ [Hn [_ [_ [_ [_ [_ Hb]]]]]]].
    destruct (accepted_described _ _ _ A') as [_ [_ [_ [_ [_ [_ [_ Hb']]]]]]].
    split.
    + exists (H ++ [s]). split; [exact A'|]. split; [apply Forall_app; auto|]. split; [|split; [|auto]].
      * apply (reopen_one E f ix pad s ix' (offset H + 28 + sg_next s)); auto; [congruence|lia| |].
        -- pose proof (segment_round_trip E LittleE (mkToc false false false false false false) [] (Some (mkWB 1 [x00])) f []) as R.
           rewrite app_nil_r in R. apply R; [|reflexivity]. split; [constructor|]. split; [reflexivity|exact Al].
        -- rewrite lenN_app, lenN_pad, Eo. change (sg_next s) with 5. lia.
      * rewrite offset_snoc, lenN_app, lenN_pad, Eo. change (sg_next s) with 5. lia.
    + unfold formats_held. rewrite Hb, Hb', blocks_after_snoc, total_of_app. change (toc_raw (sg_toc s)) with true. cbv iota.
      f_equal. unfold total_of. cbn [fold_right block_of b_chans]. rewrite Af, <- Ef, formats_len, Ea. lia.
Qed.

Lemma pad_steps E act fs f ix : padded E act fs f ix -> act <> [] -> 1 < chunk_bytes fs < 2 ^ 64 ->
  alloc_ok E AObjects 0 = true -> forall m,
  lenN f + 33 * N.of_nat m <= seek_max E -> lenN f + 33 * N.of_nat m < 2 ^ 64 ->
  exists ix', padded E act fs (f ++ pads m) ix' /\ formats_held ix' = formats_held ix + N.of_nat m * lenN act.
Proof.
  intros Pd Na Ck Al. induction m as [|m IH]; intros Hs H64.
  - exists ix. cbn [pads]. rewrite app_nil_r. split; [exact Pd|lia].
  - destruct IH as [ix1 [Pd1 E1]]; [lia|lia|].
    destruct (pad_step E act fs (f ++ pads m) ix1 Pd1 Na Ck) as [ix2 [Pd2 E2]]; auto; try (rewrite lenN_app, lenN_pads; lia).
    exists ix2. cbn [pads]. rewrite app_assoc. split; [exact Pd2|]. lia.
Qed.

(** Any file with active channels can be made to have an index out of all
    proportion: 33 bytes at its end add a format for each active channel. *)
Theorem C90_each_segment : forall E H F m,
  session E H F -> tdms_new E (tf_bytes F) = Ok F -> exact_end H F ->
  active_after H <> [] -> 1 < chunk_bytes (active_formats H) < 2 ^ 64 -> alloc_ok E AObjects 0 = true ->
  lenN (tf_bytes F) + 33 * N.of_nat m <= seek_max E -> lenN (tf_bytes F) + 33 * N.of_nat m < 2 ^ 64 ->
  exists f F', tdms_new E f = Ok F' /\ lenN f = lenN (tf_bytes F) + 33 * N.of_nat m
    /\ formats_held (tf_ix F') = formats_held (tf_ix F) + N.of_nat m * lenN (active_after H).
Proof.
  intros E H F m Se Op Ex Na Ck Al Hs H64. destruct (session_accepted _ _ _ Se) as [A P].
  assert (Pd : padded E (active_after H) (active_formats H) (tf_bytes F) (tf_ix F)).
  { exists H. apply tdms_new_iff in Op. repeat split; auto. apply Op. }
  destruct (pad_steps E _ _ _ _ Pd Na Ck Al m Hs H64) as [ix' [[H' [_ [_ [B _]]]] Eh]].
  exists (tf_bytes F ++ pads m), (mkTF ix' (tf_bytes F ++ pads m)).
  split; [apply tdms_new_iff; auto|]. split; [rewrite lenN_app, lenN_pads; lia|exact Eh].
Qed.

(** ** Many channels *)
Fixpoint names (L : nat) : list str :=
  match L with O => [[]] | S L' => map (cons x61) (names L') ++ map (cons x62) (names L') end.
Lemma names_count L : lenN (names L) = 2 ^ N.of_nat L.
Proof.
  induction L as [|L IH]; [reflexivity|]. cbn [names]. rewrite lenN_app, !lenN_map. change (lenN (names L) + lenN (names L) = 2 ^ N.of_nat (S L)). rewrite IH, Nnat.Nat2N.inj_succ, N.pow_succ_r'. lia.
Qed.
Lemma names_len L p : In p (names L) -> lenN p = N.of_nat L.
Proof.
  revert p. induction L as [|L IH]; intros p; cbn [names]; [intros [<-|[]]; reflexivity|].
  intros Hin. apply in_app_or in Hin. destruct Hin as [Hin|Hin]; apply in_map_iff in Hin; destruct Hin as [q [<- Hq]];
    apply IH in Hq; rewrite lenN_cons; lia.
Qed.
Lemma names_nodup L : NoDup (names L).
Proof.
  induction L as [|L IH]; cbn [names]; [constructor; [intros []|constructor]|].
  assert (Mp : forall x, NoDup (map (cons x) (names L))).
  { intros x. apply Injective_map_NoDup; [|exact IH]. intros p q X. now injection X. }
  assert (Ap : forall l1 l2 : list str, NoDup l1 -> NoDup l2 -> (forall p, In p l1 -> ~ In p l2) -> NoDup (l1 ++ l2)).
  { clear. induction l1 as [|x l1 IH]; intros l2 N1 N2 D; [exact N2|]. inversion N1; subst. cbn [app]. constructor.
    - intros X. apply in_app_or in X. destruct X as [X|X]; [contradiction|]. apply (D x); [now left|exact X].
    - apply IH; auto. intros p Hp. apply D. now right. }
  apply Ap; auto. intros p Hp Hq. apply in_map_iff in Hp, Hq. destruct Hp as [p1 [<- _]]. destruct Hq as [q1 [X _]]. discriminate.
Qed.
Lemma names_utf8 L p : In p (names L) -> well_formed_utf8 p.
Proof.
  revert p. induction L as [|L IH]; intros p; cbn [names]; [intros [<-|[]]; apply wf_nil|].
  intros Hin. apply in_app_or in Hin. destruct Hin as [Hin|Hin]; apply in_map_iff in Hin; destruct Hin as [q [<- Hq]];
    [change (x61 :: q) with ([x61] ++ q)|change (x62 :: q) with ([x62] ++ q)]; (apply wf_app; [apply wf_ascii; reflexivity|auto]).
Qed.

(** One value for each of [2 ^ L] channels. *)
Definition wide (L : nat) : call := CallChans LittleE SU8 (names L) (repeat 0 (length (names L))) Contigious.

Lemma sum_le {A} (g : A -> N) k l : (forall x, In x l -> g x <= k) -> sumN (map g l) <= k * lenN l.
Proof.
  induction l as [|x l IH]; intros Hk; cbn [map sumN fold_right]; [lia|]. unfold sumN in *.
  rewrite lenN_cons. specialize (Hk x (or_introl eq_refl)) as Hx. assert (fold_right N.add 0 (map g l) <= k * lenN l) by (apply IH; intros; apply Hk; now right). lia.
Qed.

Lemma repeat_len {A} (x : A) n : lenN (repeat x n) = N.of_nat n.
Proof. unfold lenN. now rewrite repeat_length. Qed.
Lemma names_ne L : names L <> [].
Proof. intros X. pose proof (names_count L) as K. rewrite X in K. change (lenN (@nil str)) with 0 in K. pose proof (N.pow_nonzero 2 (N.of_nat L)). lia. Qed.
Lemma chunk_same n l : Forall (fun m => rm_n m * dtype_size (rm_type m) = n) l -> chunk_bytes l = n * lenN l.
Proof.
  induction 1 as [|x l Hx Fl IH]; [change (lenN (@nil rawmeta)) with 0; rewrite N.mul_0_r; reflexivity|]. unfold chunk_bytes in *. cbn [fold_right]. rewrite IH, Hx, lenN_cons. lia.
Qed.

(** What the call leaves. *)
Lemma wide_file E L F r : (0 < L)%nat -> do_call E empty_file (wide L) = (F, r) ->
  32 + 2 ^ N.of_nat L * (N.of_nat L + 29) < 2 ^ 32 -> 2 ^ 32 <= seek_max E ->
  (forall k n, n < 2 ^ 31 -> alloc_ok E k n = true) ->
  exists H, session E H F /\ tdms_new E (tf_bytes F) = Ok F /\ exact_end H F
    /\ active_after H = names L /\ 1 < chunk_bytes (active_formats H) < 2 ^ 64
    /\ lenN (tf_bytes F) = 32 + 2 ^ N.of_nat L * (N.of_nat L + 29) /\ formats_held (tf_ix F) = 2 ^ N.of_nat L
    /\ exists s, H = [s] /\ file_segments E (tf_bytes F) H /\ map om_path (seg_objs s) = names L
       /\ Forall (fun o => om_idx o <> RINone) (seg_objs s).
Proof.
  intros Lp Ew Sz Sk Al. set (k := 2 ^ N.of_nat L) in *.
  assert (Kc : lenN (names L) = k) by apply names_count.
  assert (K2 : 2 <= k). { unfold k. destruct L as [|L']; [lia|]. rewrite Nnat.Nat2N.inj_succ, N.pow_succ_r'. pose proof (N.pow_nonzero 2 (N.of_nat L')). lia. }
  set (vs := repeat 0 (length (names L)) : list (carrier SU8)).
  assert (Kv : lenN vs = k) by (unfold vs; rewrite repeat_len; exact Kc).
  assert (Fx : fixed SU8) by (repeat split; discriminate).
  assert (Dv : lenN vs mod lenN (names L) = 0) by (rewrite Kv, Kc; apply N.mod_same; lia).
  assert (Nc : ~ continues (active_after []) (names L)) by (intros [X _]; apply X; reflexivity).
  pose proof (fresh_session E) as Se0.
  cbn [wide do_call] in Ew. fold vs in Ew.
  destruct (the_segment E LittleE [] empty_file SU8 (names L) vs Contigious Se0 Fx (names_nodup L) (names_ne L) Dv)
    as [omit [s [bs [Est [Ho [Ebs [Traw [_ [_ [Snext [_ [Lbs [So [Ac _]]]]]]]]]]]]]].
  destruct omit; [exfalso; apply Nc; now apply Ho|].
  assert (Em : metadata_size (call_objs (tf_ix empty_file) (call_meta SU8 vs (names L)) (names L)) = 4 + k * (N.of_nat L + 28)).
  { unfold metadata_size. f_equal. rewrite <- Kc. unfold call_objs. rewrite map_map.
    assert (G : forall l, (forall p, In p l -> lenN p = N.of_nat L) ->
      sumN (map (fun p => obj_size (mkObj p [] (match channel_format (tf_ix empty_file) p with
                 | Some last => if rawmeta_eqb last (call_meta SU8 vs (names L)) then RIMatch else RIRaw (call_meta SU8 vs (names L))
                 | None => RIRaw (call_meta SU8 vs (names L)) end))) l) = lenN l * (N.of_nat L + 28)).
    { clear. induction l as [|p l IH]; intros Hl; [reflexivity|]. cbn [map sumN fold_right]. unfold sumN in *. rewrite IH by (intros; apply Hl; now right).
      rewrite lenN_cons. specialize (Hl p (or_introl eq_refl)). unfold obj_size. cbn [om_path om_idx om_props map fold_right val_size].
      change (channel_format (tf_ix empty_file) p) with (@None rawmeta). cbn [rawidx_size]. unfold sumN. cbn [map fold_right]. lia. }
    apply G. apply names_len. }
  assert (Lb : lenN bs = 32 + k * (N.of_nat L + 29)).
  { apply (f_equal fst) in Ebs. cbn [fst] in Ebs. rewrite Ebs, write_segment_len, Em. cbn [slice_block wb_bytes]. rewrite data_len by exact Fx.
    rewrite Kv. change (size_bytes SU8) with 1. unfold LEAD_IN. lia. }
  assert (Eb : tf_bytes F = bs).
  { unfold write_channels_e in Ew. rewrite Est in Ew. destruct (add_segment E (tf_ix empty_file) s). injection Ew as <- _. reflexivity. }
  assert (Gv : good_values SU8 (names L) vs).
  { split; [exact Fx|]. split; [|split; [apply names_nodup|split; [apply names_ne|split; [|exact Dv]]]].
    - apply Forall_forall. intros x Hx. apply repeat_spec in Hx. subst x. reflexivity.
    - intros X. rewrite X in Kv. change (lenN (@nil (carrier SU8))) with 0 in Kv. lia. }
  assert (Gs : Forall (good_str E) (names L)).
  { apply Forall_forall. intros p Hp. pose proof (names_len L p Hp) as Lp1.
    split; [exact (names_utf8 L p Hp)|]. cbn. rewrite Lp1. split; [|apply Al]; nia. }
  destruct Gv as [_ [Rv [Nd [Ne [Nv _]]]]].
  destruct (write_step E LittleE [] empty_file SU8 (names L) vs Contigious Se0 eq_refl Fx Rv Nd Ne Nv Dv (or_introl Nc) F r Ew)
    as [-> [s' [bs' [Wr [_ [_ [Ex1 [Act [Lf _]]]]]]]]].
  { rewrite Eb, Lb. etransitivity; [exact Sz|reflexivity]. }
  pose proof (ss_write E [] empty_file s' F Se0 Wr) as Se2.
  pose proof (ss_write E [] empty_file s F Se0 (wrote_chans E empty_file LittleE SU8 (names L) vs Contigious bs s F (Ok tt) Est Ew)) as Se1.
  cbn [app] in *. clear Ex1 Act. rename Ac into Act.
  assert (Af : Forall (fun m => rm_n m * dtype_size (rm_type m) = 1) (active_formats [s])).
  { unfold active_formats. rewrite Act. apply Forall_forall. intros m Hm. apply in_map_iff in Hm. destruct Hm as [p [<- Hp]].
    rewrite <- (proj1 (proj2 (C14_incremental E [s] F Se1)) p), (proj1 (proj2 (C14_incremental E [s'] F Se2)) p).
    rewrite (Lf Nc p Hp). unfold call_meta. cbn [rm_n rm_type]. rewrite Kv, Kc, N.div_same by lia. reflexivity. }
  pose proof (chunk_same 1 _ Af) as Ck. rewrite formats_len, Act, Kc in Ck.
  assert (Gc : good_call E (wide L)).
  { cbn [wide good_call]. fold vs. rewrite Kv, Kc. split; [exact Gs|].
    split; [nia|]. split; [nia|]. split; [apply Al; reflexivity|]. split; [apply Al; nia|]. split; discriminate. }
  assert (Ex1 : exact_end [s] F).
  { unfold exact_end. rewrite Eb, Lbs. change [s] with ([] ++ [s]). rewrite offset_snoc. reflexivity. }
  exists [s]. split; [exact Se1|]. split; [|split; [exact Ex1|split; [exact Act|split; [|split; [|split]]]]].
  - assert (P : Forall proper [wide L]).
    { constructor; [|constructor]. cbn [wide proper]. fold vs. split; [exact Fx|]. auto. }
    assert (Rc : run_calls E empty_file [wide L] = (F, [Ok tt])).
    { cbn [run_calls wide do_call]. fold vs. now rewrite Ew. }
    refine (proj2 (lasting_if E [] empty_file [wide L] Se0 (C13_empty E [] eq_refl) eq_refl P (Forall_cons _ Gc (Forall_nil _)) _ _ [wide L] [] F [Ok tt] eq_refl Rc)).
    + cbn [wide fresh_lists]. auto.
    + rewrite Rc. cbn [fst]. unfold addressable. rewrite Eb, Lb. lia.
  - lia.
  - now rewrite Eb.
  - destruct (session_accepted _ _ _ Se1) as [A _]. destruct (accepted_described _ _ _ A) as [_ [_ [_ [_ [_ [_ [_ Hb]]]]]]].
    unfold formats_held. rewrite Hb. unfold blocks_after. cbn [blocks_from app]. rewrite Traw.
    unfold total_of. cbn [app fold_right block_of b_chans]. rewrite formats_len. cbn [app]. rewrite Act, Kc. lia.
  - exists s. split; [reflexivity|]. split; [|split].
    + split; [|left; unfold exact_end in Ex1; lia].
      intros i x Hi. destruct i as [|i]; [|destruct i; discriminate]. injection Hi as <-. cbn [firstn].
      change (offset []) with 0. split; [|lia]. rewrite Eb.
      pose proof (good_call_meta E empty_file (wide L) Gc) as Gm. cbn [wide] in Gm. fold vs in Gm.
      pose proof (segment_round_trip E LittleE (call_toc Contigious false) _ (Some (slice_block LittleE SU8 vs)) [] [] Gm) as R.
      cbn [app] in R. rewrite app_nil_r, <- Ebs in R. cbn [fst snd] in R. apply R.
      rewrite Em. cbn [slice_block wb_size]. rewrite Kv. change (size_bytes SU8) with 1. apply (N.lt_trans _ (2 ^ 32)); [lia|reflexivity].
    + rewrite So. unfold call_objs. rewrite map_map. cbn [om_path]. apply map_id.
    + rewrite So. unfold call_objs. apply Forall_forall. intros o Hin. apply in_map_iff in Hin. destruct Hin as [p [<- _]]. cbn [om_idx].
      destruct (channel_format (tf_ix empty_file) p) as [x|]; [destruct (rawmeta_eqb x (call_meta SU8 vs (names L)))|]; discriminate.
Qed.

(** [2 ^ L] channels, each with a value, and [m] bytes more, each in a segment of
    its own. *)
Theorem C90_family : forall E L m, (0 < L)%nat ->
  let k := 2 ^ N.of_nat L in let size := 32 + k * (N.of_nat L + 29) + 33 * m in
  size < 2 ^ 32 -> 2 ^ 32 <= seek_max E -> (forall a n, n < 2 ^ 31 -> alloc_ok E a n = true) ->
  exists f F, tdms_new E f = Ok F /\ lenN f = size /\ formats_held (tf_ix F) = k * (m + 1).
Proof.
  intros E L m Lp k size Sz Sk Al. unfold size in *. clear size.
  destruct (do_call E empty_file (wide L)) as [F r] eqn:Ew.
  destruct (wide_file E L F r Lp Ew) as [H [Se [Op [Ex [Act [Ck [Lb [Hh _]]]]]]]]; auto; [fold k; lia|]. fold k in Lb, Hh.
  destruct (C90_each_segment E H F (N.to_nat m) Se Op Ex) as [f [F' [Op' [Lf Hf]]]]; auto.
  - rewrite Act. apply names_ne.
  - apply Al. reflexivity.
  - rewrite Nnat.N2Nat.id. lia.
  - rewrite Nnat.N2Nat.id. apply (N.lt_trans _ (2 ^ 32)); [lia|reflexivity].
  - exists f, F'. split; [exact Op'|]. rewrite Nnat.N2Nat.id in *. split; [lia|]. rewrite Hf, Hh, Act, names_count. fold k. lia.
Qed.

(** So no small multiple of the size of the file is enough: 1.3 MB make an index
    of 268 million formats, of 3 GB it has [2 ^ 50]. *)
Theorem C90_proportional_refuted :
  (exists f F, tdms_new dbg f = Ok F /\ lenN f <= 1300000 /\ 200 * lenN f < formats_held (tf_ix F))
  /\ (exists f F, tdms_new dbg f = Ok F /\ lenN f <= 3000000000 /\ 2 ^ 50 <= formats_held (tf_ix F)).
Proof.
  assert (Al : forall a n, n < 2 ^ 31 -> alloc_ok dbg a n = true) by (intros a n Hn; apply N.ltb_lt; exact Hn).
  split.
  - destruct (C90_family dbg 14 16384) as [f [F [O [Lf Hf]]]]; [lia|reflexivity|discriminate|exact Al|].
    exists f, F. split; [exact O|]. rewrite Lf, Hf. split; [discriminate|reflexivity].
  - destruct (C90_family dbg 25 (2 ^ 25)) as [f [F [O [Lf Hf]]]]; [lia|reflexivity|discriminate|exact Al|].
    exists f, F. split; [exact O|]. rewrite Lf, Hf. split; discriminate.
Qed.

(** A small one: two channels, then three bytes, computed. *)
Definition C90_small : list byte := tf_bytes (fst (do_call dbg empty_file (wide 1))) ++ pads 3.
Example C90_case : exists F, tdms_new dbg C90_small = Ok F /\ lenN C90_small = 191 /\ formats_held (tf_ix F) = 8
  /\ map (fun b => b_len b) (ix_blocks (tf_ix F)) = [2; 1; 1; 1].
Proof.
  destruct (tdms_new dbg C90_small) as [F| | |] eqn:O; [|exfalso; vm_compute in O; discriminate..].
  exists F. split; [reflexivity|]. split; [vm_compute; reflexivity|]. vm_compute in O. injection O as <-. split; reflexivity.
Qed.
(** Its first part meets the hypotheses of [C90_each_segment], all of it those of
    [C90_bound_partial]. *)
Example C90_case_bound : exists F H, tdms_new dbg C90_small = Ok F /\ file_segments dbg C90_small H.
Proof.
  destruct C90_case as [F [O _]]. destruct (C14_open_is_session dbg _ F O) as [H [Fs _]]. eauto.
Qed.
Example C90_case_segment : exists F H, session dbg H F /\ tdms_new dbg (tf_bytes F) = Ok F /\ exact_end H F
  /\ active_after H <> [] /\ 1 < chunk_bytes (active_formats H) < 2 ^ 64.
Proof.
  destruct (do_call dbg empty_file (wide 3)) as [F r] eqn:Ew.
  destruct (wide_file dbg 3 F r ltac:(lia) Ew) as [H [Se [Op [Ex [Act [Ck _]]]]]]; [reflexivity|discriminate|intros a n Hn; apply N.ltb_lt; exact Hn|].
  exists F, H. repeat split; auto; [|lia|lia]. rewrite Act. discriminate.
Qed.
Print Assumptions C90_bound_partial.
Print Assumptions C90_each_segment.
Print Assumptions C90_family.
Print Assumptions C90_proportional_refuted.
