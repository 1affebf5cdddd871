(** * C100 Copying a file through the library *)
From Coq Require Import Strings.String.
From Verif Require Import Base Lib DataTypes Paths MetaData Maps DataBlock Index RawData ChannelReader TdmsFile Vectors
  SpecCodec SpecIndex SpecSession SpecPaths SpecRead SpecWrite SpecLocal SpecCopy Maps_proofs
  Index_proofs Session_proofs Open_proofs Paths_proofs Thm_Index Thm_Paths Thm_Read Thm_Reopen Copy_proofs.
Close Scope string_scope.

(** Whoever made the file and however its data are laid out: if its channels are
    of fixed-size types, the copy is written without error, opens, ends with its
    last segment, and gives the same answers. *)
Theorem C100_copy : forall E ord lay ty blank f F H paths F' rs,
  tdms_new E f = Ok F -> file_segments E f H -> addressable E f ->
  (forall p, mentioned (all_objs H) p -> fixed (ty p) /\ stored f (ty p) H p /\ length_after H p < 2 ^ 64) ->
  enough_room E F -> NoDup paths -> (forall p, mentioned (all_objs H) p -> In p paths) ->
  run_calls E empty_file (copy E ord lay ty blank F paths) = (F', rs) -> addressable E (tf_bytes F') ->
  Forall (eq (Ok tt)) rs /\ tdms_new E (tf_bytes F') = Ok F' /\ ix_next (tf_ix F') = lenN (tf_bytes F')
  /\ same_contents E ty F F'.
Proof.
  intros E ord lay ty blank f F H paths F' rs Op Fs Ad Ch Ro Nd Cov Er Ad'.
  apply (copied E ord lay ty blank f F H Op Fs Ad) with (paths := paths); auto; intros p M; now apply Ch.
Qed.

(** The program need not know the paths: the library lists them, if all objects
    have well-formed paths. *)
Lemma NoDup_flat {A B} (g : A -> list B) (l : list A) :
  NoDup l -> (forall x, In x l -> NoDup (g x)) -> (forall x y z, In x l -> In y l -> In z (g x) -> In z (g y) -> x = y) ->
  NoDup (flat_map g l).
Proof.
  induction l as [|x l IH]; intros Nd Ng Ap; [constructor|]. inversion Nd as [|? ? Nx Nd']; subst. cbn [flat_map].
  assert (R : NoDup (flat_map g l)).
  { apply IH; [exact Nd'|intros y Hy; apply Ng; now right|]. intros a b0 z Ha Hb. apply Ap; now right. }
  assert (D : forall z, In z (g x) -> ~ In z (flat_map g l)).
  { intros z Hz X. apply in_flat_map in X. destruct X as [y [Hy Hzy]]. apply Nx.
    rewrite (Ap x y z (or_introl eq_refl) (or_intror Hy) Hz Hzy). exact Hy. }
  specialize (Ng x (or_introl eq_refl)). revert Ng D. clear - R. generalize (g x) as u. induction u as [|z u IH]; intros Nu D; [exact R|].
  inversion Nu as [|? ? Nz Nu']; subst. cbn [app]. constructor; [|apply IH; [exact Nu'|intros w Hw; apply D; now right]].
  rewrite in_app_iff. intros [X|X]; [exact (Nz X)|]. apply (D z); [now left|exact X].
Qed.
Theorem C100_listed : forall E H F, any_session E H F -> (forall p, mentioned (all_objs H) p -> canonical p) ->
  NoDup (listed F) /\ forall p, mentioned (all_objs H) p -> In p (listed F).
Proof.
  intros E H F Se Can. unfold listed.
  destruct (C25_list_groups E H F Se) as [gs [-> [_ [Ng Hg]]]]; [intros p M; now apply canonical_not_lone, Can|].
  assert (Q : forall g, In g gs -> noslash g /\ noquote g).
  { intros g X. apply Hg in X. destruct X as [p [M [Ns [->|[c [Nc ->]]]]]]; split; auto.
    - destruct (Can _ M) as [X|[[g' [_ [Qg X]]]|[g' [c' [_ [_ [_ [_ X]]]]]]]]; [discriminate| |].
      + apply raw_group_eq in X. now subst.
      + exfalso. now apply raw_group_channel_slash in X.
    - now apply (canonical_channel g c (Can _ M) Ns). }
  assert (Lg : forall g, In g gs -> exists l, list_channels_in_group F (path_group g) = Ok l /\ NoDup l
     /\ forall x, In x l <-> exists c, noslash c /\ x = path_channel g c /\ mentioned (all_objs H) x).
  { intros g X. destruct (C26_list_channels E H F g Se Can (proj1 (Q g X))) as [l [A [_ [B C]]]]. eauto. }
  assert (Pg : forall g, In g gs -> path_group g = raw_group g).
  { intros g X. rewrite path_group_raw, (escape_id g (proj2 (Q g X))). reflexivity. }
  assert (Ch : forall g x l, In g gs -> list_channels_in_group F (path_group g) = Ok l -> In x l ->
     exists c, noslash c /\ x = raw_channel g c).
  { intros g x l X Y Z. destruct (Lg g X) as [l' [A [_ B]]]. rewrite A in Y. injection Y as <-. apply B in Z.
    destruct Z as [c [Nc [-> M]]]. exists (escape_name c). split; [now apply escape_noslash|].
    rewrite path_channel_raw, (escape_id g (proj2 (Q g X))). reflexivity. }
  split.
  - constructor.
    { intros X. apply in_app_or in X. destruct X as [X|X].
      - apply in_map_iff in X. destruct X as [g [X Y]]. discriminate.
      - apply in_flat_map in X. destruct X as [g [X Y]]. destruct (Lg g X) as [l [A [_ B]]]. rewrite A in Y.
        apply B in Y. destruct Y as [c [_ [Y _]]]. discriminate. }
    assert (N1 : NoDup (map path_group gs)).
    { clear - Ng Pg. induction Ng as [|g gs Ng' Nd IH]; [constructor|]. cbn [map].
      constructor; [|apply IH; intros h Hh; apply Pg; now right].
      intros X. apply in_map_iff in X. destruct X as [h [X Y]]. rewrite (Pg g (or_introl eq_refl)), (Pg h (or_intror Y)) in X.
      apply raw_group_eq in X. subst h. contradiction. }
    assert (N2 : NoDup (flat_map (fun g => match list_channels_in_group F (path_group g) with Ok l => l | _ => [] end) gs)).
    { apply NoDup_flat; [exact Ng| |].
      - intros g X. destruct (Lg g X) as [l [-> [Nl _]]]. exact Nl.
      - intros g h z X Y Zg Zh. destruct (Lg g X) as [l [A _]]. destruct (Lg h Y) as [l' [A' _]]. rewrite A in Zg. rewrite A' in Zh.
        destruct (Ch g z l X A Zg) as [c [Nc E1]]. destruct (Ch h z l' Y A' Zh) as [c' [Nc' E2]]. subst z.
        apply raw_channel_eq_slash in E2; [tauto|apply Q; assumption|apply Q; assumption]. }
    assert (D : forall x, In x (map path_group gs) ->
      ~ In x (flat_map (fun g => match list_channels_in_group F (path_group g) with Ok l => l | _ => [] end) gs)).
    { intros x X Y. apply in_map_iff in X. destruct X as [g [<- X]]. apply in_flat_map in Y. destruct Y as [h [Y Z]].
      destruct (Lg h Y) as [l [A _]]. rewrite A in Z. destruct (Ch h _ l Y A Z) as [c [Nc E1]].
      rewrite (Pg g X) in E1. apply raw_group_channel_slash in E1; [exact E1|apply Q; assumption]. }
    revert N1 D N2. generalize (map path_group gs) as u.
    generalize (flat_map (fun g => match list_channels_in_group F (path_group g) with Ok l => l | _ => [] end) gs) as v.
    clear. intros v u Nu D Nv. induction Nu as [|x u Nx Nu IH]; [exact Nv|]. cbn [app]. constructor.
    + rewrite in_app_iff. intros [X|X]; [exact (Nx X)|]. apply (D x); [now left|exact X].
    + apply IH. intros y Hy. apply D. now right.
  - intros p M. destruct (Can p M) as [->|[[g [Ns [Qg ->]]]|[g [c [Ns [Qg [Nc [Qc ->]]]]]]]].
    + now left.
    + right. apply in_or_app. left. assert (X : In g gs) by (apply Hg; exists (raw_group g); split; [exact M|split; [exact Ns|now left]]).
      apply in_map_iff. exists g. split; [now apply Pg|exact X].
    + right. apply in_or_app. right.
      assert (X : In g gs) by (apply Hg; exists (raw_channel g c); split; [exact M|split; [exact Ns|right; eauto]]).
      apply in_flat_map. exists g. split; [exact X|]. destruct (Lg g X) as [l [-> [_ B]]]. apply B. exists c.
      assert (Ep : path_channel g c = raw_channel g c) by now rewrite path_channel_raw, !escape_id. rewrite Ep. auto.
Qed.

(** Files with the same contents have the same copy, byte for byte; so copying the
    copy changes nothing. *)
Theorem C100_normal : forall E ord lay ty blank F1 F2, same_contents E ty F1 F2 ->
  listed F2 = listed F1
  /\ forall paths, copy E ord lay ty blank F2 paths = copy E ord lay ty blank F1 paths.
Proof.
  intros E ord lay ty blank F1 F2 [G [C [_ [A [L R]]]]]. split.
  - unfold listed. rewrite G. destruct (list_groups F1); try reflexivity. f_equal. f_equal. apply flat_map_ext. intros g. now rewrite C.
  - intros paths. unfold copy. f_equal; apply flat_map_ext; intros p.
    + unfold copy_props. now rewrite A.
    + unfold copy_data. rewrite L. destruct (channel_length E F1 p) as [[n|]| | |]; try reflexivity.
      unfold read_channel. now rewrite R.
Qed.
(** Together: the whole program. *)
Theorem C100_program : forall E ord lay ty blank f F H F' rs,
  tdms_new E f = Ok F -> file_segments E f H -> addressable E f ->
  (forall p, mentioned (all_objs H) p ->
     canonical p /\ fixed (ty p) /\ stored f (ty p) H p /\ length_after H p < 2 ^ 64) ->
  enough_room E F ->
  run_calls E empty_file (copy E ord lay ty blank F (listed F)) = (F', rs) -> addressable E (tf_bytes F') ->
  Forall (eq (Ok tt)) rs /\ tdms_new E (tf_bytes F') = Ok F' /\ same_contents E ty F F'
  /\ run_calls E empty_file (copy E ord lay ty blank F' (listed F')) = (F', rs).
Proof.
  intros E ord lay ty blank f F H F' rs Op Fs Ad Ch Ro Er Ad'. assert (Se : session E H F) by (eapply ss_open; eauto).
  destruct (C100_listed E H F (session_any _ _ _ Se)) as [Nd Cov]; [intros p M; now apply Ch|].
  destruct (C100_copy E ord lay ty blank f F H (listed F) F' rs Op Fs Ad) as [A [B [_ C]]]; auto.
  { intros p M. now apply Ch. }
  split; [exact A|]. split; [exact B|]. split; [exact C|].
  destruct (C100_normal E ord lay ty blank F F' C) as [-> ->]. exact Er.
Qed.

(** ** A file of two parts, made by different programs: two byte orders, both
    layouts, three element types, properties given twice, a channel in both
    parts. *)
Definition C100_a := ch "g" "a".
Definition C100_b := ch "g" "b".
Definition C100_c := ch "h" "c".
Definition C100_file : list byte :=
  tf_bytes (fst (run_calls dbg empty_file
    [CallProps LittleE (B "/'g'") [(B "unit", PString (B "V")); (B "n", PI32 5)];
     CallChans BigE SI32 [C100_a; C100_b] [1; 11; 2; 12; 3; 13]%Z Interleaved]))
  ++ tf_bytes (fst (run_calls dbg empty_file
    [CallChans LittleE SI32 [C100_b] [14; 15]%Z Contigious;
     CallChans LittleE SF64 [C100_c] [7; 8; 9] Contigious;
     CallProps BigE (B "/'g'") [(B "unit", PString (B "mV"))]; CallProps BigE (B "/") [(B "ok", PBoolean true)]])).
Definition C100_ty (p : str) : sty := if str_eqb p C100_c then SF64 else SI32.
Definition C100_blank (t : sty) : carrier t :=
  match t return carrier t with
  | SBool => false | SStr => [] | SI8 => 0%Z | SI16 => 0%Z | SI32 => 0%Z | SI64 => 0%Z
  | SC32 => (0, 0) | SC64 => (0, 0) | SU8 | SU16 | SU32 | SU64 | SF32 | SF64 | SExt | STime => 0
  end.
Definition C100_copied : tfile :=
  fst (run_calls dbg empty_file (copy dbg (fun _ => LittleE) (fun _ => Contigious) C100_ty C100_blank (open_bytes dbg C100_file) (listed (open_bytes dbg C100_file)))).
(** [stored], checked by computation. *)
Definition whole_check (f : list byte) (b : dblock) : bool :=
  match b_chans b with
  | [] => false
  | m :: _ => let c := b_len b / sub_bytes (b_chans b) in
    (0 <? rm_n m) && (0 <? c) && forallb (fun x => (rm_n x =? rm_n m) && (0 <? width (rm_type x))) (b_chans b)
    && (b_len b =? c * sub_bytes (b_chans b)) && (b_start b + c * sub_bytes (b_chans b) <=? lenN f)
  end.
Definition stored_check (f : list byte) (t : sty) (bs : list dblock) (ls : list loc) : bool :=
  forallb (fun l => match nth_error bs (l_block l) with
    | Some b => whole_check f b && match nth_error (b_chans b) (l_chan l) with
                                   | Some m => existsb (dtype_eqb (rm_type m)) (stored_as t) | None => false end
    | None => false end) ls.
Lemma whole_check_ok f b : whole_check f b = true -> whole_block f b.
Proof.
  unfold whole_check, whole_block. destruct (b_chans b) as [|m ms] eqn:Eb; [discriminate|]. cbv zeta.
  set (c := b_len b / sub_bytes (m :: ms)). intros X. apply andb_prop in X. destruct X as [X X5]. apply andb_prop in X. destruct X as [X X4].
  apply andb_prop in X. destruct X as [X X3]. apply andb_prop in X. destruct X as [X1 X2].
  exists (rm_n m), c. split; [now apply N.ltb_lt|]. split; [now apply N.ltb_lt|]. split; [discriminate|]. split.
  { apply Forall_forall. intros x Hx. rewrite forallb_forall in X3. specialize (X3 x Hx). apply andb_prop in X3. destruct X3 as [Y1 Y2].
    split; [now apply N.eqb_eq|now apply N.ltb_lt]. }
  split; [|now apply N.leb_le]. unfold chunks. rewrite Eb. destruct (b_layout b); [now apply N.eqb_eq|reflexivity].
Qed.
Lemma dtype_eqb_true d d' : dtype_eqb d d' = true -> d = d'.
Proof. destruct d, d'; (reflexivity || discriminate). Qed.
Lemma stored_check_ok E f t H F p ls : session E H F -> mentioned (all_objs H) p -> get_positions (tf_ix F) p = Some ls ->
  stored_check f t (ix_blocks (tf_ix F)) ls = true -> stored f t H p.
Proof.
  intros Se M G X. destruct (C14_incremental E H F Se) as [_ [_ [_ [Eb [Gp _]]]]]. rewrite (Gp p M) in G. injection G as <-.
  rewrite Eb in X. unfold stored. apply Forall_forall. intros l Hl. unfold stored_check in X. rewrite forallb_forall in X.
  specialize (X l Hl). destruct (nth_error (blocks_after H) (l_block l)) as [b|]; [|discriminate].
  apply andb_prop in X. destruct X as [X1 X2]. destruct (nth_error (b_chans b) (l_chan l)) as [m|] eqn:Em; [|discriminate].
  exists b, m. split; [reflexivity|]. split; [now apply whole_check_ok|]. split; [exact Em|].
  apply existsb_exists in X2. destruct X2 as [d [Hd X2]]. rewrite (dtype_eqb_true _ _ X2). exact Hd.
Qed.
Example C100_case : exists H, let f := C100_file in let F := open_bytes dbg f in let F' := C100_copied in
  tdms_new dbg f = Ok F /\ file_segments dbg f H /\ addressable dbg f
  /\ (forall p, mentioned (all_objs H) p ->
        canonical p /\ fixed (C100_ty p) /\ stored f (C100_ty p) H p /\ length_after H p < 2 ^ 64)
  /\ enough_room dbg F /\ addressable dbg (tf_bytes F')
  /\ listed F = [B "/"; B "/'g'"; B "/'h'"; C100_a; C100_b; C100_c]
  /\ read_all_properties F' (B "/'g'") = Some [(B "n", PI32 5); (B "unit", PString (B "mV"))]
  /\ read_channel dbg F' SI32 C100_b (repeat 0%Z 6) = ([11; 12; 13; 14; 15; 0]%Z, Ok tt)
  /\ tf_bytes F' <> f.
Proof.
  assert (Op : tdms_new dbg C100_file = Ok (open_bytes dbg C100_file)) by (vm_compute; reflexivity).
  destruct (C14_open_is_session dbg C100_file _ Op) as [H [Fs [Se _]]]. exists H. cbv zeta.
  destruct (session_keys dbg H _ (session_any _ _ _ Se)) as [_ Hk].
  assert (K : all_paths (tf_ix (open_bytes dbg C100_file)) = [B "/"; B "/'g'"; C100_a; C100_b; C100_c]) by (vm_compute; reflexivity).
  rewrite K in Hk. clear K.
  assert (Al : forall p, mentioned (all_objs H) p -> p = B "/" \/ p = B "/'g'" \/ p = C100_a \/ p = C100_b \/ p = C100_c).
  { intros p M. apply Hk in M. destruct M as [<-|[<-|[<-|[<-|[<-|[]]]]]]; auto 6. }
  split; [exact Op|]. split; [exact Fs|]. split; [vm_compute; split; [reflexivity|discriminate]|].
  split.
  { assert (Cn : forall g c, noslash g -> noslash c -> canonical path_file /\ canonical (path_group g) /\ canonical (path_channel g c)) by apply C26_constructed_canonical.
    assert (Ng : forall s, forallb (fun b => negb (Byte.eqb b x2f)) s = true -> noslash s).
    { intros s X Y. rewrite forallb_forall in X. specialize (X _ Y). vm_compute in X. discriminate. }
    assert (Ln : forall p ls, mentioned (all_objs H) p -> get_positions (tf_ix (open_bytes dbg C100_file)) p = Some ls ->
      length_after H p = fold_right (fun l a => l_n l + a) 0 ls).
    { intros p ls M G. destruct (C14_incremental dbg H _ Se) as [_ [_ [_ [_ [Gp _]]]]]. rewrite (Gp p M) in G. injection G as <-.
      unfold length_after. rewrite <- (locs_sum p H []). reflexivity. }
    intros p M. split; [|split; [|split]].
    - destruct (Al p M) as [->|[->|[->|[->| ->]]]].
      + now left.
      + apply (Cn (B "g") (B "g")); apply Ng; reflexivity.
      + apply (Cn (B "g") (B "a")); apply Ng; reflexivity.
      + apply (Cn (B "g") (B "b")); apply Ng; reflexivity.
      + apply (Cn (B "h") (B "c")); apply Ng; reflexivity.
    - unfold C100_ty. destruct (str_eqb p C100_c); repeat split; discriminate.
    - destruct (Al p M) as [->|[->|[->|[->| ->]]]];
        (eapply (stored_check_ok dbg); [exact Se|exact M|vm_compute; reflexivity|vm_compute; reflexivity]).
    - destruct (Al p M) as [->|[->|[->|[->| ->]]]];
        (erewrite Ln; [|exact M|vm_compute; reflexivity]; vm_compute; reflexivity). }
  split.
  { split; [reflexivity|]. split; [reflexivity|]. intros p kvs R.
    assert (M : mentioned (all_objs H) p).
    { destruct (in_dec (list_eq_dec Byte.byte_eq_dec) p (map om_path (all_objs H))) as [Y|Y]; [exact Y|].
      apply (proj2 (proj1 (C16_read_all dbg H _ p (session_any _ _ _ Se)))) in Y. congruence. }
    assert (Y : forall q l, read_all_properties (open_bytes dbg C100_file) q = Some l -> p = q -> lenN l < 2 ^ 31 ->
      lenN kvs < 2 ^ 32 /\ alloc_ok dbg AProps (lenN kvs) = true).
    { intros q l Rl -> Hl. rewrite Rl in R. injection R as <-. split; [eapply N.lt_trans; [exact Hl|reflexivity]|]. cbn [alloc_ok dbg]. now apply N.ltb_lt. }
    destruct (Al p M) as [X|[X|[X|[X|X]]]]; (eapply Y; [|exact X|]; [vm_compute; reflexivity|vm_compute; reflexivity]). }
  split; [vm_compute; split; [reflexivity|discriminate]|].
  split; [vm_compute; reflexivity|].
  split; [vm_compute; reflexivity|]. split; [vm_compute; reflexivity|]. vm_compute. discriminate.
Qed.

Print Assumptions C100_copy.
Print Assumptions C100_listed.
Print Assumptions C100_normal.
Print Assumptions C100_program.
