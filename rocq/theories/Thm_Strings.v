(** * Claim C109: string channels, and reads of any type that cannot panic *)
From Coq Require Import Strings.String Sorting.Sorted.
From Verif Require Import Base Lib Utf8 DataTypes MetaData Maps DataBlock Index RawData ChannelReader TdmsFile
  SpecCodec SpecIndex SpecSession SpecRead SpecPanic SpecStrings Codec_proofs History_proofs Plan_proofs Read_proofs Session_proofs Safe_proofs
  Wide_proofs Thm_Index Thm_Read Thm_Open Thm_Safe Thm_Panic Vectors.
Close Scope string_scope.

(** ** Reads that cannot panic *)
Lemma held_block E H F p l : session E H F -> In l (locs_after H p) -> 0 < l_n l ->
  exists b m, nth_error (blocks_after H) (l_block l) = Some b /\ nth_error (b_chans b) (l_chan l) = Some m
    /\ l_n l = rm_n m * whole_chunks b /\ 0 < chunk_bytes (b_chans b) /\ chunk_bytes (b_chans b) < 2 ^ 64.
Proof.
  intros Se Hl Hn. pose proof (locs_located H p) as Lc. rewrite Forall_forall in Lc. destruct (Lc l Hl) as [b [m [B1 [B2 B3]]]].
  destruct (holder E H F Se p l b Hl Hn B1) as [_ [_ [P Lt]]]. exists b, m. auto.
Qed.

(** The channels [chans], known or not, once or repeatedly, read as any type from
    any sample into any buffers: if the blocks that hold their samples can be
    reckoned with and none starts with an empty channel, the outcome is a value
    or an error. *)
Theorem C109_no_panic : forall E H F t chans start outs, session E H F ->
  Forall (fun p => forall b, holds H p b -> reckonable E t b /\ ~ starts_empty b) chans ->
  calm (snd (read_channels_from E F t chans start outs)).
Proof.
  intros E H F t chans start outs Se Rs. unfold read_channels_from, ix_read_channels_from.
  assert (L : lookup_positions (tf_ix F) chans = Ok (map (locs_after H) chans) /\ Forall (mentioned (all_objs H)) chans
    \/ exists p, lookup_positions (tf_ix F) chans = Err (EMissingObject p)).
  { clear Rs. destruct (C14_incremental E H F Se) as [_ [_ [_ [_ [Gp Gn]]]]].
    induction chans as [|p chans IH]; [left; split; [reflexivity|constructor]|]. cbn [lookup_positions].
    destruct (in_dec (list_eq_dec Byte.byte_eq_dec) p (map om_path (all_objs H))) as [M|M].
    - rewrite (Gp p M). destruct IH as [[-> Ms]|[q ->]].
      + left. split; [reflexivity|now constructor].
      + right. exists q. reflexivity.
    - right. exists p. now rewrite (Gn p M). }
  destruct L as [[-> M]|[p ->]]; [|exact Logic.I]. cbn [bind].
  destruct (plan_ok E H F Se chans start M) as [plan [-> [_ [Sh Hn]]]].
  apply execute_wide. destruct (C14_incremental E H F Se) as [_ [_ [_ [Hb _]]]]. rewrite Forall_forall in Sh, Rs.
  apply Forall_forall. intros br Hbr. destruct (Sh br Hbr) as [Ln [c0 [s0 Hc0]]].
  assert (Loc : forall i c s, nth_error (br_chans br) i = Some (Some (c, s)) ->
     exists b m, nth_error (blocks_after H) (br_block br) = Some b /\ nth_error (b_chans b) c = Some m
       /\ s < rm_n m * whole_chunks b /\ 0 < chunk_bytes (b_chans b) /\ reckonable E t b /\ ~ starts_empty b).
  { intros i c s Hi. assert (Li : (i < length chans)%nat) by (rewrite <- Ln; apply nth_error_Some; congruence).
    destruct (nth_error chans i) as [p|] eqn:Pi; [|apply nth_error_Some in Li; contradiction].
    pose proof (planned_in i plan br c s Hbr Hi) as X. rewrite (Hn _ _ Pi) in X.
    apply needed_in in X. destruct X as [l [Hl [L1 [L2 L3]]]].
    destruct (held_block E H F p l Se Hl ltac:(lia)) as [b [m [B1 [B2 [B3 [B4 _]]]]]].
    exists b, m. rewrite <- L1, <- L2, <- B3. do 4 (split; [assumption|]).
    apply (Rs p (nth_error_In _ _ Pi) b). exists l. split; [exact Hl|]. split; [lia|exact B1]. }
  apply In_nth_error in Hc0. destruct Hc0 as [i0 Hi0]. destruct (Loc _ _ _ Hi0) as [b [m0 [B1 [_ [_ [B4 [B5 B6]]]]]]].
  exists b. rewrite Hb. do 4 (split; [assumption|]). intros i c s Hi. destruct (Loc _ _ _ Hi) as [b' [m [B1' [B2' [B3' _]]]]].
  rewrite B1 in B1'. injection B1' as <-. exists m. split; [exact B2'|]. lia.
Qed.

(** So for channels whose blocks can be reckoned with, every read returns exactly
    if no block that holds samples starts with an empty channel, whatever the
    type. *)
Theorem C109_exactly : forall E H F t p, session E H F -> mentioned (all_objs H) p ->
  (forall b, holds H p b -> reckonable E t b /\ b_start b <= seek_max E) ->
  ((forall start out, calm (snd (read_channel_from E F t p start out))) <-> forall b, holds H p b -> ~ starts_empty b).
Proof.
  intros E H F t p Se M Mo. split.
  - intros C b Hh Z. destruct (Mo b Hh) as [_ Sk]. destruct Hh as [l [Hl [Hn Hb]]].
    destruct (in_split _ _ Hl) as [l1 [l2 Sp]].
    destruct (held_block E H F p l Se Hl Hn) as [b' [_ [B1 [_ [_ [Pos Lt]]]]]]. rewrite Hb in B1. injection B1 as <-.
    specialize (C (samples_of l1 + 0) []). unfold read_channel_from in C.
    destruct (C14_incremental E H F Se) as [_ [_ [_ [Hbs [Gp _]]]]]. rewrite (Gp p M) in C.
    destruct (first_read E H F Se p l1 l l2 0 M Sp Hn) as [plan Hp]. rewrite Hp in C. unfold execute_read_plan in C.
    cbn [map execute br_block br_chans] in C. unfold get_data_block in C. rewrite Hbs, Hb in C.
    change (any_skip [Some (l_chan l, 0)]) with false in C. cbn [block_requests] in C.
    change (complete (mkPr 0 (lenN []))) with true in C. cbv iota in C.
    pose proof (nothing_from_empty E (tf_bytes F) t b Z Sk Pos Lt) as X.
    destruct (block_read E (tf_bytes F) t b []) as [got r]. cbn [snd] in X. subst r. exact C.
  - intros Nz start out.
    pose proof (C109_no_panic E H F t [p] start [out] Se (Forall_cons p (fun b Hb => conj (proj1 (Mo b Hb)) (Nz b Hb)) (Forall_nil _))) as C.
    unfold read_channels_from, ix_read_channels_from in C. unfold read_channel_from. cbn [lookup_positions] in C.
    destruct (get_positions (tf_ix F) p) as [l|]; [|exact Logic.I]. cbn [bind length repeat] in C.
    destruct (read_plan [l] [start]) as [plan| | |]; cbn in C; try contradiction; [|exact Logic.I].
    destruct (execute_read_plan E (tf_bytes F) t (tf_ix F) plan [out]) as [os r]. exact C.
Qed.

(** ** Blocks of strings only *)
(** Channels stored only beside strings and other values without a size have no
    samples, and every read, as whatever type, leaves the buffer as it was. *)
Theorem C109_alone : forall E H F p, session E H F -> mentioned (all_objs H) p ->
  (forall l b, In l (locs_after H p) -> nth_error (blocks_after H) (l_block l) = Some b ->
     Forall (fun m => rm_type m = TdmsString \/ rm_type m = Void) (b_chans b)) ->
  channel_length E F p = Ok (Some 0) /\ forall t start out, read_channel_from E F t p start out = (out, Ok tt).
Proof.
  intros E H F p Se M St.
  assert (Z : Forall (fun l => l_n l = 0) (locs_after H p)).
  { apply Forall_forall. intros l Hl. destruct (N.eq_dec (l_n l) 0) as [Q|Q]; [exact Q|]. exfalso.
    destruct (held_block E H F p l Se Hl ltac:(lia)) as [b [m [B1 [_ [_ [P _]]]]]]. specialize (St l b Hl B1).
    assert (X : chunk_bytes (b_chans b) = 0); [|lia]. clear -St. unfold chunk_bytes.
    induction St as [|m ms Hm Hs IH]; [reflexivity|]. cbn [fold_right]. rewrite IH. destruct Hm as [-> | ->]; cbn; lia. }
  assert (Nd : forall s, needed (locs_after H p) s = []).
  { clear St. induction Z as [|l ls Hl Hs IH]; intros s; [reflexivity|]. cbn [needed]. rewrite Hl.
    replace (0 <=? s) with true by lia. apply IH. }
  split.
  - destruct (session_locs E H F p Se M) as [G _]. unfold channel_length, ix_channel_length. unfold get_positions in G.
    destruct (map_get p (ix_objs (tf_ix F))) as [od|]; [|discriminate]. injection G as G. rewrite G.
    assert (X : usum E (map l_n (locs_after H p)) = Ok 0); [|now rewrite X].
    unfold usum. clear -Z. induction Z as [|l ls Hl Hs IH]; [reflexivity|]. cbn [map usum_from]. rewrite Hl. exact IH.
  - intros t start out. unfold read_channel_from.
    destruct (C14_incremental E H F Se) as [_ [_ [_ [_ [Gp _]]]]]. rewrite (Gp p M).
    destruct (plan_ok E H F Se [p] start (Forall_cons _ M (Forall_nil _))) as [plan [Hp [_ [Sh Hn]]]].
    cbn [map length repeat] in Hp. rewrite Hp. specialize (Hn 0%nat p eq_refl). rewrite Nd in Hn.
    destruct plan as [|br plan]; [reflexivity|]. exfalso.
    inversion Sh as [|x y [Ln [c0 [s0 Hin]]] Sh']; subst x y. destruct br as [j cs]. cbn [br_chans br_block] in *.
    destruct cs as [|x [|y cs]]; try discriminate. destruct Hin as [->|[]].
    unfold planned in Hn. cbn [flat_map br_chans br_block nth_error app] in Hn. discriminate.
Qed.

(** ** String channels as the format describes them *)
Lemma le_bytes_app w1 w2 : forall n, le_bytes (w1 + w2) n = le_bytes w1 n ++ le_bytes w2 (n / 256 ^ N.of_nat w1).
Proof.
  induction w1 as [|w1 IH]; intros n; [cbn [Nat.add le_bytes app]; now rewrite N.pow_0_r, N.div_1_r|].
  cbn [Nat.add le_bytes app]. rewrite IH, N.div_div by (try apply N.pow_nonzero; lia). rewrite Nat2N.inj_succ, N.pow_succ_r'. reflexivity.
Qed.
Lemma le_bytes_mod w : forall n, le_bytes w (n mod 256 ^ N.of_nat w) = le_bytes w n.
Proof.
  intros n. pose proof (le_bytes_val (le_bytes w n)) as X. rewrite le_bytes_length in X.
  rewrite le_val_bytes in X. exact X.
Qed.
(** The halves of a number of eight bytes, in the order in which they are stored. *)
Definition former (e : endian) (n : N) : N := match e with LittleE => n mod 2 ^ 32 | BigE => n / 2 ^ 32 end.
Definition latter (e : endian) (n : N) : N := match e with LittleE => n / 2 ^ 32 | BigE => n mod 2 ^ 32 end.
Lemma halves e n : enc_uint e 8 n = enc_uint e 4 (former e n) ++ enc_uint e 4 (latter e n).
Proof.
  unfold enc_uint, uint_bytes, former, latter. change (2 ^ 32) with (256 ^ N.of_nat 4). change 8%nat with (4 + 4)%nat.
  destruct e; rewrite (le_bytes_app 4 4 n), le_bytes_mod; [now rewrite rev_app_distr|reflexivity].
Qed.

(** The description of a string channel is read as one without the total size:
    the first half of the total is taken for the number of properties, and what
    follows for the properties. *)
Theorem C109_taken_for : forall E e path n total props rest, good_str E path ->
  read_obj E e (string_object e path n total props ++ rest)
  = read_obj E e (enc e SStr path ++ write_rawidx e (RIRaw (mkRaw TdmsString n None))
      ++ enc_uint e 4 (former e total) ++ enc_uint e 4 (latter e total)
      ++ enc_uint e 4 (lenN props) ++ concat (map (write_prop e) props) ++ rest).
Proof.
  intros E e path n total props rest G. unfold string_object, string_index. rewrite (halves e total). repeat rewrite <- app_assoc.
  unfold read_obj. rewrite !dec_str_app by exact G. cbn [bind write_rawidx rm_type rm_n]. unfold read_rawidx, write_dtype.
  repeat rewrite <- app_assoc. rewrite !dec_uint_app by reflexivity. reflexivity.
Qed.
Lemma read_string_index E e path n tail : good_str E path -> n < 2 ^ 64 ->
  read_obj E e (enc e SStr path ++ write_rawidx e (RIRaw (mkRaw TdmsString n None)) ++ tail)
  = ('(count, r3) <- dec_uint e 4 tail ;;
     if alloc_ok E AProps count then
       '(props, r4) <- read_props E e (S (length r3)) count r3 ;; Ok (mkObj path props (RIRaw (mkRaw TdmsString n None)), r4)
     else Err EPropertyTableAllocationFailed).
Proof.
  intros G Hn. unfold read_obj. rewrite dec_str_app by exact G. cbn [bind write_rawidx rm_type rm_n]. unfold read_rawidx, write_dtype, read_dtype.
  repeat rewrite <- app_assoc. rewrite dec_uint_app by reflexivity. cbn [bind]. change (_ =? 0) with false. cbv iota.
  change (20 =? 4294967295) with false. cbv iota. change (_ && _)%bool with false. cbv iota.
  rewrite dec_uint_app by reflexivity. cbn [bind]. change (dtype_of_code (dtype_code TdmsString)) with (Some TdmsString). cbv iota. cbn [bind].
  rewrite dec_uint_app by reflexivity. cbn [bind]. rewrite dec_uint_app by exact Hn. reflexivity.
Qed.

(** In big endian segments the properties are lost, and the next object is
    looked for at the second half of the total. *)
Theorem C109_big : forall E path n total props rest, good_str E path -> n < 2 ^ 64 -> total < 2 ^ 32 -> alloc_ok E AProps 0 = true ->
  read_obj E BigE (string_object BigE path n total props ++ rest)
  = Ok (mkObj path [] (RIRaw (mkRaw TdmsString n None)),
        enc_uint BigE 4 total ++ enc_uint BigE 4 (lenN props) ++ concat (map (write_prop BigE) props) ++ rest).
Proof.
  intros E path n total props rest G Hn Ht A. rewrite C109_taken_for, read_string_index by assumption.
  unfold former, latter. rewrite N.div_small, N.mod_small by exact Ht. rewrite dec_uint_app by reflexivity. cbn [bind]. now rewrite A.
Qed.

Lemma props_count E e : forall fuel count bs ps r, read_props E e fuel count bs = Ok (ps, r) -> lenN ps = count.
Proof.
  induction fuel as [|fuel IH]; intros count bs ps r; cbn [read_props]; (destruct (count =? 0) eqn:Z; [intros X; injection X as <- <-; apply N.eqb_eq in Z; now subst count|]); [discriminate|].
  destruct (dec E e SStr bs) as [[name r1]| | |]; try discriminate. cbn [bind].
  destruct (read_pval E e r1) as [[v r2]| | |]; try discriminate. cbn [bind].
  destruct (read_props E e fuel (N.pred count) r2) as [[more r3]| | |] eqn:Q; try discriminate. cbn [bind].
  intros X. injection X as <- <-. apply IH in Q. rewrite lenN_cons. lia.
Qed.

(** In little endian segments there are as many properties as the strings have
    bytes; the first has an empty name and its type is the number of properties
    there are. *)
Theorem C109_little : forall E path n total props rest, good_str E path -> good_str E [] -> n < 2 ^ 64 ->
  0 < total -> total < 2 ^ 32 -> lenN props < 2 ^ 32 -> alloc_ok E AProps total = true ->
  (dtype_of_code (lenN props) = None ->
   read_obj E LittleE (string_object LittleE path n total props ++ rest) = Err (EUnknownPropertyType (lenN props)))
  /\ (forall o r, read_obj E LittleE (string_object LittleE path n total props ++ rest) = Ok (o, r) ->
      lenN (om_props o) = total
      /\ exists v more, om_props o = ([], v) :: more
         /\ exists d, dtype_of_code (lenN props) = Some d
              /\ (pval_dtype v = d \/ In d [SingleFloatWithUnit; DoubleFloatWithUnit; ExtendedFloatWithUnit])).
Proof.
  intros E path n total props rest G G0 Hn Pt Ht Lp A. rewrite C109_taken_for, read_string_index by assumption.
  unfold former, latter. rewrite N.mod_small, N.div_small by exact Ht. rewrite dec_uint_app by exact Ht. cbn [bind]. rewrite A.
  change (enc_uint LittleE 4 0) with (enc LittleE SStr []).
  assert (Step : forall k fuel r, 0 < k -> read_props E LittleE (S fuel) k (enc LittleE SStr [] ++ enc_uint LittleE 4 (lenN props) ++ r)
     = match dtype_of_code (lenN props) with
       | None => Err (EUnknownPropertyType (lenN props))
       | Some d => '(v, r2) <- read_pval E LittleE (enc_uint LittleE 4 (lenN props) ++ r) ;;
                   '(more, r3) <- read_props E LittleE fuel (N.pred k) r2 ;; Ok (([], v) :: more, r3)
       end).
  { intros k fuel r Pk. cbn [read_props]. replace (k =? 0) with false by lia. rewrite dec_str_app by exact G0. cbn [bind].
    destruct (dtype_of_code (lenN props)) eqn:D; [reflexivity|].
    unfold read_pval, read_dtype. rewrite dec_uint_app by exact Lp. cbn [bind]. now rewrite D. }
  rewrite Step by exact Pt. clear Step. split.
  - intros D. now rewrite D.
  - intros o r. destruct (dtype_of_code (lenN props)) as [d|] eqn:D; [|discriminate].
    destruct (read_pval _ _ _) as [[v r2]| | |] eqn:Rv; try discriminate. cbn [bind].
    destruct (read_props _ _ _ (N.pred total) r2) as [[more r3]| | |] eqn:Rm; try discriminate. cbn [bind].
    intros X. injection X as <- <-. cbn [om_props]. split.
    + rewrite lenN_cons. assert (lenN more = N.pred total); [|lia]. eapply props_count. exact Rm.
    + exists v, more. split; [reflexivity|]. exists d. split; [reflexivity|].
      unfold read_pval, read_dtype in Rv. rewrite dec_uint_app in Rv by exact Lp. cbn [bind] in Rv. rewrite D in Rv. cbn [bind] in Rv.
      clear -Rv. destruct d; unfold read_as in Rv; try discriminate;
        try (match type of Rv with context [dec ?a ?b ?c ?r] => destruct (dec a b c r) as [[x y]| | |]; try discriminate end);
        try (injection Rv as <- <-); cbn; auto.
Qed.

(** A file as the format describes it: the channel has a property and the
    strings "ab" and "c". *)
Definition string_file (e : endian) (props : list (str * pval)) : list byte :=
  let m := enc_uint e 4 1 ++ string_object e (ch "g" "s") 2 11 props in
  TDSm ++ write_toc (mkToc true true false false (match e with BigE => true | _ => false end) true) ++ enc_uint e 4 4713
  ++ enc_uint e 8 (lenN m + 11) ++ enc_uint e 8 (lenN m) ++ m
  ++ enc_uint e 4 2 ++ enc_uint e 4 3 ++ B "abc".
Definition one_prop : list (str * pval) := [(B "u", PI32 5%Z)].

(** It does not open if little endian, nor without the property; if big endian it opens without the
    property and with no strings. *)
Theorem C109_format_refuted :
  tdms_new dbg (string_file LittleE one_prop) = Err (EIo UnexpectedEof)
  /\ (exists c, tdms_new dbg (string_file LittleE []) = Err (EUnknownPropertyType c))
  /\ (exists F, tdms_new dbg (string_file BigE one_prop) = Ok F
      /\ read_property F (ch "g" "s") (B "u") = Ok None
      /\ channel_length dbg F (ch "g" "s") = Ok (Some 0)
      /\ read_channel dbg F SStr (ch "g" "s") [[]; []] = ([[]; []], Ok tt)).
Proof.
  split; [vm_compute; reflexivity|]. split; [eexists; vm_compute; reflexivity|]. exists (open_bytes dbg (string_file BigE one_prop)).
  do 3 (split; [vm_compute; reflexivity|]). vm_compute. reflexivity.
Qed.

(** ** Cases *)
(** Strings beside single bytes, long enough for the size that is reckoned. *)
Definition beside_file : list byte :=
  fst (write_segment LittleE (mkToc false false false false false true)
     (Some [mkObj (ch "g" "s") [] (RIRaw (mkRaw TdmsString 2 None)); mkObj (ch "g" "b") [] (RIRaw (mkRaw U8 64 None))])
     (Some (mkWB 112 (enc LittleE SStr (B "ab") ++ enc LittleE SStr (B "c") ++ repeat x07 101)))).
Definition beside_F : tfile := open_bytes dbg beside_file.
Example C109_case : exists H b, session dbg H beside_F /\ mentioned (all_objs H) (ch "g" "s")
  /\ holds H (ch "g" "s") b /\ (forall b', holds H (ch "g" "s") b' -> b' = b)
  /\ reckonable dbg SStr b /\ ~ starts_empty b /\ b_start b <= seek_max dbg
  /\ read_channel dbg beside_F SStr (ch "g" "s") [[]; []] = ([B "ab"; B "c"], Ok tt).
Proof.
  assert (O : tdms_new dbg beside_file = Ok beside_F) by (vm_compute; reflexivity).
  destruct (C14_open_is_session _ _ _ O) as [H [_ [Se _]]]. exists H.
  destruct (C14_incremental _ _ _ Se) as [_ [_ [_ [Hb [Gp Gn]]]]].
  assert (Ps : get_positions (tf_ix beside_F) (ch "g" "s") = Some [mkLoc 0 0 2]) by (vm_compute; reflexivity).
  assert (M : mentioned (all_objs H) (ch "g" "s")).
  { destruct (in_dec (list_eq_dec Byte.byte_eq_dec) (ch "g" "s") (map om_path (all_objs H))) as [M|M]; [exact M|].
    rewrite (Gn _ M) in Ps. discriminate. }
  rewrite (Gp _ M) in Ps. injection Ps as Ps.
  set (b := mkBlock (lenN beside_file - 112) 112 Contigious [mkRaw TdmsString 2 None; mkRaw U8 64 None] LittleE).
  assert (Bs : blocks_after H = [b]) by (rewrite <- Hb; vm_compute; reflexivity).
  exists b. split; [exact Se|]. split; [exact M|]. split.
  { exists (mkLoc 0 0 2). rewrite Ps, Bs. split; [left; reflexivity|]. split; reflexivity. }
  split. { intros b' [l [Hl [_ Hn]]]. rewrite Ps in Hl. destruct Hl as [<-|[]]. rewrite Bs in Hn. injection Hn as <-. reflexivity. }
  split. { unfold reckonable, b. cbn [b_layout b_chans]. split; [reflexivity|]. intros _. repeat constructor. }
  split. { intros [_ [m [ms [Q Z]]]]. unfold b in Q. cbn [b_chans] in Q. injection Q as <- _. discriminate Z. }
  split; [vm_compute; discriminate|]. vm_compute. reflexivity.
Qed.

Example C109_format_case : good_str dbg (ch "g" "s") /\ good_str dbg [] /\ alloc_ok dbg AProps 11 = true /\ alloc_ok dbg AProps 0 = true
  /\ lenN one_prop < 2 ^ 32 /\ dtype_of_code 14 = None
  /\ read_obj dbg LittleE (string_object LittleE (ch "g" "s") 1 4 [] ++ repeat x00 24)
     = Ok (mkObj (ch "g" "s") [([], PVoid); ([], PVoid); ([], PVoid); ([], PVoid)] (RIRaw (mkRaw TdmsString 1 None)), []).
Proof.
  do 2 (split; [split; [apply utf8_valid_iff; vm_compute; reflexivity|split; vm_compute; congruence]|]).
  do 3 (split; [vm_compute; reflexivity|]). split; [vm_compute; reflexivity|].
  vm_compute. reflexivity.
Qed.

(** A file with a channel of strings alone. *)
Example C109_alone_case : exists H, session dbg H (open_bytes dbg (string_file BigE one_prop))
  /\ mentioned (all_objs H) (ch "g" "s")
  /\ (forall l b, In l (locs_after H (ch "g" "s")) -> nth_error (blocks_after H) (l_block l) = Some b ->
        Forall (fun m => rm_type m = TdmsString \/ rm_type m = Void) (b_chans b))
  /\ blocks_after H <> [] /\ locs_after H (ch "g" "s") <> [].
Proof.
  set (F := open_bytes dbg (string_file BigE one_prop)).
  assert (O : tdms_new dbg (string_file BigE one_prop) = Ok F) by (vm_compute; reflexivity).
  destruct (C14_open_is_session _ _ _ O) as [H [_ [Se _]]]. exists H.
  destruct (C14_incremental _ _ _ Se) as [_ [_ [_ [Hb [Gp Gn]]]]].
  assert (Ps : get_positions (tf_ix F) (ch "g" "s") = Some [mkLoc 0 0 0]) by (vm_compute; reflexivity).
  assert (M : mentioned (all_objs H) (ch "g" "s")).
  { destruct (in_dec (list_eq_dec Byte.byte_eq_dec) (ch "g" "s") (map om_path (all_objs H))) as [M|M]; [exact M|].
    rewrite (Gn _ M) in Ps. discriminate. }
  rewrite (Gp _ M) in Ps. injection Ps as Ps. split; [exact Se|]. split; [exact M|]. rewrite Ps.
  rewrite <- Hb. split.
  { intros l b [<-|[]]. vm_compute. intros X. injection X as <-. cbn. repeat constructor. }
  split; [vm_compute; discriminate|discriminate].
Qed.

Print Assumptions C109_no_panic.
Print Assumptions C109_exactly.
Print Assumptions C109_alone.
Print Assumptions C109_taken_for.
Print Assumptions C109_big.
Print Assumptions C109_little.
Print Assumptions C109_format_refuted.
