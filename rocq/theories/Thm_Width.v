(** * Claims C107 and C108: machines on which usize is narrower than u64 *)
From Coq Require Import Strings.String Sorting.Sorted.
From Verif Require Import Base Lib DataTypes MetaData Maps DataBlock Index RawData ChannelReader TdmsFile Width
  SpecIndex SpecSession SpecRead SpecMulti SpecUneven SpecSeen SpecMixed SpecWrite SpecWidth Maps_proofs Index_proofs History_proofs Session_proofs
  Read_proofs Seen_proofs Reopen_proofs Width_proofs WidthRead_proofs Thm_Index Vectors Thm_Open Thm_Read Thm_Multi.
Close Scope string_scope.

(** ** The blocks of a session *)
Lemma blocks_plain E H F : session E H F -> ix_blocks (tf_ix F) = blocks_after H
  /\ Forall (fun b => Forall (fun m => rm_total m = None) (b_chans b)) (blocks_after H).
Proof.
  intros Se. destruct (session_accepted _ _ _ Se) as [A P]. destruct (accepted_described _ _ _ A) as [_ [_ [_ [_ [_ [_ [_ Hb]]]]]]].
  split; [exact Hb|]. apply Forall_forall. intros b Hin. apply blocks_from_in in Hin. destruct Hin as [H1 [s [H2 [-> [_ ->]]]]].
  cbn [app block_of b_chans]. apply active_formats_plain. rewrite !Forall_app in *. destruct P as [P1 P2]. inversion P2; subst. split; [exact P1|now constructor].
Qed.
Lemma session_inv E H F : session E H F -> inv (tf_ix F).
Proof. intros Se. destruct (session_accepted _ _ _ Se) as [A _]. now destruct (accepted_described _ _ _ A). Qed.

(** A location: block, channel and count. *)
Lemma located_at E H F p ls l : session E H F -> get_positions (tf_ix F) p = Some ls -> In l ls ->
  exists b m, nth_error (blocks_after H) (l_block l) = Some b /\ nth_error (b_chans b) (l_chan l) = Some m
    /\ number_of_chunks b = Ok (whole_chunks b) /\ l_n l = rm_n m * whole_chunks b.
Proof.
  intros Se G Hl. pose proof (session_inv _ _ _ Se) as Iv. destruct (blocks_plain _ _ _ Se) as [Hb Pl]. unfold get_positions in G.
  destruct (map_get p (ix_objs (tf_ix F))) as [od|] eqn:Q; [|discriminate]. injection G as <-.
  destruct (inv_locs _ Iv _ _ Q) as [L _]. rewrite Forall_forall in L. destruct (L l Hl) as [b [m [c [B1 [B2 [B3 [B4 _]]]]]]].
  rewrite Hb in B1. exists b, m. split; [exact B1|]. split; [exact B2|].
  rewrite Forall_forall in Pl. pose proof (Pl b (nth_error_In _ _ B1)) as Pb.
  destruct (number_of_chunks_plain b c Pb B3) as [-> _]. now split.
Qed.

Section Claims.
Context (W : N) (W1 : 1 < W).

Lemma nloc_recounted E H F p ls l : session E H F -> get_positions (tf_ix F) p = Some ls -> In l ls ->
  nloc W (ix_blocks (tf_ix F)) l = recounted W (blocks_after H) l.
Proof.
  intros Se G Hl. destruct (located_at _ _ _ _ _ _ Se G Hl) as [b [m [B1 [B2 [B3 B4]]]]]. destruct (blocks_plain _ _ _ Se) as [Hb _].
  unfold nloc, chunks_in, recounted. rewrite Hb, B1, B2, B3, B4. f_equal.
  destruct (N.eq_dec (whole_chunks b) 0) as [-> | Nz]; [rewrite N.mod_0_l by lia; now rewrite !N.mul_0_r|]. now rewrite N.div_mul.
Qed.

Lemma nix_positions E H F p : session E H F ->
  get_positions (nix W (tf_ix F)) p = option_map (map (recounted W (blocks_after H))) (get_positions (tf_ix F) p).
Proof.
  intros Se. pose proof (nloc_recounted E H F p) as K. unfold get_positions in *. cbn [nix ix_objs]. rewrite get_nobjs.
  destruct (map_get p (ix_objs (tf_ix F))) as [od|]; [|reflexivity]. cbn [option_map nobj o_locs]. f_equal. apply map_ext_in.
  intros l Hl. now apply (K (o_locs od)).
Qed.
End Claims.

(** ** C107 Opening and writing *)
(** A file that opens also opens there; the same objects, properties, formats
    and blocks are found, and only the numbers of samples may differ. *)
Theorem C107_opens : forall W E f F H, 1 < W -> tdms_new E f = Ok F -> file_segments E f H ->
  exists G, w_tdms_new W E f = Ok G /\ tf_bytes G = f
    /\ ix_blocks (tf_ix G) = blocks_after H /\ ix_active (tf_ix G) = ix_active (tf_ix F) /\ ix_next (tf_ix G) = ix_next (tf_ix F)
    /\ all_paths (tf_ix G) = all_paths (tf_ix F)
    /\ (forall p, read_all_properties G p = read_all_properties F p)
    /\ (forall p, channel_format (tf_ix G) p = channel_format (tf_ix F) p)
    /\ (forall p, get_positions (tf_ix G) p = option_map (map (recounted W (blocks_after H))) (get_positions (tf_ix F) p)).
Proof.
  intros W E f F H W1 O FS. pose proof (open_n W W1 E f) as K. rewrite O in K.
  assert (Se : session E H F) by (eapply ss_open; eassumption).
  destruct (tdms_new_ok _ _ _ O) as [_ Hf]. destruct (blocks_plain _ _ _ Se) as [Hb _].
  eexists. split; [exact K|]. cbn [tf_ix tf_bytes nix ix_blocks ix_active ix_next]. split; [exact Hf|]. split; [exact Hb|].
  split; [reflexivity|]. split; [reflexivity|]. split.
  { unfold all_paths, map_keys. cbn [nix ix_objs]. unfold nobjs. now rewrite map_map. }
  split. { intros p. unfold read_all_properties, get_object_properties. cbn [tf_ix nix ix_objs]. rewrite get_nobjs.
           now destruct (map_get p (ix_objs (tf_ix F))). }
  split; [intros p; apply format_n|]. intros p. now apply (nix_positions W W1 E H F).
Qed.

(** A file that does not open is refused there with the same error, unless it
    has too many samples for 64 bits. *)
Theorem C107_refusals : forall W E f, 1 < W -> (forall F, tdms_new E f <> Ok F) ->
  w_tdms_new W E f = tdms_new E f \/ tdms_new E f = Err EChunkSizeOverflow.
Proof.
  intros W E f W1 N. pose proof (open_n W W1 E f) as K. destruct (tdms_new E f) as [F|x|p|]; [exfalso; now apply (N F)|..];
    destruct K as [K|K]; auto.
Qed.

(** The opened file is the same exactly if every block in which a channel has
    samples has fewer than [W] chunks. *)
Theorem C107_same : forall W E f F H, 1 < W -> tdms_new E f = Ok F -> file_segments E f H ->
  (w_tdms_new W E f = Ok F
   <-> forall p ls l b, get_positions (tf_ix F) p = Some ls -> In l ls -> 0 < l_n l ->
         nth_error (blocks_after H) (l_block l) = Some b -> whole_chunks b < W).
Proof.
  intros W E f F H W1 O FS. pose proof (open_n W W1 E f) as K. rewrite O in K. rewrite K.
  assert (Se : session E H F) by (eapply ss_open; eassumption). split.
  - intros J p ls l b G Hl Hn B. apply Ok_inj in J. apply (f_equal tf_ix) in J. cbn [tf_ix] in J.
    pose proof (nix_positions W W1 E H F p Se) as P. rewrite J, G in P. cbn [option_map] in P. injection P as P.
    assert (R : recounted W (blocks_after H) l = l).
    { clear -P Hl. revert P Hl. generalize (recounted W (blocks_after H)) as g. intros g. induction ls as [|x ls IH]; intros P Hl; [contradiction|].
      cbn [map] in P. injection P as P1 P2. destruct Hl as [<-|Hl]; [now symmetry|now apply IH]. }
    destruct (located_at _ _ _ _ _ _ Se G Hl) as [b' [m [B1 [B2 [_ B4]]]]]. rewrite B in B1. apply Some_inj in B1. subst b'.
    unfold recounted in R. rewrite B, B2 in R. apply (f_equal l_n) in R. cbn [l_n] in R. rewrite B4 in R.
    assert (whole_chunks b mod W = whole_chunks b) as <-; [|apply N.mod_lt; lia].
    apply (N.mul_cancel_l _ _ (rm_n m)); [|exact R]. intros Z. rewrite B4, Z in Hn. lia.
  - intros S. f_equal. destruct F as [ix bs]. cbn [tf_ix tf_bytes] in *. f_equal.
    destruct ix as [act objs blks nx] eqn:Ix. unfold nix. cbn [ix_active ix_objs ix_blocks ix_next]. f_equal.
    unfold nobjs. rewrite <- (map_id objs) at 2. apply map_ext_in. intros [k od] Hin. cbn [fst snd]. f_equal.
    pose proof (session_inv _ _ _ Se) as Iv. cbn [tf_ix] in Iv. apply In_map_get in Hin; [|apply (inv_sorted _ Iv)]. cbn [ix_objs] in Hin.
    assert (G : get_positions (mkIx act objs blks nx) k = Some (o_locs od)) by (unfold get_positions; cbn [ix_objs]; now rewrite Hin).
    destruct od as [p ps ls fm]. unfold nobj. cbn [o_path o_props o_locs o_fmt] in *. f_equal.
    rewrite <- (map_id ls) at 2. apply map_ext_in. intros l Hl.
    pose proof (nloc_recounted W W1 E H _ k ls l Se G Hl) as R. cbn [tf_ix ix_blocks] in R. rewrite R.
    destruct (located_at _ _ _ _ _ _ Se G Hl) as [b [m [B1 [B2 [_ B4]]]]]. unfold recounted. rewrite B1, B2. destruct l as [j i n].
    cbn [l_block l_chan l_n] in *. f_equal. rewrite B4. destruct (N.eq_dec n 0) as [Z|Z].
    + destruct (N.eq_dec (whole_chunks b) 0) as [-> | Nz]; [now rewrite N.mod_0_l by lia|]. assert (rm_n m = 0) as -> by nia. lia.
    + rewrite N.mod_small; [reflexivity|]. apply (S k ls (mkLoc j i n) b G Hl); [cbn [l_n]; lia|exact B1].
Qed.

(** So files whose blocks are shorter than [W] bytes open alike. *)
Theorem C107_short : forall W E f F H, 1 < W -> tdms_new E f = Ok F -> file_segments E f H ->
  Forall (fun b => b_len b < W) (blocks_after H) -> w_tdms_new W E f = Ok F.
Proof.
  intros W E f F H W1 O FS S. apply (C107_same W E f F H W1 O FS). intros p ls l b G Hl Hn B.
  rewrite Forall_forall in S. specialize (S b (nth_error_In _ _ B)). unfold whole_chunks. destruct (chunk_bytes (b_chans b) =? 0) eqn:Z; [lia|].
  eapply N.le_lt_trans; [|exact S]. apply N.div_le_upper_bound; [lia|]. nia.
Qed.

(** A program of calls makes the same file and the same index, whatever the
    outcome of each call. *)
Theorem C107_calls : forall W E F cs, 1 < W -> Forall (in_memory W) cs -> run_calls_on W E F cs = run_calls E F cs.
Proof.
  intros W E F cs W1 M. revert F. induction M as [|c cs Hc M IH]; intros F; [reflexivity|]. cbn [run_calls_on run_calls].
  assert (K : do_call_on W E F c = do_call E F c).
  { destruct c as [e path kvs|e t chans vs lay]; cbn [do_call_on do_call]; [now apply write_properties_short|now apply write_channels_short]. }
  rewrite K. destruct (do_call E F c) as [F1 x]. now rewrite IH.
Qed.

(** ** C108 Reading *)
Lemma widest_at_most t m : t <> SExt -> t <> SStr -> 0 < reckoned (rm_type m) ->
  at_most t m = if existsb (dtype_eqb (rm_type m)) (stored_as t) then own_width t else reckoned (rm_type m).
Proof.
  intros X1 X2 R. unfold at_most. rewrite (reckoned_dtype _ R). unfold supports.
  replace (supported t) with (stored_as t) by (destruct t; reflexivity).
  destruct (existsb (dtype_eqb (rm_type m)) (stored_as t)) eqn:Q; [|reflexivity]. rewrite (own_size t (conj X1 X2)).
  destruct t; try (exfalso; congruence); destruct (rm_type m); try discriminate Q; cbn; reflexivity.
Qed.
Lemma narrow_fits W t b : 16 < W -> t <> SExt -> t <> SStr -> narrow_block W t b -> w_fits W t b.
Proof.
  intros W16 X1 X2 [S L]. split; [eapply Forall_impl; [|exact S]; now intros m [A _]|].
  assert (K : forall ms, Forall (fun m => rm_n m < W /\ 0 < reckoned (rm_type m)) ms ->
    in_chunk (widest t ms) = fold_right (fun m a => rm_n m * at_most t m + a) 0 ms
    /\ in_row (widest t ms) = fold_right (fun m a => at_most t m + a) 0 ms
    /\ Forall (fun m => at_most t m < W) ms).
  { induction 1 as [|m ms [_ R] Hm [I1 [I2 I3]]]; [repeat split; constructor|].
    unfold widest in *. cbn [map in_chunk in_row fold_right fst snd]. rewrite <- (widest_at_most t m X1 X2 R).
    fold (in_chunk (map (fun m => (rm_n m, if existsb (dtype_eqb (rm_type m)) (stored_as t) then own_width t else reckoned (rm_type m))) ms)).
    fold (in_row (map (fun m => (rm_n m, if existsb (dtype_eqb (rm_type m)) (stored_as t) then own_width t else reckoned (rm_type m))) ms)).
    rewrite I1, I2. split; [reflexivity|]. split; [reflexivity|]. constructor; [|exact I3].
    eapply N.le_lt_trans; [|exact W16]. unfold at_most. rewrite (reckoned_dtype _ R). pose proof (reckoned_16 (rm_type m)).
    assert (size_bytes t <= 16) by (destruct t; try (exfalso; congruence); cbn; lia). destruct (supports t (rm_type m)); lia. }
  destruct (K _ S) as [K1 [K2 K3]]. destruct (b_layout b); [now rewrite <- K2|]. split; [now rewrite <- K1|exact K3].
Qed.

(** Reads of blocks in which the numbers fit are the same there, whatever comes
    of them. *)
Theorem C108_blocks : forall W E H F t, 16 < W -> W <= 2 ^ 64 -> session E H F -> t <> SExt -> t <> SStr ->
  (forall p start out, narrowly_stored W t H p ->
     w_read_channel_from W E F t p start out = read_channel_from E F t p start out)
  /\ (forall chans start outs, Forall (narrowly_stored W t H) chans ->
     w_read_channels_from W E F t chans start outs = read_channels_from E F t chans start outs).
Proof.
  intros W E H F t W16 W64 Se X1 X2.
  assert (K : forall p, narrowly_stored W t H p -> chan_fits W t (tf_ix F) p).
  { intros p S ls l b G Hl Hn B. assert (M : mentioned (all_objs H) p).
    { destruct (session_accepted _ _ _ Se) as [A _]. destruct (accepted_described _ _ _ A) as [_ [_ [_ [_ [Hk _]]]]]. apply Hk. unfold known.
      unfold get_positions in G. destruct (map_get p (ix_objs (tf_ix F))); congruence. }
    destruct (session_locs E H F p Se M) as [G' _]. rewrite G in G'. injection G' as ->.
    unfold narrowly_stored in S. rewrite Forall_forall in S. destruct (S l Hl Hn) as [b' [B' Nb]].
    destruct (blocks_plain _ _ _ Se) as [Hb _]. unfold get_data_block in B. rewrite Hb, B' in B. apply Some_inj in B. subst b'.
    now apply narrow_fits. }
  split.
  - intros p start out S. apply read_channel_w; [lia|exact W64|now apply K].
  - intros chans start outs S. apply read_channels_w; [lia|exact W64|]. eapply Forall_impl; [|exact S]. exact K.
Qed.

(** ** Files that are all in a small store *)
Lemma at_most_twice t m : t <> SStr -> 0 < reckoned (rm_type m) -> at_most t m <= 2 * dtype_size (rm_type m).
Proof.
  intros X R. unfold at_most. destruct (supports t (rm_type m)) eqn:Q; [|lia].
  destruct t; try (exfalso; congruence); destruct (rm_type m); cbn in Q, R |- *; try discriminate; lia.
Qed.
Lemma ordinary_fits W t f b : 16 < W -> t <> SStr -> 2 * lenN f < W -> ordinary_block f b -> 0 < whole_chunks b -> w_fits W t b.
Proof.
  intros W16 X L [In1 [R Pos]] C.
  assert (Cb : 0 < chunk_bytes (b_chans b) /\ chunk_bytes (b_chans b) <= lenN f).
  { unfold whole_chunks in C. destruct (chunk_bytes (b_chans b) =? 0) eqn:Z; [lia|]. split; [lia|].
    destruct (N.le_gt_cases (chunk_bytes (b_chans b)) (b_len b)) as [K|K]; [lia|]. rewrite N.div_small in C by exact K. lia. }
  destruct Cb as [_ Cb]. clear C In1.
  assert (K : forall ms, Forall (fun m => 0 < reckoned (rm_type m)) ms ->
    Forall (fun m => rm_n m <= chunk_bytes ms) ms
    /\ fold_right (fun m a => rm_n m * at_most t m + a) 0 ms <= 2 * chunk_bytes ms
    /\ (Forall (fun m => 0 < rm_n m) ms -> fold_right (fun m a => at_most t m + a) 0 ms <= 2 * chunk_bytes ms)
    /\ Forall (fun m => at_most t m < W) ms).
  { induction 1 as [|m ms Rm Rs [I1 [I2 [I3 I4]]]]; [repeat split; try constructor; cbn; lia|].
    unfold chunk_bytes in *. cbn [fold_right]. set (c := fold_right _ 0 ms) in *.
    pose proof (at_most_twice t m X Rm) as A. pose proof (reckoned_dtype _ Rm) as D. pose proof (reckoned_16 (rm_type m)) as D16.
    split; [constructor; [nia|]; eapply Forall_impl; [|exact I1]; cbn beta; intros; lia|].
    split; [nia|]. split; [intros P; inversion P as [|? ? P1 P2]; subst; specialize (I3 P2); nia|].
    constructor; [|exact I4]. eapply N.le_lt_trans; [|exact W16]. unfold at_most. rewrite D.
    assert (size_bytes t <= 16) by (destruct t; try (exfalso; congruence); cbn; lia). destruct (supports t (rm_type m)); lia. }
  destruct (K _ R) as [K1 [K2 [K3 K4]]]. split; [eapply Forall_impl; [|exact K1]; cbn beta; intros; lia|].
  destruct (b_layout b); [specialize (K3 (Pos eq_refl)); lia|]. split; [lia|exact K4].
Qed.

(** Where the whole data is in the file and the file is shorter than half of
    what a usize can count, such a machine opens it with the same index and
    makes the same of every read. *)
Theorem C108_small_files : forall W E f F H t, 16 < W -> W <= 2 ^ 64 -> tdms_new E f = Ok F -> file_segments E f H ->
  Forall (ordinary_block f) (blocks_after H) -> 2 * lenN f < W -> t <> SStr ->
  w_tdms_new W E f = Ok F
  /\ (forall p start out, w_read_channel_from W E F t p start out = read_channel_from E F t p start out)
  /\ (forall chans start outs, w_read_channels_from W E F t chans start outs = read_channels_from E F t chans start outs).
Proof.
  intros W E f F H t W16 W64 O FS Or L X. assert (Se : session E H F) by (eapply ss_open; eassumption).
  destruct (blocks_plain _ _ _ Se) as [Hb _]. split.
  { apply (C107_short W E f F H); [lia|exact O|exact FS|]. eapply Forall_impl; [|exact Or]. intros b [K _]. lia. }
  assert (K : forall p, chan_fits W t (tf_ix F) p).
  { intros p ls l b G Hl Hn B. unfold get_data_block in B. rewrite Hb in B.
    destruct (located_at _ _ _ _ _ _ Se G Hl) as [b' [m [B1 [_ [_ B4]]]]]. rewrite B in B1. apply Some_inj in B1. subst b'.
    apply (ordinary_fits W t f); [exact W16|exact X|exact L| |nia].
    rewrite Forall_forall in Or. apply Or. eapply nth_error_In. exact B. }
  split.
  - intros p start out. apply read_channel_w; [lia|exact W64|apply K].
  - intros chans start outs. apply read_channels_w; [lia|exact W64|]. apply Forall_forall. intros p _. apply K.
Qed.

(** ** Where it does make a difference *)
(** A short file that tells of [n] values per chunk and [d] bytes of data, three
    of which are there. *)
Definition telling_file (n d : N) : list byte :=
  let m := write_metadata LittleE [mkObj (ch "g" "c") [] (RIRaw (mkRaw U8 n None))] in
  TDSm ++ bytes [14;0;0;0; 105;18;0;0] ++ enc_uint LittleE 8 (lenN m + d) ++ enc_uint LittleE 8 (lenN m) ++ m ++ bytes [1; 2; 3].

(** The reported length is cut off on 32-bit machines. *)
Theorem C107_length_refuted : exists f F G,
  lenN f = 71 /\ tdms_new dbg f = Ok F /\ w_tdms_new (2 ^ 32) dbg f = Ok G
  /\ channel_length dbg F (ch "g" "c") = Ok (Some (2 ^ 32 + 5)) /\ channel_length dbg G (ch "g" "c") = Ok (Some 5).
Proof.
  exists (telling_file 1 (2 ^ 32 + 5)), (open_bytes dbg (telling_file 1 (2 ^ 32 + 5))).
  eexists. split; [vm_compute; reflexivity|]. split; [vm_compute; reflexivity|]. split; [vm_compute; reflexivity|]. split; vm_compute; reflexivity.
Qed.

(** A block that tells of 2^32 values per chunk: its first values can be read on
    64-bit machines; on 32-bit machines it opens alike, and reading divides by
    zero. *)
Theorem C108_reads_refuted : exists f F,
  tdms_new dbg f = Ok F /\ w_tdms_new (2 ^ 32) dbg f = Ok F
  /\ read_channel_from dbg F SU8 (ch "g" "c") 0 [0; 0; 0] = ([1; 2; 3], Ok tt)
  /\ w_read_channel_from (2 ^ 32) dbg F SU8 (ch "g" "c") 0 [0; 0; 0] = ([0; 0; 0], Panic PDivZero).
Proof.
  exists (telling_file (2 ^ 32) (2 ^ 32)), (open_bytes dbg (telling_file (2 ^ 32) (2 ^ 32))).
  split; [vm_compute; reflexivity|]. split; [vm_compute; reflexivity|]. split; vm_compute; reflexivity.
Qed.

(** Two channels of 2^31 values of one byte each: the size of a chunk is one
    more than a 32-bit usize can hold, so there the sum panics where overflow is
    checked, and is 0 where it is not, by which the read then divides. One
    channel of 2^29 values of eight bytes gives the same for the product. *)
Definition telling_pair : list byte :=
  let r := RIRaw (mkRaw U8 (2 ^ 31) None) in
  let m := write_metadata LittleE [mkObj (ch "g" "a") [] r; mkObj (ch "g" "b") [] r] in
  TDSm ++ bytes [14;0;0;0; 105;18;0;0] ++ enc_uint LittleE 8 (lenN m + 2 ^ 32) ++ enc_uint LittleE 8 (lenN m) ++ m ++ bytes [1; 2; 3].
Definition telling_wide : list byte :=
  let m := write_metadata LittleE [mkObj (ch "g" "a") [] (RIRaw (mkRaw U64 (2 ^ 29) None))] in
  TDSm ++ bytes [14;0;0;0; 105;18;0;0] ++ enc_uint LittleE 8 (lenN m + 2 ^ 32) ++ enc_uint LittleE 8 (lenN m) ++ m ++ bytes [1; 0; 0; 0; 0; 0; 0; 0].
Theorem C108_overflow_refuted :
  (exists F, tdms_new dbg telling_pair = Ok F /\ w_tdms_new (2 ^ 32) dbg telling_pair = Ok F
    /\ read_channel_from dbg F SU8 (ch "g" "a") 0 [0; 0; 0] = ([1; 2; 3], Ok tt)
    /\ w_read_channel_from (2 ^ 32) dbg F SU8 (ch "g" "a") 0 [0; 0; 0] = ([0; 0; 0], Panic POverflow)
    /\ w_read_channel_from (2 ^ 32) rel F SU8 (ch "g" "a") 0 [0; 0; 0] = ([0; 0; 0], Panic PDivZero))
  /\ (exists F, tdms_new dbg telling_wide = Ok F /\ w_tdms_new (2 ^ 32) dbg telling_wide = Ok F
    /\ read_channel_from dbg F SU64 (ch "g" "a") 0 [0] = ([1], Ok tt)
    /\ w_read_channel_from (2 ^ 32) dbg F SU64 (ch "g" "a") 0 [0] = ([0], Panic POverflow)
    /\ w_read_channel_from (2 ^ 32) rel F SU64 (ch "g" "a") 0 [0] = ([0], Panic PDivZero)).
Proof.
  split; [exists (open_bytes dbg telling_pair)|exists (open_bytes dbg telling_wide)];
    do 4 (split; [vm_compute; reflexivity|]); vm_compute; reflexivity.
Qed.

(** ** Cases *)
Lemma found_blocks E f F H : tdms_new E f = Ok F -> file_segments E f H -> blocks_after H = ix_blocks (tf_ix F).
Proof. intros O FS. symmetry. eapply blocks_plain. eapply ss_open; eassumption. Qed.

Example C107_case : exists f F H,
  tdms_new dbg f = Ok F /\ file_segments dbg f H
  /\ map (recounted (2 ^ 32) (blocks_after H)) [mkLoc 0 0 (2 ^ 32 + 5)] = [mkLoc 0 0 5]
  /\ get_positions (tf_ix F) (ch "g" "c") = Some [mkLoc 0 0 (2 ^ 32 + 5)]
  /\ tdms_new dbg (repeat x00 28) = Err (EHeaderPattern [x00; x00; x00; x00]) /\ w_tdms_new (2 ^ 32) dbg (repeat x00 28) = Err (EHeaderPattern [x00; x00; x00; x00]).
Proof.
  set (f := telling_file 1 (2 ^ 32 + 5)). assert (O : tdms_new dbg f = Ok (open_bytes dbg f)) by (vm_compute; reflexivity).
  destruct (C14_open_is_session dbg f _ O) as [H [FS _]]. exists f, (open_bytes dbg f), H. split; [exact O|]. split; [exact FS|].
  rewrite (found_blocks _ _ _ _ O FS). split; [vm_compute; reflexivity|]. split; [vm_compute; reflexivity|].
  split; vm_compute; reflexivity.
Qed.

Definition three_calls : list call :=
  [CallChans LittleE SI32 [ch "g" "a"; ch "g" "b"] [1; 2; 3; 4]%Z Interleaved;
   CallProps LittleE (ch "g" "a") [(B "n", PI32 5%Z)];
   CallChans LittleE SI32 [ch "g" "b"] [] Contigious].
Example C107_calls_case : Forall (in_memory (2 ^ 32)) three_calls
  /\ run_calls_on (2 ^ 32) dbg empty_file three_calls = run_calls dbg empty_file three_calls
  /\ snd (run_calls dbg empty_file three_calls) = [Ok tt; Ok tt; Err EZeroLengthDataBlock].
Proof.
  split; [repeat constructor; vm_compute; reflexivity|]. split; [apply C107_calls; [reflexivity|repeat constructor; vm_compute; reflexivity]|].
  vm_compute. reflexivity.
Qed.

Example C108_case : forall H, file_segments dbg pair_file H ->
  tdms_new dbg pair_file = Ok pair_F /\ Forall (ordinary_block pair_file) (blocks_after H)
  /\ length (blocks_after H) = 2%nat
  /\ 2 * lenN pair_file < 2 ^ 32
  /\ (forall b, In b (blocks_after H) -> narrow_block (2 ^ 32) SI32 b).
Proof.
  intros H FS. assert (O : tdms_new dbg pair_file = Ok pair_F) by (vm_compute; reflexivity). split; [exact O|].
  rewrite (found_blocks _ _ _ _ O FS). split.
  { vm_compute. repeat constructor; discriminate. }
  split; [vm_compute; reflexivity|]. split; [vm_compute; reflexivity|].
  intros b Hb. vm_compute in Hb. repeat (destruct Hb as [<-|Hb]); try contradiction; split; repeat constructor.
Qed.

Print Assumptions C107_opens.
Print Assumptions C107_refusals.
Print Assumptions C107_same.
Print Assumptions C107_short.
Print Assumptions C107_calls.
Print Assumptions C107_length_refuted.
Print Assumptions C108_blocks.
Print Assumptions C108_small_files.
Print Assumptions C108_reads_refuted.
Print Assumptions C108_overflow_refuted.
