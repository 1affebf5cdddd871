(** * Claims C37-C40, C42, C43, C45, C47-C49: writing *)
From Coq Require Import Strings.String.
From Verif Require Import Base Lib DataTypes MetaData Maps DataBlock Index RawData ChannelReader TdmsFile
  SpecCodec SpecIndex SpecSession SpecRead SpecWrite Codec_proofs Segment_proofs Index_proofs History_proofs
  Open_proofs Session_proofs Block_proofs Read_proofs Add_proofs Vectors Thm_Open Thm_Index Thm_Read Write_proofs
  Step_proofs Program_proofs.
Close Scope string_scope.

Local Notation a := (ch "g" "a").
Local Notation b := (ch "g" "b").
Local Notation c := (ch "g" "c").

(** ** C37 Writing only appends *)
Theorem C37_only_appends : forall E F cl F' r,
  do_call E F cl = (F', r) -> exists bs, tf_bytes F' = tf_bytes F ++ bs.
Proof. exact do_call_grows. Qed.

(** What is appended: nothing when the arguments are refused; otherwise a
    lead-in of 28 bytes, the metadata, and the values in order.  The lead-in
    starts with "TDSm", and holds the flags at byte 4 (always little endian), the
    format version 4713 at byte 8, and at bytes 12 and 20 the sizes the call
    computed for the rest and for the metadata. *)
Definition segment_bytes (e : endian) (flags : N) (bs md data : list byte) (data_size : N) : Prop :=
  exists lead, bs = lead ++ md ++ data /\ lenN lead = 28
    /\ slice lead 0 4 = B "TDSm"
    /\ le_val (slice lead 4 4) = flags
    /\ uint_val e (slice lead 8 4) = 4713
    /\ uint_val e (slice lead 12 8) = (lenN md + data_size) mod 2 ^ 64
    /\ uint_val e (slice lead 20 8) = lenN md mod 2 ^ 64.

(** The flags of the format: a set bit counts its weight. *)
Definition flag (b : bool) (weight : N) : N := if b then weight else 0.
(** The weight of the flag for big endian content. *)
Definition big_flag (e : endian) : N := match e with BigE => 64 | LittleE => 0 end.
Definition inter_flag (lay : layout) : N := match lay with Interleaved => 32 | Contigious => 0 end.

Lemma segment_bytes_ok e tc m d : segment_bytes e
  (flag (match m with Some _ => true | None => false end) 2 + flag (toc_newlist tc) 4
   + flag (match d with Some _ => true | None => false end) 8 + flag (toc_inter tc) 32 + big_flag e
   + flag (toc_daqmx tc) 128)
  (fst (write_segment e tc m d))
  (match m with Some m => write_metadata e m | None => [] end)
  (match d with Some d => wb_bytes d | None => [] end)
  (match d with Some d => wb_size d | None => 0 end).
Proof.
  unfold segment_bytes, write_segment. cbn [fst]. set (tc' := write_toc_flags _ _ _ _).
  set (md := match m with Some m => write_metadata e m | None => [] end).
  set (mb := match m with Some m => metadata_size m | None => 0 end).
  set (db := match d with Some d => wb_size d | None => 0 end).
  assert (Lm : lenN md = mb) by (unfold md, mb; destruct m; [apply metadata_size_eq|reflexivity]).
  exists (TDSm ++ write_toc tc' ++ enc_uint e 4 4713 ++ enc_uint e 8 (mb + db) ++ enc_uint e 8 mb).
  split; [now rewrite <- !app_assoc|]. split; [apply lenN_leadin|].
  assert (L4 : lenN (write_toc tc') = 4) by (unfold write_toc; unfold lenN; now rewrite le_bytes_length).
  assert (LT : lenN TDSm = 4) by reflexivity.
  assert (L8 : forall n, lenN (enc_uint e 8 n) = 8) by (intros; apply lenN_uint_bytes).
  assert (Lv : lenN (enc_uint e 4 4713) = 4) by apply lenN_uint_bytes.
  assert (Sl : forall f, slice f 0 (lenN f) = f).
  { intros f. unfold slice, lenN. rewrite Nat2N.id. apply firstn_all. }
  split; [reflexivity|]. rewrite Lm. split; [|split; [|split]].
  - rewrite slice_app_r by lia. rewrite LT. change (4 - 4) with 0. rewrite slice_app_l by lia.
    rewrite <- L4 at 1. rewrite Sl. unfold write_toc. rewrite le_val_bytes. unfold tc', write_toc_flags, toc_word.
    destruct tc as [q1 q2 q3 q4 q5 q6]. cbn [toc_meta toc_raw toc_daqmx toc_inter toc_big toc_newlist].
    destruct m, d, e, q3, q4, q6; reflexivity.
  - rewrite slice_app_r by lia. rewrite slice_app_r by lia.
    rewrite LT, L4. change (8 - 4 - 4) with 0. rewrite slice_app_l by (rewrite Lv; lia).
    rewrite <- Lv at 1. rewrite Sl. unfold enc_uint. rewrite uint_val_bytes. reflexivity.
  - rewrite slice_app_r by lia. rewrite slice_app_r by lia. rewrite slice_app_r by lia.
    rewrite LT, L4, Lv. change (12 - 4 - 4 - 4) with 0. rewrite slice_app_l by (rewrite L8; lia).
    rewrite <- (L8 (mb + db)) at 1. rewrite Sl. unfold enc_uint. rewrite uint_val_bytes. reflexivity.
  - rewrite slice_app_r by lia. rewrite slice_app_r by lia. rewrite slice_app_r by lia. rewrite slice_app_r by (rewrite L8; lia).
    rewrite LT, L4, Lv, L8. change (20 - 4 - 4 - 4 - 8) with 0.
    rewrite <- (L8 mb) at 1. rewrite Sl. unfold enc_uint. rewrite uint_val_bytes. reflexivity.
Qed.

Theorem C37_one_segment : forall E e t F chans vs lay F' r,
  write_channels_e E e t F chans vs lay = (F', r) ->
  (F' = F /\ exists x, r = Err x)
  \/ exists bs md, tf_bytes F' = tf_bytes F ++ bs
       /\ segment_bytes e (8 + flag (negb (lenN md =? 0)) (2 + 4) + inter_flag lay + big_flag e)
            bs md (concat (map (enc e t) vs)) (lenN vs * size_bytes t)
       /\ (fixed t -> lenN bs = 28 + lenN md + lenN vs * size_bytes t)
       /\ (md = [] <-> continues (map a_path (ix_active (tf_ix F))) chans).
Proof.
  intros E e t F chans vs lay F' r Ew. unfold write_channels_e in Ew.
  destruct chans as [|c0 cs]; [left; cbn in Ew; injection Ew as <- <-; eauto|]. set (chans := c0 :: cs) in *.
  destruct (N.eq_dec (lenN vs mod lenN chans) 0) as [Dv|Dv].
  - right. destruct (call_stream e t (tf_ix F) chans vs lay) as [omit [Ho Es]]; [discriminate|exact Dv|].
    rewrite Es in Ew. set (md := if omit then None else Some _) in *.
    destruct (write_segment e (call_toc lay omit) md (Some (slice_block e t vs))) as [bs s] eqn:Ws.
    destruct (add_segment E (tf_ix F) s) as [ix' n]. injection Ew as <- <-. cbn [tf_bytes].
    exists bs, (match md with Some m => write_metadata e m | None => [] end). split; [reflexivity|].
    assert (Sb := segment_bytes_ok e (call_toc lay omit) md (Some (slice_block e t vs))). rewrite Ws in Sb. cbn [fst slice_block wb_bytes wb_size] in Sb.
    assert (Mz : forall m, negb (lenN (write_metadata e m) =? 0) = true).
    { intros m. rewrite metadata_size_eq. unfold metadata_size. apply negb_true_iff, N.eqb_neq. lia. }
    split.
    { match type of Sb with segment_bytes _ ?f _ _ _ _ => match goal with |- segment_bytes _ ?g _ _ _ _ => replace g with f end end; [exact Sb|].
      unfold md. destruct omit; [|rewrite Mz]; destruct lay, e; reflexivity. }
    split.
    + intros Fx. destruct Sb as [lead [-> [Ll _]]]. rewrite !lenN_app, data_len by exact Fx. lia.
    + rewrite <- Ho. unfold md. destruct omit; [split; reflexivity|]. split; [|discriminate].
      intros X. exfalso. assert (L : lenN (write_metadata e (call_objs (tf_ix F) (call_meta t vs chans) chans)) = 0) by now rewrite X.
      rewrite metadata_size_eq in L. unfold metadata_size in L. lia.
  - left. unfold stream_segment in Ew. unfold chans in Ew, Dv.
    replace (lenN vs mod lenN (c0 :: cs) =? 0) with false in Ew by (symmetry; now apply N.eqb_neq).
    cbn [negb recast] in Ew. injection Ew as <- <-. eauto.
Qed.
Theorem C37_properties_segment : forall E e F path kvs F' r,
  write_properties_e E e F path kvs = (F', r) ->
  exists bs, tf_bytes F' = tf_bytes F ++ bs
    /\ segment_bytes e (2 + big_flag e) bs (write_metadata e [mkObj path kvs RINone]) [] 0.
Proof.
  intros E e F path kvs F' r Ew. unfold write_properties_e in Ew.
  destruct (write_segment _ _ _ _) as [bs s] eqn:Ws. destruct (add_segment E (tf_ix F) s). injection Ew as <- _.
  exists bs. split; [reflexivity|]. assert (Sb := segment_bytes_ok e toc_default (Some [mkObj path kvs RINone]) None).
  rewrite Ws in Sb. destruct e; exact Sb.
Qed.
Example C37_case :
  let '(F', r) := write_channels dbg SI16 C14_file [a; c] [1; 2; 3; 4]%Z Interleaved in
  r = Ok tt /\ lenN (tf_bytes C14_file) = 385 /\ lenN (tf_bytes F') = 385 + 28 + 76 + 8
  /\ skipn 489 (tf_bytes F') = bytes [1;0;2;0;3;0;4;0]
  /\ slice (tf_bytes F') 389 4 = bytes [2 + 4 + 8 + 32; 0; 0; 0].
Proof. vm_compute. repeat split. Qed.

(** ** C38 Rejected arguments have no effect *)
Theorem C38_no_channels : forall E e t F vs lay,
  write_channels_e E e t F [] vs lay = (F, Err ENoChannels).
Proof. reflexivity. Qed.
Theorem C38_bad_length : forall E e t F chans vs lay,
  chans <> [] -> lenN vs mod lenN chans <> 0 ->
  write_channels_e E e t F chans vs lay = (F, Err (EBadDataBlockLength (lenN vs) (lenN chans))).
Proof.
  intros E e t F chans vs lay Ne Dv. destruct chans as [|c0 cs]; [congruence|].
  unfold write_channels_e, stream_segment. now replace (lenN vs mod lenN (c0 :: cs) =? 0) with false by (symmetry; now apply N.eqb_neq).
Qed.
(** These are the only refusals before anything is written. *)
Theorem C38_only_these : forall E e t F chans vs lay,
  chans <> [] -> lenN vs mod lenN chans = 0 ->
  exists bs, bs <> [] /\ tf_bytes (fst (write_channels_e E e t F chans vs lay)) = tf_bytes F ++ bs.
Proof.
  intros E e t F chans vs lay Ne Dv. destruct (call_stream e t (tf_ix F) chans vs lay Ne Dv) as [omit [_ Es]].
  unfold write_channels_e. rewrite Es. destruct (write_segment _ _ _ _) as [bs s] eqn:Ws.
  destruct (add_segment E (tf_ix F) s). cbn [fst tf_bytes]. exists bs. split; [|reflexivity].
  intros ->. apply (f_equal fst) in Ws. cbn [fst] in Ws. unfold write_segment in Ws. discriminate.
Qed.
Example C38_case : write_channels dbg SI32 C14_file [a; b] [1; 2; 3]%Z Interleaved = (C14_file, Err (EBadDataBlockLength 3 2)).
Proof. apply C38_bad_length; discriminate. Qed.

(** ** C40 Written samples can be read back in the same session *)
Lemma fresh_session E : session E [] empty_file.
Proof.
  apply (ss_open E []); [|apply (C13_empty E []); reflexivity].
  split; [intros [|i] s Hi; discriminate|]. left. reflexivity.
Qed.

Theorem C40_program_partial : forall E H F prev cs F' rs t p vss start out,
  session E H F -> exact_end H F -> last_shape H prev ->
  sequenced prev cs -> run_calls E F cs = (F', rs) -> addressable E (tf_bytes F') ->
  fixed t -> stored (tf_bytes F) t H p -> Forall2 (gives t p) cs vss ->
  mentioned (all_objs H) p \/ Exists (names p) cs ->
  Forall (eq (Ok tt)) rs
  /\ read_channel_from E F' t p start out
     = (overlay out (firstn (length out) (skipn (N.to_nat start)
          (samples_after (tf_bytes F) t H p ++ concat vss))), Ok tt).
Proof.
  intros E H F prev cs F' rs t p vss start out Se Ex Ls Sq Er [A1 A2] Fx S0 G Hn.
  destruct (program E cs H F F' rs prev Se Ex Ls Sq Er) as [Rs [H' [Se' [Ex' [Men [_ Sam]]]]]].
  { etransitivity; [exact A1|reflexivity]. }
  split; [exact Rs|]. destruct (Sam t p vss S0 G) as [_ [S1 Q]].
  rewrite (C28_window E H' F' t p start out Se' Fx (conj A1 A2) (proj2 (Men p) Hn) S1). now rewrite Q.
Qed.

(** The same starting from an empty file, where nothing is assumed about the
    state. *)
Theorem C40_fresh_file_partial : forall E cs F' rs t p vss start out,
  sequenced None cs -> run_calls E empty_file cs = (F', rs) -> addressable E (tf_bytes F') ->
  fixed t -> Forall2 (gives t p) cs vss -> Exists (names p) cs ->
  Forall (eq (Ok tt)) rs
  /\ read_channel_from E F' t p start out
     = (overlay out (firstn (length out) (skipn (N.to_nat start) (concat vss))), Ok tt)
  /\ channel_length E F' p = Ok (Some (lenN (concat vss))).
Proof.
  intros E cs F' rs t p vss start out Sq Er Ad Fx G Hn.
  assert (Ls : last_shape [] None) by reflexivity.
  assert (S0 : stored (tf_bytes empty_file) t [] p) by constructor.
  destruct (C40_program_partial E [] empty_file None cs F' rs t p vss start out (fresh_session E) eq_refl Ls Sq Er Ad Fx S0 G (or_intror Hn)) as [Rs R].
  split; [exact Rs|]. split; [exact R|].
  destruct Ad as [A1 A2]. assert (A3 : lenN (tf_bytes F') < 2 ^ 64) by (etransitivity; [exact A1|reflexivity]).
  destruct (program E cs [] empty_file F' rs None (fresh_session E) eq_refl Ls Sq Er A3) as [_ [H' [Se' [Ex' [Men [_ Sam]]]]]].
  destruct (Sam t p vss S0 G) as [Z [S1 Q]]. 
  assert (L : length_after H' p = lenN (concat vss)) by (rewrite <- (C36_samples_count (tf_bytes F') t H' p), Q; reflexivity).
  destruct (C19_channel_length E H' F' p Se') as [C _]. rewrite L in C. apply C.
  - cbn [tf_bytes empty_file] in Z. lia.
  - apply Men. now right.
Qed.

(** A program with both layouts, both byte orders, three channels, two element
    types, two calls without metadata, one of them with twice the values, and
    properties in between. *)
Definition C40_prog : list call := [
  CallChans LittleE SI32 [a; b] [1; 101; 2; 102; 3; 103]%Z Interleaved;
  CallProps LittleE (B "/'g'") [(B "unit", PString (B "V"))];
  CallChans BigE SI32 [a; b] [4; 5; 6; 104; 105; 106]%Z Contigious;
  CallChans LittleE SI32 [a; b] [7; 107; 8; 108; 9; 109; 10; 110; 11; 111; 12; 112]%Z Interleaved;
  CallChans LittleE SF64 [c; ch "g" "d"] [7; 8] Contigious;
  CallChans BigE SI32 [b; a] [113; 13]%Z Interleaved].
Example C40_case : sequenced None C40_prog
  /\ Forall2 (gives SI32 a) C40_prog [[1;2;3]; []; [4;5;6]; [7;8;9;10;11;12]; []; [13]]%Z
  /\ addressable dbg (tf_bytes (fst (run_calls dbg empty_file C40_prog)))
  /\ read_channel_from dbg (fst (run_calls dbg empty_file C40_prog)) SI32 a 1 (repeat 0%Z 13)
     = ([2;3;4;5;6;7;8;9;10;11;12;13;0]%Z, Ok tt).
Proof.
  split; [|split; [|split]].
  - assert (NoDup [a; b]) by (repeat constructor; cbn; intuition discriminate).
    assert (NoDup [b; a]) by (repeat constructor; cbn; intuition discriminate).
    assert (NoDup [c; ch "g" "d"]) by (repeat constructor; cbn; intuition discriminate).
    assert (Ri : forall l, forallb (fun z => (-2147483648 <=? z) && (z <? 2147483648))%Z l = true -> Forall (rust_value SI32) l).
    { intros l Hl. apply Forall_forall. intros z Hz. rewrite forallb_forall in Hl. specialize (Hl z Hz).
      cbn. unfold in_signed. lia. }
    cbn [sequenced C40_prog]. unfold good_values.
    assert (Fi : fixed SI32) by (repeat split; discriminate).
    assert (Ff : fixed SF64) by (repeat split; discriminate).
    split; [split; [exact Fi|]; split; [now apply Ri|]; repeat split; try assumption; discriminate|].
    split; [split; [exact Fi|]; split; [now apply Ri|]; repeat split; try assumption; discriminate|].
    right. split; [reflexivity|]. split; [now left|]. split; [split; [reflexivity|]; split; [reflexivity|]; right; right; reflexivity|].
    split; [split; [exact Fi|]; split; [now apply Ri|]; repeat split; try assumption; discriminate|].
    right. split; [reflexivity|]. split; [now left|]. split; [split; [reflexivity|]; split; [reflexivity|]; left; reflexivity|].
    split; [split; [exact Ff|]; split; [repeat constructor|]; repeat split; try assumption; discriminate|].
    left. split; [intros [_ [[x X]|[x X]]]; discriminate|].
    split; [split; [exact Fi|]; split; [now apply Ri|]; repeat split; try assumption; discriminate|].
    left. split; [intros [_ [[x X]|[x X]]]; discriminate|]. exact Logic.I.
  - repeat apply Forall2_cons; try apply Forall2_nil.
    + exact (gives_chans SI32 a LittleE [a; b] [1; 101; 2; 102; 3; 103]%Z Interleaved 0 eq_refl).
    + apply gives_props.
    + exact (gives_chans SI32 a BigE [a; b] [4; 5; 6; 104; 105; 106]%Z Contigious 0 eq_refl).
    + exact (gives_chans SI32 a LittleE [a; b] [7; 107; 8; 108; 9; 109; 10; 110; 11; 111; 12; 112]%Z Interleaved 0 eq_refl).
    + apply gives_other. cbn. intuition discriminate.
    + exact (gives_chans SI32 a BigE [b; a] [113; 13]%Z Interleaved 1 eq_refl).
  - vm_compute. split; [reflexivity|discriminate].
  - vm_compute. reflexivity.
Qed.

(** What is missing in the two theorems is every program that is not
    [sequenced].  Two channels written after one of them: the metadata is left
    out, the values of the second go to the first. *)
Theorem C40_extra_channel_refuted : exists F rs,
  run_calls dbg empty_file [CallChans LittleE SI32 [a] [1; 2]%Z Contigious;
                            CallChans LittleE SI32 [a; b] [3; 4; 5; 6]%Z Contigious] = (F, rs)
  /\ Forall (eq (Ok tt)) rs
  /\ read_channel dbg F SI32 a [0; 0; 0; 0; 0; 0; 0]%Z = ([1; 2; 3; 4; 5; 6; 0]%Z, Ok tt)
  /\ channel_length dbg F b = Ok None.
Proof.
  eexists _, _. split; [vm_compute; reflexivity|]. split; [repeat constructor|]. vm_compute. split; reflexivity.
Qed.

(** ** C39 A failed write leaves the file usable *)
(** True for refused arguments. *)
Theorem C39_refused_arguments : forall E e t F chans vs lay F' r,
  chans = [] \/ lenN vs mod lenN chans <> 0 ->
  write_channels_e E e t F chans vs lay = (F', r) -> F' = F /\ exists x, r = Err x.
Proof.
  intros E e t F chans vs lay F' r Hc Ew. destruct chans as [|c0 cs].
  - rewrite C38_no_channels in Ew. injection Ew as <- <-. eauto.
  - destruct Hc as [Hc|Hc]; [discriminate|]. rewrite C38_bad_length in Ew by (discriminate || exact Hc).
    injection Ew as <- <-. eauto.
Qed.
(** Calls with values that describe their data do not fail, as long as the file
    stays below 2^64 bytes. *)
Theorem C39_good_calls_succeed_partial : forall E e H F t chans vs lay F' r,
  session E H F -> exact_end H F -> good_values t chans vs ->
  described_call H t lay (lenN vs / lenN chans) chans ->
  write_channels_e E e t F chans vs lay = (F', r) -> lenN (tf_bytes F') < 2 ^ 64 -> r = Ok tt.
Proof.
  intros E e H F t chans vs lay F' r Se Ex [Fx [Rv [Nd [Ne [Nv Dv]]]]] Ds Ew Hl.
  exact (proj1 (write_step E e H F t chans vs lay Se Ex Fx Rv Nd Ne Nv Dv Ds F' r Ew Hl)).
Qed.
(** [C14_file] ends with the channel list [b], one value: four more, and another
    list. *)
Example C39_case : exists H, let F := open_bytes dbg (tf_bytes C14_file) in
  session dbg H F /\ exact_end H F
  /\ described_call H SI32 Contigious 4 [b] /\ good_values SI32 [b] [1; 2; 3; 4]%Z
  /\ described_call H SF64 Interleaved 1 [c; a] /\ good_values SF64 [c; a] [1; 2]
  /\ (let '(F', r) := write_channels dbg SI32 F [b] [1; 2; 3; 4]%Z Contigious in
      r = Ok tt /\ read_channel dbg F' SI32 b (repeat 0%Z 9) = ([2; 4; 6; 11; 1; 2; 3; 4; 0]%Z, Ok tt))
  /\ lenN [1; 2; 3]%Z mod lenN [a; b] <> 0.
Proof.
  assert (O : tdms_new dbg (tf_bytes C14_file) = Ok (open_bytes dbg (tf_bytes C14_file))) by (vm_compute; reflexivity).
  destruct (C14_open_is_session _ _ _ O) as [H [_ [Se _]]]. exists H. cbv zeta.
  destruct (session_accepted _ _ _ Se) as [Ac _].
  destruct (accepted_described _ _ _ Ac) as [_ [Nx [_ [Ha [_ [Hf _]]]]]].
  assert (Hb : active_after H = [b]) by (rewrite <- Ha; vm_compute; reflexivity).
  split; [exact Se|]. split; [unfold exact_end; rewrite <- Nx; vm_compute; reflexivity|]. split.
  { right. split; [exact Hb|]. exists 1. split; [split; [reflexivity|]; split; [reflexivity|]; auto|].
    constructor; [|constructor]. exists I32. split; [|now left]. rewrite <- Hf. vm_compute. reflexivity. }
  assert (Nb : NoDup [b]) by (repeat constructor; cbn; intuition discriminate).
  assert (Nc : NoDup [c; a]) by (repeat constructor; cbn; intuition discriminate).
  split; [|split; [|split; [|split]]].
  - split; [repeat split; discriminate|]. split; [repeat (apply Forall_cons || apply Forall_nil); cbn; unfold in_signed; lia|].
    repeat split; try exact Nb; discriminate.
  - left. rewrite Hb. intros [_ [[x X]|[x X]]]; discriminate.
  - split; [repeat split; discriminate|]. split; [repeat constructor|]. repeat split; try exact Nc; discriminate.
  - vm_compute. split; reflexivity.
  - vm_compute. discriminate.
Qed.

(** A call with an empty list of values fails after its bytes have been
    appended.  The file can no longer be opened, and the next write is
    acknowledged but cannot be read. *)
Theorem C39_no_values_refuted : exists F F1 F2,
  write_channels dbg SI32 empty_file [a] [1; 2]%Z Contigious = (F, Ok tt)
  /\ tdms_new dbg (tf_bytes F) = Ok F
  /\ write_channels dbg SI32 F [b] [] Contigious = (F1, Err EZeroLengthDataBlock)
  /\ tdms_new dbg (tf_bytes F1) = Err EZeroLengthDataBlock
  /\ write_channels dbg SI32 F1 [b] [7; 8]%Z Contigious = (F2, Ok tt)
  /\ channel_length dbg F2 b = Ok (Some 0)
  /\ read_channel dbg F2 SI32 b [5; 5]%Z = ([5; 5]%Z, Ok tt).
Proof.
  eexists _, _, _. split; [vm_compute; reflexivity|]. split; [vm_compute; reflexivity|].
  split; [vm_compute; reflexivity|]. split; [vm_compute; reflexivity|].
  split; [vm_compute; reflexivity|]. vm_compute. split; reflexivity.
Qed.

(** ** C42 Repeated writes to the same channels are all kept *)
(** True if each call has as many values as the first, or, interleaved or for
    one channel, a multiple of that. *)
Theorem C42_repeated_partial : forall E e t chans lay vs0 vss F' rs i p out,
  good_values t chans vs0 ->
  Forall (fun vs => good_values t chans vs /\ lenN vs mod lenN vs0 = 0
                    /\ (lay = Interleaved \/ length chans = 1%nat \/ lenN vs = lenN vs0)) vss ->
  run_calls E empty_file (map (fun vs => CallChans e t chans vs lay) (vs0 :: vss)) = (F', rs) ->
  addressable E (tf_bytes F') -> nth_error chans i = Some p ->
  length out = length (concat (map (dealt lay (length chans) i) (vs0 :: vss))) ->
  Forall (eq (Ok tt)) rs
  /\ read_channel E F' t p out = (concat (map (dealt lay (length chans) i) (vs0 :: vss)), Ok tt).
Proof.
  intros E e t chans lay vs0 vss F' rs i p out G0 Hg Er Ad Hi Lo.
  pose proof G0 as [Fx [_ [_ [Ne [Nv0 Dv0]]]]]. destruct (natural_size t Fx) as [_ [_ [_ Sa]]].
  destruct (share_vs vs0 chans Ne Nv0 Dv0) as [Pc [Pk0 K0]].
  assert (Sq : sequenced None (map (fun vs => CallChans e t chans vs lay) (vs0 :: vss))).
  { cbn [map sequenced]. split; [exact G0|]. clear Er Lo. 
    induction vss as [|vs r IH]; [exact Logic.I|]. inversion Hg as [|? ? [G1 [M1 C1]] Hg']; subst.
    cbn [map sequenced]. split; [exact G1|]. right. split; [reflexivity|]. split; [exact Sa|]. split; [|now apply IH].
    pose proof G1 as [_ [_ [_ [_ [Nv1 Dv1]]]]]. destruct (share_vs vs chans Ne Nv1 Dv1) as [_ [Pk1 K1]].
    split; [exact Pk0|]. split.
    - rewrite K0, K1, N.mul_mod_distr_l in M1 by lia. nia.
    - destruct C1 as [C1|[C1|C1]]; [auto|auto|]. right. right. now rewrite C1. }
  assert (G : Forall2 (gives t p) (map (fun vs => CallChans e t chans vs lay) (vs0 :: vss)) (map (dealt lay (length chans) i) (vs0 :: vss))).
  { clear -Hi. generalize (vs0 :: vss). intros l. induction l as [|vs r IH]; cbn [map]; constructor; [now apply gives_chans|exact IH]. }
  destruct (C40_fresh_file_partial E _ F' rs t p _ 0 out Sq Er Ad Fx G) as [Rs [R _]].
  { cbn [map]. constructor. eapply nth_error_In; eauto. }
  split; [exact Rs|]. unfold read_channel. rewrite R. change (N.to_nat 0) with 0%nat. cbn [skipn]. rewrite Lo, firstn_all.
  unfold overlay. now rewrite <- Lo, skipn_all, app_nil_r.
Qed.
Example C42_case :
  let vss := [[1; 101; 2; 102]; [3; 103; 4; 104]; [5; 105; 6; 106; 7; 107; 8; 108]]%Z in
  Forall (fun vs => good_values SI32 [a; b] vs /\ lenN vs mod 4 = 0) vss
  /\ concat (map (dealt Interleaved 2 1) vss) = [101; 102; 103; 104; 105; 106; 107; 108]%Z
  /\ read_channel dbg (fst (run_calls dbg empty_file (map (fun vs => CallChans BigE SI32 [a; b] vs Interleaved) vss))) SI32 b (repeat 0%Z 8)
     = ([101; 102; 103; 104; 105; 106; 107; 108]%Z, Ok tt).
Proof.
  split; [|vm_compute; split; reflexivity].
  assert (Fi : fixed SI32) by (repeat split; discriminate).
  assert (Nd : NoDup [a; b]) by (repeat constructor; cbn; intuition discriminate).
  repeat (apply Forall_cons || apply Forall_nil); (split; [|reflexivity]); (split; [exact Fi|]);
    (split; [repeat (apply Forall_cons || apply Forall_nil); cbn; unfold in_signed; lia|]); repeat split; try exact Nd; discriminate.
Qed.
(** With fewer values the second call is lost; with another element type too.
    Which other calls are not kept is said exactly by [C77_exactly]. *)
Theorem C42_count_refuted : exists F1 F2,
  write_channels dbg SI32 empty_file [a] [1; 2; 3; 4; 5; 6]%Z Contigious = (F1, Ok tt)
  /\ write_channels dbg SI32 F1 [a] [7; 8; 9]%Z Contigious = (F2, Ok tt)
  /\ channel_length dbg F2 a = Ok (Some 6)
  /\ read_channel dbg F2 SI32 a (repeat 0%Z 9) = ([1; 2; 3; 4; 5; 6; 0; 0; 0]%Z, Ok tt).
Proof.
  eexists _, _. split; [vm_compute; reflexivity|]. split; [vm_compute; reflexivity|]. vm_compute. split; reflexivity.
Qed.
Theorem C42_type_refuted : exists F1 F2,
  write_channels dbg SI32 empty_file [a] [1; 2]%Z Contigious = (F1, Ok tt)
  /\ write_channels dbg SI16 F1 [a] [3; 4; 5; 6]%Z Contigious = (F2, Ok tt)
  /\ channel_length dbg F2 a = Ok (Some 4)
  /\ read_channel dbg F2 SI32 a (repeat 0%Z 4) = ([1; 2; 262147; 393221]%Z, Ok tt).
Proof.
  eexists _, _. split; [vm_compute; reflexivity|]. split; [vm_compute; reflexivity|]. vm_compute. split; reflexivity.
Qed.

(** ** C43 Writing a different set of channels does not corrupt others *)
Lemma length_positions E F p : channel_length E F p =
  match get_positions (tf_ix F) p with Some ls => n <- usum E (map l_n ls) ;; Ok (Some n) | None => Ok None end.
Proof. unfold channel_length, ix_channel_length, get_positions. now destruct (map_get p (ix_objs (tf_ix F))). Qed.

Theorem C43_others_unchanged_partial : forall E e H F t chans vs lay F' r t' p start out name,
  session E H F -> exact_end H F -> good_values t chans vs ->
  described_call H t lay (lenN vs / lenN chans) chans ->
  write_channels_e E e t F chans vs lay = (F', r) -> addressable E (tf_bytes F') ->
  ~ In p chans -> fixed t' -> stored (tf_bytes F) t' H p ->
  r = Ok tt
  /\ read_channel_from E F' t' p start out = read_channel_from E F t' p start out
  /\ channel_length E F' p = channel_length E F p
  /\ read_property F' p name = read_property F p name.
Proof.
  intros E e H F t chans vs lay F' r t' p start out name Se Ex [Fx [Rv [Nd [Ne [Nv Dv]]]]] Ds Ew [A1 A2] Hp Fx' S0.
  destruct (write_step E e H F t chans vs lay Se Ex Fx Rv Nd Ne Nv Dv Ds F' r Ew) as [-> [s [bs St]]].
  { etransitivity; [exact A1|reflexivity]. }
  destruct St as [Wr [Eb [_ [Ex1 [_ [_ [_ [_ [Lp [Men [_ [Lo Sout]]]]]]]]]]]].
  assert (Se' : session E (H ++ [s]) F') by (eapply ss_write; eauto).
  split; [reflexivity|]. destruct (Sout t' p Hp S0) as [S1 Q].
  assert (Ad : addressable E (tf_bytes F)) by (rewrite Eb, lenN_app in A1, A2; split; lia).
  destruct (C14_incremental E H F Se) as [_ [_ [_ [_ [P1 P2]]]]].
  destruct (C14_incremental E _ F' Se') as [_ [_ [_ [_ [P1' P2']]]]].
  destruct (in_dec (list_eq_dec Byte.byte_eq_dec) p (map om_path (all_objs H))) as [M|M].
  - assert (M' : mentioned (all_objs (H ++ [s])) p) by (apply Men; now left).
    split; [|split].
    + rewrite (C28_window E H F t' p start out Se Fx' Ad M S0), (C28_window E _ F' t' p start out Se' Fx' (conj A1 A2) M' S1).
      now rewrite Q.
    + now rewrite !length_positions, (P1 p M), (P1' p M'), Lo.
    + destruct (any_session_told _ _ _ (session_any _ _ _ Se)) as [_ [K [_ Pr]]].
      destruct (any_session_told _ _ _ (session_any _ _ _ Se')) as [_ [K' [_ Pr']]].
      unfold read_property. rewrite !get_property_spec, Pr, Pr', Lp.
      assert (map_get p (ix_objs (tf_ix F)) <> None) by now apply K.
      assert (map_get p (ix_objs (tf_ix F')) <> None) by now apply K'.
      destruct (map_get p (ix_objs (tf_ix F))), (map_get p (ix_objs (tf_ix F'))); congruence.
  - assert (M' : ~ mentioned (all_objs (H ++ [s])) p) by (intros X; apply Men in X; destruct X; auto).
    split; [|split].
    + rewrite (C33_unknown_single E _ F' t' p start out Se' M'). now rewrite (C33_unknown_single E _ F t' p start out Se M).
    + now rewrite !length_positions, (P2 p M), (P2' p M').
    + rewrite (proj2 (proj1 (C16_missing E _ F' p name (session_any _ _ _ Se'))) M').
      symmetry. now apply (proj2 (proj1 (C16_missing E _ F p name (session_any _ _ _ Se)))).
Qed.
(** [C14_file] ends with active channel [b]; [a] has values in three blocks. *)
Example C43_case :
  let '(F', r) := write_channels dbg SI32 C14_file [c; ch "g" "d"] [1; 2]%Z Contigious in
  r = Ok tt /\ read_channel dbg F' SI32 a (repeat 0%Z 5) = ([1; 3; 5; 9; 10]%Z, Ok tt)
  /\ read_channel dbg C14_file SI32 a (repeat 0%Z 5) = ([1; 3; 5; 9; 10]%Z, Ok tt).
Proof. vm_compute. repeat split. Qed.
(** Writing one of two active channels changes the other. *)
Theorem C43_shorter_list_refuted : exists F1 F2,
  write_channels dbg SI32 empty_file [a; b] [1; 2; 3; 4]%Z Contigious = (F1, Ok tt)
  /\ write_channels dbg SI32 F1 [a] [7; 8; 9; 10]%Z Contigious = (F2, Ok tt)
  /\ channel_length dbg F1 b = Ok (Some 2) /\ channel_length dbg F2 b = Ok (Some 4)
  /\ read_channel dbg F2 SI32 b (repeat 0%Z 5) = ([3; 4; 9; 10; 0]%Z, Ok tt)
  /\ read_channel dbg F2 SI32 a (repeat 0%Z 5) = ([1; 2; 7; 8; 0]%Z, Ok tt).
Proof.
  eexists _, _. split; [vm_compute; reflexivity|]. split; [vm_compute; reflexivity|]. vm_compute. repeat split; reflexivity.
Qed.

(** ** C45 All element types accepted for writing can be read back *)
Theorem C45_fixed_types_partial : forall E e t chans vs lay F' r i p out,
  good_values t chans vs -> write_channels_e E e t empty_file chans vs lay = (F', r) ->
  addressable E (tf_bytes F') -> nth_error chans i = Some p ->
  length out = length (dealt lay (length chans) i vs) ->
  r = Ok tt /\ read_channel E F' t p out = (dealt lay (length chans) i vs, Ok tt)
  /\ channel_length E F' p = Ok (Some (lenN vs / lenN chans)).
Proof.
  intros E e t chans vs lay F' r i p out Gv Ew Ad Hi Lo. pose proof Gv as [Fx [Rv [Nd [Ne [Nv Dv]]]]].
  destruct (C40_fresh_file_partial E [CallChans e t chans vs lay] F' [r] t p [dealt lay (length chans) i vs] 0 out) as [Rs [R L]].
  - cbn [sequenced]. auto.
  - cbn [run_calls do_call]. now rewrite Ew.
  - exact Ad.
  - exact Fx.
  - repeat constructor. exact Hi.
  - constructor. eapply nth_error_In; eauto.
  - cbn [concat] in *. rewrite app_nil_r in *. split; [inversion Rs; congruence|]. split.
    + unfold read_channel. rewrite R. change (N.to_nat 0) with 0%nat. cbn [skipn]. rewrite Lo, firstn_all. unfold overlay.
      now rewrite <- Lo, skipn_all, app_nil_r.
    + rewrite L. do 2 f_equal. destruct (share_vs vs chans Ne Nv Dv) as [_ [_ Hnk]].
      assert (Hil : (i < length chans)%nat) by (apply nth_error_Some; congruence).
      unfold lenN at 1. rewrite (dealt_length lay (length chans) (N.to_nat (lenN vs / lenN chans)) i vs); [lia|exact Hil|].
      unfold lenN at 1 2 in Hnk. lia.
Qed.
Example C45_case : good_values SC32 [a; b] [(1, 2); (3, 4)]
  /\ read_channel dbg (fst (write_channels_e dbg BigE SC32 empty_file [a; b] [(1, 2); (3, 4)] Contigious)) SC32 b [(0, 0)]
     = ([(3, 4)], Ok tt).
Proof.
  split; [|vm_compute; reflexivity]. split; [repeat split; discriminate|]. split; [repeat constructor|].
  split; [repeat constructor; cbn; intuition discriminate|]. repeat split; discriminate.
Qed.
(** The three other types.  Timestamps: wrong length, and values of several
    interleaved channels are mixed.  Extended floats: the file is shorter than
    the index says, the next write is lost and the file cannot be opened again.
    Strings: nothing is read back. *)
Theorem C45_timestamp_refuted : exists F,
  write_channels dbg STime empty_file [a; b] [1; 2; 3; 4] Interleaved = (F, Ok tt)
  /\ channel_length dbg F a = Ok (Some 4)
  /\ read_channel dbg F STime a [0; 0] = ([1; 3 * 2 ^ 64], Ok tt)
  /\ read_channel dbg F STime b [0; 0] = ([2 * 2 ^ 64; 3], Ok tt).
Proof. eexists. split; [vm_compute; reflexivity|]. vm_compute. repeat split; reflexivity. Qed.
Theorem C45_extended_refuted : exists F F2,
  write_channels dbg SExt empty_file [a] [1; 2; 3] Contigious = (F, Ok tt)
  /\ ix_next (tf_ix F) = 116 /\ lenN (tf_bytes F) = 98
  /\ write_channels dbg SI32 F [b] [7; 8]%Z Contigious = (F2, Ok tt)
  /\ read_channel dbg F2 SI32 b [0; 0]%Z = ([0; 0]%Z, Err (EIo UnexpectedEof))
  /\ exists x, tdms_new dbg (tf_bytes F2) = Err x.
Proof.
  eexists _, _. split; [vm_compute; reflexivity|]. split; [reflexivity|]. split; [reflexivity|].
  split; [vm_compute; reflexivity|]. split; [vm_compute; reflexivity|]. eexists. vm_compute. reflexivity.
Qed.
Theorem C45_string_refuted : exists F,
  write_channels dbg SStr empty_file [a] [B "ab"; B "c"] Contigious = (F, Ok tt)
  /\ channel_length dbg F a = Ok (Some 0)
  /\ read_channel dbg F SStr a [[]; []] = ([[]; []], Ok tt).
Proof. eexists. split; [vm_compute; reflexivity|]. vm_compute. repeat split; reflexivity. Qed.

(** ** C47 Appending after opening is consistent *)
Definition fixed_call (cl : call) : Prop :=
  match cl with CallChans _ t _ _ _ => fixed t | CallProps _ _ _ => True end.
(** Once the index expects the next segment at the end of the file, it does so
    after every successful call. *)
Theorem C47_stays_at_end : forall E H F cl F',
  session E H F -> exact_end H F -> fixed_call cl -> do_call E F cl = (F', Ok tt) ->
  exists s, session E (H ++ [s]) F' /\ exact_end (H ++ [s]) F' /\ ix_next (tf_ix F') = lenN (tf_bytes F').
Proof.
  intros E H F cl F' Se Ex Fx Ew.
  assert (X : exists s bs, wrote E F s F' (Ok tt) /\ tf_bytes F' = tf_bytes F ++ bs /\ lenN bs = 28 + sg_next s).
  { destruct cl as [e path kvs|e t chans vs lay]; cbn [do_call fixed_call] in *.
    - destruct (write_segment e toc_default (Some [mkObj path kvs RINone]) None) as [bs s] eqn:Ws.
      exists s, bs. split; [eapply wrote_props; eauto|]. split.
      + unfold write_properties_e in Ew. rewrite Ws in Ew. destruct (add_segment E (tf_ix F) s). now injection Ew as <- _.
      + pose proof (f_equal fst Ws) as W1. pose proof (f_equal snd Ws) as W2. cbn [fst snd] in W1, W2.
        rewrite <- W1, <- W2, write_segment_len, snd_write. cbn [sg_next]. unfold LEAD_IN, lenN. cbn [length N.of_nat]. lia.
    - destruct (stream_segment e t (tf_ix F) chans vs lay) as [[bs s]|x|x|] eqn:Es;
        try (unfold write_channels_e in Ew; rewrite Es in Ew; discriminate).
      exists s, bs. split; [eapply wrote_chans; eauto|]. split.
      + unfold write_channels_e in Ew. rewrite Es in Ew. destruct (add_segment E (tf_ix F) s). now injection Ew as <- _.
      + unfold stream_segment in Es. destruct chans as [|c0 cs]; [discriminate|].
        destruct (negb (lenN vs mod lenN (c0 :: cs) =? 0)); [discriminate|].
        destruct (check_write_values (tf_ix F) _) as [mt ids]. cbv zeta in Es.
        apply (f_equal (fun r => match r with Ok y => y | _ => (bs, s) end)) in Es. cbv beta iota in Es.
        pose proof (f_equal fst Es) as W1. pose proof (f_equal snd Es) as W2. cbn [fst snd] in W1, W2.
        rewrite <- W1, <- W2, write_segment_len, snd_write. cbn [sg_next slice_block wb_bytes wb_size].
        rewrite data_len by exact Fx. unfold LEAD_IN. lia. }
  destruct X as [s [bs [Wr [Eb Lb]]]]. exists s.
  assert (Se' : session E (H ++ [s]) F') by (eapply ss_write; eauto).
  assert (Ex' : exact_end (H ++ [s]) F') by (unfold exact_end in *; rewrite offset_snoc, Eb, lenN_app, Lb; lia).
  split; [exact Se'|]. split; [exact Ex'|]. rewrite (proj1 (C20_true_addresses _ _ _ Se')). exact Ex'.
Qed.
(** Opening a file that ends with its last segment, then writing. *)
Theorem C47_open_append_partial : forall E f F H e t chans vs lay F' r i p start out,
  tdms_new E f = Ok F -> file_segments E f H -> ix_next (tf_ix F) = lenN f ->
  good_values t chans vs -> described_call H t lay (lenN vs / lenN chans) chans ->
  write_channels_e E e t F chans vs lay = (F', r) -> addressable E (tf_bytes F') ->
  nth_error chans i = Some p -> stored f t H p ->
  r = Ok tt /\ ix_next (tf_ix F') = lenN (tf_bytes F')
  /\ read_channel_from E F' t p start out
     = (overlay out (firstn (length out) (skipn (N.to_nat start)
          (samples_after f t H p ++ dealt lay (length chans) i vs))), Ok tt).
Proof.
  intros E f F H e t chans vs lay F' r i p start out Op Fs Hn [Fx [Rv [Nd [Ne [Nv Dv]]]]] Ds Ew [A1 A2] Hi S0.
  assert (Se : session E H F) by (eapply ss_open; eauto).
  destruct (tdms_new_ok _ _ _ Op) as [_ Ef].
  assert (Ex : exact_end H F) by (unfold exact_end; rewrite Ef, <- Hn; symmetry; apply (C20_true_addresses _ _ _ Se)).
  rewrite <- Ef in S0.
  destruct (write_step E e H F t chans vs lay Se Ex Fx Rv Nd Ne Nv Dv Ds F' r Ew) as [-> [s [bs St]]].
  { etransitivity; [exact A1|reflexivity]. }
  destruct St as [Wr [Eb [_ [Ex1 [_ [_ [_ [_ [_ [Men [Sin _]]]]]]]]]]].
  assert (Se' : session E (H ++ [s]) F') by (eapply ss_write; eauto).
  split; [reflexivity|]. split; [rewrite (proj1 (C20_true_addresses _ _ _ Se')); exact Ex1|].
  destruct (Sin i p Hi S0) as [S1 Q].
  rewrite (C28_window E _ F' t p start out Se' Fx (conj A1 A2)), Q, Ef; [reflexivity| |exact S1].
  apply Men. right. eapply nth_error_In; eauto.
Qed.
Example C47_case :
  let F := open_bytes dbg read_file in
  tdms_new dbg read_file = Ok F /\ ix_next (tf_ix F) = lenN read_file
  /\ read_channel dbg (fst (write_channels dbg SI32 F [c; b] [9; 8; 7; 6]%Z Contigious)) SI32 c (repeat 0%Z 9)
     = ([201; 202; 203; 204; 205; 206; 9; 8; 0]%Z, Ok tt).
Proof. vm_compute. repeat split. Qed.
(** Not so for a file with one to three bytes after the last segment, or with
    the last segment cut short: both open, the next write is acknowledged, its
    values are not read back, and the file can no longer be opened. *)
Theorem C47_trailing_bytes_refuted : exists f F F',
  tdms_new dbg f = Ok F /\ ix_next (tf_ix F) + 3 = lenN f
  /\ write_channels dbg SI32 F [b] [7; 8]%Z Contigious = (F', Ok tt)
  /\ read_channel dbg F' SI32 b [0; 0]%Z = ([117440512; 134217728]%Z, Ok tt)
  /\ exists x, tdms_new dbg (tf_bytes F') = Err x.
Proof.
  exists (seg_i32 LittleE false [a] 2 [1; 2]%Z ++ [x00; x00; x00]). eexists _, _.
  split; [vm_compute; reflexivity|]. split; [reflexivity|]. split; [vm_compute; reflexivity|].
  split; [vm_compute; reflexivity|]. eexists. vm_compute. reflexivity.
Qed.
Theorem C47_cut_short_refuted : exists f F F',
  tdms_new dbg f = Ok F /\ ix_next (tf_ix F) = lenN f + 4
  /\ write_channels dbg SI32 F [b] [7; 8]%Z Contigious = (F', Ok tt)
  /\ read_channel dbg F' SI32 b [0; 0]%Z = ([8; 0]%Z, Err (EIo UnexpectedEof))
  /\ exists x, tdms_new dbg (tf_bytes F') = Err x.
Proof.
  exists (firstn 72 (seg_i32 LittleE false [a] 2 [1; 2]%Z)). eexists _, _.
  split; [vm_compute; reflexivity|]. split; [reflexivity|]. split; [vm_compute; reflexivity|].
  split; [vm_compute; reflexivity|]. eexists. vm_compute. reflexivity.
Qed.

(** ** C48 Data layout deals values to channels as documented *)
Theorem C48_positions : forall (A : Type) n k i j (vs : list A),
  length vs = (n * k)%nat -> (i < n)%nat -> (j < k)%nat ->
  nth_error (dealt Interleaved n i vs) j = nth_error vs (j * n + i)
  /\ nth_error (dealt Contigious n i vs) j = nth_error vs (i * k + j).
Proof.
  intros A n k i j vs Hl Hi Hj.
  assert (Hin : forall q, (q < length vs)%nat -> exists v, nth_error vs q = Some v).
  { intros q Hq. apply nth_error_Some in Hq. destruct (nth_error vs q) as [v|]; [now exists v|congruence]. }
  destruct vs as [|d0 vs0]; [cbn in Hl; nia|]. set (vs := d0 :: vs0) in *.
  assert (Hn : forall q, (q < length vs)%nat -> nth_error vs q = Some (nth q vs d0)).
  { intros q Hq. destruct (Hin q Hq) as [v Hv]. rewrite Hv. f_equal. symmetry. now apply nth_error_nth. }
  assert (Ns : forall (h : nat -> A), nth_error (map h (seq 0 k)) j = Some (h j)).
  { intros h. rewrite nth_error_map. assert (Z : nth_error (seq 0 k) j = Some j).
    { rewrite (nth_error_nth' _ 0%nat) by (rewrite seq_length; exact Hj). f_equal. now apply seq_nth. }
    now rewrite Z. }
  unfold dealt. cbv zeta. rewrite Hl, (Nat.mul_comm n k), Nat.div_mul by lia. split.
  - rewrite (flat_nth (fun j => (j * n + i)%nat) (fun j => nth (j * n + i) vs d0)).
    + rewrite Ns. symmetry. apply Hn. nia.
    + intros q Hq. apply Hn. nia.
  - rewrite (run_nth k (fun j => nth (i * k + j) vs d0)).
    + rewrite Ns. symmetry. apply Hn. nia.
    + intros q Hq. apply Hn. nia.
Qed.
(** The values of an interleaved call rearranged for a contiguous one. *)
Definition regroup {A} (n : nat) (vs : list A) : list A :=
  concat (map (fun i => dealt Interleaved n i vs) (seq 0 n)).
Lemma concat_run {A} k (g : nat -> list A) : forall n s i, (forall i, (s <= i < s + n)%nat -> length (g i) = k) -> (i < n)%nat ->
  firstn k (skipn (i * k) (concat (map g (seq s n)))) = g (s + i)%nat.
Proof.
  induction n as [|n IH]; intros s i Hg Hi; [lia|]. cbn [seq map concat].
  assert (Hs : length (g s) = k) by (apply Hg; lia). destruct i as [|i].
  - cbn [Nat.mul skipn]. rewrite Nat.add_0_r, <- Hs. apply firstn_app_exact.
  - replace (S i * k)%nat with (length (g s) + i * k)%nat by lia.
    rewrite skipn_app, skipn_all2 by lia. cbn [app].
    replace (length (g s) + i * k - length (g s))%nat with (i * k)%nat by lia.
    rewrite IH by (try lia; intros j Hj; apply Hg; lia). f_equal. lia.
Qed.
Lemma concat_len {A} k (g : nat -> list A) : forall n s, (forall i, (s <= i < s + n)%nat -> length (g i) = k) ->
  length (concat (map g (seq s n))) = (n * k)%nat.
Proof.
  induction n as [|n IH]; intros s Hg; [reflexivity|]. cbn [seq map concat].
  rewrite app_length, Hg, IH by (try lia; intros j Hj; apply Hg; lia). lia.
Qed.
Theorem C48_regroup : forall (A : Type) n k i (vs : list A),
  length vs = (n * k)%nat -> (i < n)%nat ->
  dealt Contigious n i (regroup n vs) = dealt Interleaved n i vs.
Proof.
  intros A n k i vs Hl Hi. unfold regroup. unfold dealt at 1. cbv zeta.
  assert (Hd : forall i, (0 <= i < 0 + n)%nat -> length (dealt Interleaved n i vs) = k).
  { intros q Hq. apply dealt_length; [lia|exact Hl]. }
  rewrite (concat_len k) by exact Hd. rewrite (Nat.mul_comm n k), Nat.div_mul by lia.
  now rewrite (concat_run k) by (exact Hd || exact Hi).
Qed.
(** So both calls give every channel the same values: read back from the files,
    they are equal, whatever the byte orders. *)
Theorem C48_read_back : forall E e1 e2 t chans vs F1 F2 r1 r2 p start out,
  good_values t chans vs ->
  write_channels_e E e1 t empty_file chans vs Interleaved = (F1, r1) ->
  write_channels_e E e2 t empty_file chans (regroup (length chans) vs) Contigious = (F2, r2) ->
  addressable E (tf_bytes F1) -> addressable E (tf_bytes F2) -> In p chans ->
  r1 = Ok tt /\ r2 = Ok tt
  /\ read_channel_from E F1 t p start out = read_channel_from E F2 t p start out
  /\ channel_length E F1 p = channel_length E F2 p.
Proof.
  intros E e1 e2 t chans vs F1 F2 r1 r2 p start out Gv W1 W2 Ad1 Ad2 Hp.
  pose proof Gv as [Fx [Rv [Nd [Ne [Nv Dv]]]]].
  destruct (share_vs vs chans Ne Nv Dv) as [Hn [Hk Hnk]].
  assert (Hl : length vs = (length chans * N.to_nat (lenN vs / lenN chans))%nat) by (unfold lenN at 1 2 in Hnk; lia).
  assert (Lr : length (regroup (length chans) vs) = length vs).
  { unfold regroup. rewrite (concat_len (N.to_nat (lenN vs / lenN chans))); [lia|].
    intros q Hq. apply dealt_length; [lia|exact Hl]. }
  destruct (In_nth_error _ _ Hp) as [i Hi].
  assert (Hil : (i < length chans)%nat) by (apply nth_error_Some; congruence).
  assert (Gv2 : good_values t chans (regroup (length chans) vs)).
  { split; [exact Fx|]. split.
    - apply Forall_forall. intros v Hv. unfold regroup in Hv. apply in_concat in Hv. destruct Hv as [l [Hl1 Hv]].
      apply in_map_iff in Hl1. destruct Hl1 as [q [<- _]]. unfold dealt in Hv. apply in_flat_map in Hv.
      destruct Hv as [j [_ Hv]]. destruct (nth_error vs (j * length chans + q)) eqn:Hq; [|destruct Hv].
      destruct Hv as [<-|[]]. rewrite Forall_forall in Rv. apply Rv. eapply nth_error_In; eauto.
    - split; [exact Nd|]. split; [exact Ne|]. split.
      + intros X. apply Nv. apply length_zero_iff_nil. rewrite <- Lr, X. reflexivity.
      + unfold lenN in *. now rewrite Lr. }
  destruct (C40_fresh_file_partial E [CallChans e1 t chans vs Interleaved] F1 [r1] t p [dealt Interleaved (length chans) i vs] start out) as [Rs1 [R1 L1]];
    [cbn [sequenced]; auto|cbn [run_calls do_call]; now rewrite W1|exact Ad1|exact Fx|repeat constructor; exact Hi|now constructor|].
  destruct (C40_fresh_file_partial E [CallChans e2 t chans (regroup (length chans) vs) Contigious] F2 [r2] t p
    [dealt Contigious (length chans) i (regroup (length chans) vs)] start out) as [Rs2 [R2 L2]];
    [cbn [sequenced]; auto|cbn [run_calls do_call]; now rewrite W2|exact Ad2|exact Fx|repeat constructor; exact Hi|now constructor|].
  rewrite (C48_regroup _ _ (N.to_nat (lenN vs / lenN chans)) i vs Hl Hil) in R2, L2.
  inversion Rs1; inversion Rs2; subst. rewrite R1, R2, L1, L2. auto.
Qed.
Example C48_case : dealt Interleaved 3 1 [1; 11; 21; 2; 12; 22] = [11; 12]
  /\ regroup 3 [1; 11; 21; 2; 12; 22] = [1; 2; 11; 12; 21; 22]
  /\ dealt Contigious 3 1 [1; 2; 11; 12; 21; 22] = [11; 12].
Proof. vm_compute. repeat split. Qed.

(** ** C49 Byte order is per segment *)
(** The byte order of a block is that of its own segment. *)
Theorem C49_block_order : forall E H F bk,
  session E H F -> In bk (ix_blocks (tf_ix F)) ->
  exists H1 s H2, H = H1 ++ s :: H2 /\ b_start bk = offset H1 + 28 + sg_raw s
    /\ b_order bk = (if toc_big (sg_toc s) then BigE else LittleE).
Proof.
  intros E H F bk Se Hb. destruct (C14_incremental E H F Se) as [_ [_ [_ [Hbs _]]]]. rewrite Hbs in Hb.
  unfold blocks_after in Hb. destruct (blocks_from_in _ _ _ Hb) as [H1 [s [H2 [-> [_ ->]]]]].
  exists H1, s, H2. split; [reflexivity|]. cbn [app block_of b_start b_order]. split; [reflexivity|]. reflexivity.
Qed.
(** The metadata of a segment is decoded with the byte order its own ToC
    announces, whatever comes before and after. *)
Theorem C49_metadata_order : forall E e tc m d pre post,
  good_meta E m ->
  metadata_size m + (match d with Some d => wb_size d | None => 0 end) < 2 ^ 64 ->
  exists s, segment_read E (pre ++ fst (write_segment e tc (Some m) d) ++ post) (lenN pre) = Ok s
    /\ toc_big (sg_toc s) = (match e with BigE => true | LittleE => false end) /\ sg_meta s = Some m.
Proof.
  intros E e tc m d pre post Gm Hs. exists (snd (write_segment e tc (Some m) d)).
  split; [now apply segment_round_trip|]. split; reflexivity.
Qed.
(** Programs that differ only in the byte order of each call give files with the
    same samples. *)
Inductive reordered : call -> call -> Prop :=
| ro_props e e' path kvs : reordered (CallProps e path kvs) (CallProps e' path kvs)
| ro_chans e e' t chans vs lay : reordered (CallChans e t chans vs lay) (CallChans e' t chans vs lay).
Theorem C49_mixed_orders_partial : forall E cs1 cs2 F1 F2 rs1 rs2 t p vss start out,
  Forall2 reordered cs1 cs2 -> sequenced None cs1 ->
  run_calls E empty_file cs1 = (F1, rs1) -> run_calls E empty_file cs2 = (F2, rs2) ->
  addressable E (tf_bytes F1) -> addressable E (tf_bytes F2) -> fixed t -> Exists (names p) cs1 ->
  Forall2 (gives t p) cs1 vss ->
  Forall (eq (Ok tt)) rs1 /\ Forall (eq (Ok tt)) rs2
  /\ read_channel_from E F1 t p start out = read_channel_from E F2 t p start out
  /\ channel_length E F1 p = channel_length E F2 p.
Proof.
  intros E cs1 cs2 F1 F2 rs1 rs2 t p vss start out Ro Sq R1 R2 Ad1 Ad2 Fx Hn G.
  assert (Sq2 : forall prev, sequenced prev cs1 -> sequenced prev cs2).
  { clear -Ro. induction Ro as [|c1 c2 l1 l2 Hc _ IH]; intros prev Sq; [exact Sq|].
    destruct Hc; cbn [sequenced] in *; [now apply IH|]. destruct Sq as [A B]. split; [exact A|].
    destruct prev as [[[d n] ch0]|]; [|now apply IH]. destruct B as [[B C]|[B [C [D G]]]]; [left|right]; auto 6. }
  assert (G2 : Forall2 (gives t p) cs2 vss).
  { clear -Ro G. revert vss G. induction Ro as [|c1 c2 l1 l2 Hc _ IH]; intros vss G; inversion G as [|? ws ? wss G1 Gr]; subst; constructor; [|now apply IH].
    destruct Hc.
    - inversion G1; subst. apply gives_props.
    - destruct (gives_inv _ _ _ _ _ _ _ _ G1) as [[Hp ->]|[Q [i [Hi ->]]]]; [now apply gives_other|].
      subst. cbn [eq_rect]. now apply gives_chans. }
  assert (Hn2 : Exists (names p) cs2).
  { clear -Ro Hn. induction Ro as [|c1 c2 l1 l2 Hc _ IH]; inversion Hn; subst.
    - left. destruct Hc; assumption.
    - right. now apply IH. }
  destruct (C40_fresh_file_partial E cs1 F1 rs1 t p vss start out Sq R1 Ad1 Fx G Hn) as [A1 [B1 C1]].
  destruct (C40_fresh_file_partial E cs2 F2 rs2 t p vss start out (Sq2 _ Sq) R2 Ad2 Fx G2 Hn2) as [A2 [B2 C2]].
  rewrite B1, B2, C1, C2. auto.
Qed.
(** [C40_case] mixes both orders; here the two files differ. *)
Example C49_case :
  let f e1 e2 := tf_bytes (fst (run_calls dbg empty_file [CallChans e1 SI32 [a] [1; 2]%Z Contigious; CallChans e2 SI32 [b; a] [3; 4]%Z Contigious])) in
  f LittleE BigE <> f BigE LittleE /\ lenN (f LittleE BigE) = lenN (f BigE LittleE).
Proof. vm_compute. split; [discriminate|reflexivity]. Qed.

Print Assumptions C37_only_appends.
Print Assumptions C37_one_segment.
Print Assumptions C37_properties_segment.
Print Assumptions C38_no_channels.
Print Assumptions C38_bad_length.
Print Assumptions C38_only_these.
Print Assumptions C40_program_partial.
Print Assumptions C40_fresh_file_partial.
Print Assumptions C40_extra_channel_refuted.
Print Assumptions C39_refused_arguments.
Print Assumptions C39_good_calls_succeed_partial.
Print Assumptions C39_no_values_refuted.
Print Assumptions C42_repeated_partial.
Print Assumptions C42_count_refuted.
Print Assumptions C42_type_refuted.
Print Assumptions C43_others_unchanged_partial.
Print Assumptions C43_shorter_list_refuted.
Print Assumptions C45_fixed_types_partial.
Print Assumptions C45_timestamp_refuted.
Print Assumptions C45_extended_refuted.
Print Assumptions C45_string_refuted.
Print Assumptions C47_stays_at_end.
Print Assumptions C47_open_append_partial.
Print Assumptions C47_trailing_bytes_refuted.
Print Assumptions C47_cut_short_refuted.
Print Assumptions C48_positions.
Print Assumptions C48_regroup.
Print Assumptions C48_read_back.
Print Assumptions C49_block_order.
Print Assumptions C49_metadata_order.
Print Assumptions C49_mixed_orders_partial.
