(** * Claim C76: the parts of a file do not overlap *)
From Coq Require Import Strings.String.
From Verif Require Import Base Lib DataTypes MetaData DataBlock Index RawData ChannelReader TdmsFile
  SpecCodec SpecIndex SpecSession SpecRead SpecWrite Codec_proofs Segment_proofs History_proofs Write_proofs Step_proofs Program_proofs
  Vectors Thm_Index Thm_Write.
Close Scope string_scope.
Local Notation a := (ch "g" "a").
Local Notation b := (ch "g" "b").

(** A segment cut into lead-in, metadata and data. *)
Record part := mkPart { pt_lead : list byte; pt_meta : list byte; pt_data : list byte }.
Definition part_bytes (x : part) : list byte := pt_lead x ++ pt_meta x ++ pt_data x.
(** The segment [s], as the index sees it, has these parts: 28 bytes, as many
    bytes of metadata as lie before the raw data, and the data up to the next
    segment; no data are expected where there are none. *)
Definition parts_of (s : segment) (x : part) : Prop :=
  lenN (pt_lead x) = 28 /\ sg_raw s = lenN (pt_meta x) /\ sg_next s = lenN (pt_meta x) + lenN (pt_data x)
  /\ (toc_raw (sg_toc s) = false -> pt_data x = []) /\ (toc_meta (sg_toc s) = false -> pt_meta x = []).

(** ** C76 *)
Lemma write_parts e tc m d :
  (forall w, d = Some w -> wb_size w = lenN (wb_bytes w)) ->
  exists x, part_bytes x = fst (write_segment e tc m d) /\ parts_of (snd (write_segment e tc m d)) x.
Proof.
  intros Hd. pose proof (write_segment_len e tc m d) as L. unfold write_segment in *. cbn [fst snd] in *.
  rewrite (app_assoc (enc_uint e 8 _)), (app_assoc (enc_uint e 4 _)), (app_assoc (write_toc _)), (app_assoc TDSm) in *.
  match goal with |- exists x, part_bytes x = ?l ++ ?m ++ ?w /\ _ => exists (mkPart l m w); set (l0 := l) in *; set (m0 := m) in *; set (w0 := w) in * end.
  assert (Lm : lenN m0 = match m with Some m => metadata_size m | None => 0 end)
    by (subst m0; destruct m; [apply metadata_size_eq|reflexivity]).
  assert (Lw : lenN w0 = match d with Some d => wb_size d | None => 0 end)
    by (subst w0; destruct d as [w|]; [symmetry; now apply Hd|reflexivity]).
  split; [reflexivity|]. unfold parts_of. cbn [pt_lead pt_meta pt_data sg_raw sg_next sg_toc].
  split; [rewrite !lenN_app, Lm in L; unfold LEAD_IN in L; lia|].
  split; [now rewrite Lm|]. split; [now rewrite Lm, Lw|]. split; intros T.
  - subst w0. destruct d; [destruct e, m; discriminate T|reflexivity].
  - subst m0. destruct m; [destruct e, d; discriminate T|reflexivity].
Qed.

Lemma do_call_parts E F cl F' : fixed_call cl -> do_call E F cl = (F', Ok tt) ->
  exists s x, wrote E F s F' (Ok tt) /\ tf_bytes F' = tf_bytes F ++ part_bytes x /\ parts_of s x.
Proof.
  intros Fx Ew. destruct cl as [e path kvs|e t chans vs lay]; cbn [do_call fixed_call] in *.
  - destruct (write_segment e toc_default (Some [mkObj path kvs RINone]) None) as [bs s] eqn:Ws.
    destruct (write_parts e toc_default (Some [mkObj path kvs RINone]) None) as [x [Bx Px]]; [discriminate|].
    rewrite Ws in Bx, Px. exists s, x. split; [eapply wrote_props; eauto|]. split; [|exact Px].
    rewrite Bx. unfold write_properties_e in Ew. rewrite Ws in Ew. destruct (add_segment E (tf_ix F) s). now injection Ew as <- _.
  - destruct (stream_segment e t (tf_ix F) chans vs lay) as [[bs s]|y|y|] eqn:Es;
      try (unfold write_channels_e in Ew; rewrite Es in Ew; discriminate).
    assert (X : exists x, part_bytes x = bs /\ parts_of s x).
    { unfold stream_segment in Es. destruct chans as [|c0 cs]; [discriminate|].
      destruct (negb (lenN vs mod lenN (c0 :: cs) =? 0)); [discriminate|].
      destruct (check_write_values (tf_ix F) _) as [mt ids]. cbv zeta in Es.
      apply (f_equal (fun r => match r with Ok y => y | _ => (bs, s) end)) in Es. cbv beta iota in Es.
      match type of Es with write_segment ?e ?tc ?m ?d = _ => destruct (write_parts e tc m d) as [x [Bx Px]] end.
      - intros w Hw. injection Hw as <-. cbn [slice_block wb_size wb_bytes]. now rewrite data_len.
      - rewrite Es in Bx, Px. eauto. }
    destruct X as [x [Bx Px]]. exists s, x. split; [eapply wrote_chans; eauto|]. split; [|exact Px].
    rewrite Bx. unfold write_channels_e in Ew. rewrite Es in Ew. destruct (add_segment E (tf_ix F) s). now injection Ew as <- _.
Qed.

(** Files made by calls for elements of fixed size: the file is its segments
    one after the other, each of them its three parts.  Missing: files made by
    other programs ([C76_data_in_metadata_refuted], [C76_segment_in_metadata_refuted])
    and elements of other types (findings 5 to 7). *)
Theorem C76_written_partial : forall E cs F rs,
  Forall fixed_call cs -> run_calls E empty_file cs = (F, rs) -> Forall (eq (Ok tt)) rs ->
  exists H xs, session E H F /\ tf_bytes F = concat (map part_bytes xs) /\ Forall2 parts_of H xs.
Proof.
  intros E cs F rs Fx R Ok0.
  assert (G : forall cs F0 H0 xs0, session E H0 F0 -> tf_bytes F0 = concat (map part_bytes xs0) -> Forall2 parts_of H0 xs0 ->
    forall F rs, Forall fixed_call cs -> run_calls E F0 cs = (F, rs) -> Forall (eq (Ok tt)) rs ->
    exists H xs, session E H F /\ tf_bytes F = concat (map part_bytes xs) /\ Forall2 parts_of H xs).
  { clear. induction cs as [|cl cs IH]; intros F0 H0 xs0 Se Eb Pa F rs Fx R Ok0; cbn [run_calls] in R.
    - injection R as <- <-. eauto.
    - destruct (do_call E F0 cl) as [F1 y] eqn:D. destruct (run_calls E F1 cs) as [F2 ys] eqn:Rn. injection R as <- <-.
      inversion Fx as [|? ? Fx1 Fx2]; subst. inversion Ok0 as [|? ? O1 O2]; subst.
      destruct (do_call_parts E F0 cl F1 Fx1 D) as [s [x [Wr [Bx Px]]]].
      apply (IH F1 (H0 ++ [s]) (xs0 ++ [x])) with (rs := ys); auto.
      + eapply ss_write; eauto.
      + rewrite map_app, concat_app, Bx, Eb. cbn [map concat]. now rewrite app_nil_r.
      + apply Forall2_app; [exact Pa|]. repeat constructor; apply Px. }
  exact (G cs empty_file [] [] (fresh_session E) eq_refl (Forall2_nil _) F rs Fx R Ok0).
Qed.
Example C76_case : exists F rs,
  run_calls dbg empty_file C40_prog = (F, rs) /\ Forall (eq (Ok tt)) rs /\ Forall fixed_call C40_prog /\ lenN (tf_bytes F) = 553.
Proof.
  eexists _, _. split; [vm_compute; reflexivity|]. split; [repeat constructor|].
  split; [|vm_compute; reflexivity].
  unfold C40_prog. repeat (apply Forall_cons || apply Forall_nil); cbn [fixed_call]; try exact Logic.I; (split; [|split]); discriminate.
Qed.

(** The offset of the raw data is not compared with the end of the metadata.
    Here it is 0: the samples of the channel are the metadata. *)
Definition lead (flags next raw : N) : list byte :=
  B "TDSm" ++ bytes [flags; 0; 0; 0; 105; 18; 0; 0; next; 0; 0; 0; 0; 0; 0; 0; raw; 0; 0; 0; 0; 0; 0; 0].
Definition C76_own : list byte :=
  lead 14 40 0
  ++ bytes [1; 0; 0; 0; 8; 0; 0; 0] ++ a ++ bytes [20; 0; 0; 0; 1; 0; 0; 0; 1; 0; 0; 0; 40; 0; 0; 0; 0; 0; 0; 0; 0; 0; 0; 0].
Theorem C76_data_in_metadata_refuted : exists F,
  tdms_new dbg C76_own = Ok F
  /\ channel_length dbg F a = Ok (Some 40)
  /\ read_channel dbg F SI8 a (repeat 0%Z 12) = ([1; 0; 0; 0; 8; 0; 0; 0; 47; 39; 103; 39]%Z, Ok tt).
Proof. eexists. split; [vm_compute; reflexivity|]. vm_compute. split; reflexivity. Qed.

(** Nor is the start of the next segment: here it lies in the text of a
    property, which is at the same time the second segment. *)
Definition C76_inner : list byte :=
  lead 6 37 37 ++ bytes [1; 0; 0; 0; 5; 0; 0; 0] ++ B "/'in'"
  ++ bytes [20; 0; 0; 0; 1; 0; 0; 0; 1; 0; 0; 0; 4; 0; 0; 0; 0; 0; 0; 0; 0; 0; 0; 0].
Definition C76_nested : list byte :=
  lead 2 38 38
  ++ bytes [1; 0; 0; 0; 6; 0; 0; 0] ++ B "/'out'" ++ bytes [255; 255; 255; 255; 1; 0; 0; 0]
  ++ bytes [4; 0; 0; 0] ++ B "text" ++ bytes [32; 0; 0; 0; lenN C76_inner; 0; 0; 0] ++ C76_inner.
Theorem C76_segment_in_metadata_refuted : exists F,
  tdms_new dbg C76_nested = Ok F
  /\ read_property F (B "/'out'") (B "text") = Ok (Some (PString C76_inner))
  /\ read_property F (B "/'in'") (B "x") = Ok None.
Proof. eexists. split; [vm_compute; reflexivity|]. vm_compute. split; reflexivity. Qed.

(** ** C36 again: a channel stored beside a timestamp channel *)
(** One timestamp (16 bytes, as TDMS prescribes) followed by the value 7 of
    channel [a]: reading [a] gives bytes of the timestamp. *)
Definition C36_beside : list byte :=
  lead 14 96 76
  ++ bytes [2; 0; 0; 0; 8; 0; 0; 0] ++ ch "g" "t" ++ bytes [20; 0; 0; 0; 68; 0; 0; 0; 1; 0; 0; 0; 1; 0; 0; 0; 0; 0; 0; 0; 0; 0; 0; 0]
  ++ bytes [8; 0; 0; 0] ++ a ++ bytes [20; 0; 0; 0; 3; 0; 0; 0; 1; 0; 0; 0; 1; 0; 0; 0; 0; 0; 0; 0; 0; 0; 0; 0]
  ++ bytes [0; 0; 0; 0; 0; 0; 0; 0; 42; 0; 0; 0; 0; 0; 0; 0] ++ bytes [7; 0; 0; 0].
Theorem C36_beside_timestamp_refuted : exists F,
  tdms_new dbg C36_beside = Ok F
  /\ lenN C36_beside = 28 + 76 + 16 + 4
  /\ channel_length dbg F a = Ok (Some 1)
  /\ read_channel dbg F SI32 a [0]%Z = ([42]%Z, Ok tt).
Proof. eexists. split; [vm_compute; reflexivity|]. vm_compute. repeat split; reflexivity. Qed.

(** The widths the library assumes for all types, seen from a channel stored
    behind one value of each: it is found after exactly so many bytes.  The format
    description agrees except for the timestamp and the string; it gives no width
    for fixed-point and DAQmx values.  (For the codes 12 and 13 see C78.) *)
Definition C36_behind (code w : N) : list byte :=
  lead 14 (80 + w) 76
  ++ bytes [2; 0; 0; 0; 8; 0; 0; 0] ++ ch "g" "t" ++ bytes [20; 0; 0; 0] ++ le_bytes 4 code
  ++ bytes [1; 0; 0; 0; 1; 0; 0; 0; 0; 0; 0; 0; 0; 0; 0; 0]
  ++ bytes [8; 0; 0; 0] ++ a ++ bytes [20; 0; 0; 0; 3; 0; 0; 0; 1; 0; 0; 0; 1; 0; 0; 0; 0; 0; 0; 0; 0; 0; 0; 0]
  ++ repeat x01 (N.to_nat w) ++ bytes [7; 0; 0; 0].
Example C36_widths : Forall (fun cw =>
    (F <- tdms_new dbg (C36_behind (fst cw) (snd cw)) ;; Ok (read_channel dbg F SI32 a [0]%Z)) = Ok ([7]%Z, Ok tt))
  [(0, 0); (1, 1); (2, 2); (3, 4); (4, 8); (5, 1); (6, 2); (7, 4); (8, 8); (9, 4); (10, 8); (11, 16); (12, 8);
   (13, 16); (25, 4); (32, 0); (33, 1); (68, 8); (79, 8); (524300, 8); (1048589, 16); (4294967295, 4)].
Proof. repeat (apply Forall_cons; [vm_compute; reflexivity|]). apply Forall_nil. Qed.

Print Assumptions C36_beside_timestamp_refuted.
Print Assumptions C76_written_partial.
Print Assumptions C76_data_in_metadata_refuted.
Print Assumptions C76_segment_in_metadata_refuted.
