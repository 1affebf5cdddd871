(** * Conformance examples: the remaining unit tests of /repo's src replayed on
      the model.  Like Vectors.v these are tests of the model, not proofs of
      properties.  Left out are the tests of what is not modelled: those of
      chrono conversions (properties.rs) and one that /repo ignores
      (records.rs test_compresses_similar_skips_for_performance). *)
From Coq Require Import Strings.String.
From Verif Require Import Base Utf8 DataTypes Paths MetaData Maps DataBlock Index
  RawData ChannelReader TdmsFile Vectors.

Close Scope string_scope.

(** ** index/building.rs *)
Definition f64s (n : N) : rawidx := RIRaw (mkRaw DoubleFloat n None).
Definition g_obj (path : str) (v : Z) : objmeta := mkObj path [(B "Prop", PI32 v)] RINone.
Definition ch1 := ch "group" "ch1".
Definition ch2 := ch "group" "ch2".
Definition ch3 := ch "group" "ch3".
Definition ch1_obj := mkObj ch1 [(B "Prop1", PI32 (-1))] (f64s 1000).
Definition ch2_obj := mkObj ch2 [(B "Prop2", PI32 (-2))] (f64s 1000).
Definition ch3_obj := mkObj ch3 [(B "Prop3", PI32 (-3))] (f64s 1000).
Definition seg (toc next : N) (objs : list objmeta) : segment := mkSeg (toc_of_u32 toc) next 20 (Some objs).
Definition first_seg (next : N) : segment := seg 14 next [g_obj (path_group (B "group")) (-51); ch1_obj; ch2_obj].
Definition same_obj (p : str) : objmeta := mkObj p [] RIMatch.
(** Segments added in turn, stopping at the first error. *)
Fixpoint add_all (ix : index) (l : list segment) : res index :=
  match l with
  | [] => Ok ix
  | s :: l' => match add_segment dbg ix s with
               | (ix', Ok _) => add_all ix' l'
               | (_, Err e) => Err e
               | (_, Panic p) => Panic p
               | (_, Diverge) => Diverge
               end
  end.
Definition indexed (l : list segment) : index := match add_all index_new l with Ok ix => ix | _ => index_new end.
Definition positions (ix : index) := (get_positions ix ch1, get_positions ix ch2).
Definition props3 (ix : index) :=
  (get_object_properties ix (path_group (B "group")), get_object_properties ix ch1, get_object_properties ix ch2).
Definition two_f64 := [mkRaw DoubleFloat 1000 None; mkRaw DoubleFloat 1000 None].

(** test_single_segment. *)
Example single_segment :
  let ix := indexed [first_seg 20000] in
  props3 ix = (Some [(B "Prop", PI32 (-51))], Some [(B "Prop1", PI32 (-1))], Some [(B "Prop2", PI32 (-2))])
  /\ positions ix = (Some [mkLoc 0 0 1000], Some [mkLoc 0 1 1000])
  /\ ix_channel_length dbg ix ch1 = Ok (Some 1000) /\ ix_channel_length dbg ix ch2 = Ok (Some 1000).
Proof. vm_compute. auto. Qed.
(** test_builds_correct_length_with_multiple_write_blocks. *)
Example two_chunks :
  let ix := indexed [first_seg 33000] in
  props3 ix = (Some [(B "Prop", PI32 (-51))], Some [(B "Prop1", PI32 (-1))], Some [(B "Prop2", PI32 (-2))])
  /\ positions ix = (Some [mkLoc 0 0 2000], Some [mkLoc 0 1 2000])
  /\ ix_channel_length dbg ix ch1 = Ok (Some 2000) /\ ix_channel_length dbg ix ch2 = Ok (Some 2000).
Proof. vm_compute. auto. Qed.
(** correctly_generates_the_data_block, ..._same_as_previous and
    ..._same_as_previous_new_list. *)
Definition odd_group_seg (next : N) : segment := seg 14 next [g_obj (B "group") (-51); ch1_obj; ch2_obj].
Example data_blocks :
  get_data_block (indexed [odd_group_seg 500]) 0 = Some (mkBlock 48 480 Contigious two_f64 LittleE)
  /\ get_data_block (indexed [odd_group_seg 500; seg 10 500 [same_obj ch1; same_obj ch2]]) 1
     = Some (mkBlock 576 480 Contigious two_f64 LittleE)
  /\ get_data_block (indexed [odd_group_seg 500; seg 14 500 [same_obj ch1; same_obj ch2]]) 1
     = Some (mkBlock 576 480 Contigious two_f64 LittleE).
Proof. vm_compute. auto. Qed.
(** errors_if_no_previous_datatype_is_found, does_not_generate_block_for_meta_only. *)
Example no_previous : exists e, add_all index_new [seg 14 500 [same_obj ch1; same_obj ch2]] = Err e.
Proof. eexists. vm_compute. reflexivity. Qed.
Example meta_only : exists ix, add_all index_new [seg 2 20 [g_obj (B "group") (-51)]] = Ok ix /\ get_data_block ix 0 = None.
Proof. eexists. split; vm_compute; reflexivity. Qed.
(** updates_existing_properties. *)
Example updates_properties :
  let ix := indexed [odd_group_seg 500; seg 2 500 [g_obj (path_group (B "group")) (-52); mkObj ch1 [(B "Prop1", PI32 (-2))] RINone]] in
  get_object_properties ix (path_group (B "group")) = Some [(B "Prop", PI32 (-52))]
  /\ get_object_properties ix ch1 = Some [(B "Prop1", PI32 (-2))].
Proof. vm_compute. auto. Qed.
(** can_update_properties_with_no_changes_to_data_layout. *)
Definition both_blocks :=
  (Some [mkLoc 0 0 1000; mkLoc 1 0 1000], Some [mkLoc 0 1 1000; mkLoc 1 1 1000]).
Example keeps_layout :
  let ix := indexed [first_seg 20000; seg 10 20000 [mkObj ch1 [(B "Prop1", PI32 (-2))] RIMatch]] in
  props3 ix = (Some [(B "Prop", PI32 (-51))], Some [(B "Prop1", PI32 (-2))], Some [(B "Prop2", PI32 (-2))])
  /\ positions ix = both_blocks.
Proof. vm_compute. auto. Qed.
(** can_keep_data_with_no_objects_listed, can_keep_data_with_no_metadata_in_toc. *)
Example keeps_list :
  positions (indexed [odd_group_seg 20000; seg 10 20000 []]) = both_blocks
  /\ positions (indexed [odd_group_seg 20000; seg 8 20000 []]) = both_blocks.
Proof. vm_compute. auto. Qed.
(** can_add_channel_to_active_list. *)
Example adds_channel :
  let ix := indexed [odd_group_seg 20000; seg 10 25000 [ch3_obj]] in
  get_object_properties ix ch3 = Some [(B "Prop3", PI32 (-3))] /\ positions ix = both_blocks
  /\ get_positions ix ch3 = Some [mkLoc 1 2 1000].
Proof. vm_compute. auto. Qed.
(** can_replace_the_existing_list. *)
Example replaces_list :
  let ix := indexed [odd_group_seg 20000; seg 14 9000 [ch3_obj]] in
  get_object_properties ix ch3 = Some [(B "Prop3", PI32 (-3))]
  /\ positions ix = (Some [mkLoc 0 0 1000], Some [mkLoc 0 1 1000]) /\ get_positions ix ch3 = Some [mkLoc 1 0 1000].
Proof. vm_compute. auto. Qed.
(** can_re_add_channel_to_active_list. *)
Example re_adds_channel :
  let ix := indexed [odd_group_seg 17000; seg 14 9000 [ch3_obj]; seg 10 25000 [mkObj ch1 [(B "Prop3", PI32 (-3))] (f64s 1000)]] in
  positions ix = (Some [mkLoc 0 0 1000; mkLoc 2 1 1000], Some [mkLoc 0 1 1000])
  /\ get_positions ix ch3 = Some [mkLoc 1 0 1000; mkLoc 2 0 1000].
Proof. vm_compute. auto. Qed.
(** test_toc_includes_data_but_no_active_channels, test_catches_next_segment_overflow
    and test_toc_includes_data_but_no_size. *)
Example bad_segments :
  add_all index_new [seg 14 20000 [g_obj (path_group (B "group")) (-51)]] = Err ESegmentTocDataBlockWithoutDataChannels
  /\ add_all index_new [seg 2 0xFFFFFFFFFFFFFFE4 [g_obj (path_group (B "group")) (-51)]] = Err ESegmentAddressOverflow
  /\ add_all index_new [seg 14 20 [g_obj (path_group (B "group")) (-51)]] = Err ESegmentTocDataBlockWithoutDataChannels.
Proof. vm_compute. auto. Qed.

(** ** index/writing.rs *)
Definition asks (p q : str) (m n : N) := [(p, mkRaw DoubleFloat m None); (q, mkRaw DoubleFloat n None)].
(** matches_live_empty_index, matches_live_does_match,
    matches_live_repeated_same_format, matches_live_new_format,
    matches_live_no_match_different_channels and
    uses_previous_data_format_even_with_no_match. *)
Example write_values :
  check_write_values index_new (asks ch1 ch2 1000 1000) = (false, [(ch1, f64s 1000); (ch2, f64s 1000)])
  /\ check_write_values (indexed [odd_group_seg 500]) (asks ch1 ch2 1000 1000) = (true, [(ch1, RIMatch); (ch2, RIMatch)])
  /\ check_write_values (indexed [odd_group_seg 500; seg 10 500 [same_obj ch1; same_obj ch2]]) (asks ch1 ch2 1000 1000)
     = (true, [(ch1, RIMatch); (ch2, RIMatch)])
  /\ check_write_values (indexed [odd_group_seg 500]) (asks ch1 ch2 1000 2000) = (true, [(ch1, RIMatch); (ch2, f64s 2000)])
  /\ check_write_values (indexed [odd_group_seg 500]) (asks (B "group2/ch1") (B "group2/ch2") 1000 1000)
     = (false, [(B "group2/ch1", f64s 1000); (B "group2/ch2", f64s 1000)])
  /\ check_write_values
       (indexed [odd_group_seg 500;
                 seg 14 500 [g_obj (B "group2") (-51); mkObj (B "group2/ch1") [(B "Prop1", PI32 (-1))] (f64s 1000);
                             mkObj (B "group2/ch2") [(B "Prop2", PI32 (-2))] (f64s 1000)]]) (asks ch1 ch2 1000 1000)
     = (false, [(ch1, RIMatch); (ch2, RIMatch)]).
Proof. vm_compute. auto 6. Qed.

(** ** index/querying.rs, all tests *)
Definition named (path : str) (name : str) (v : Z) : objmeta := mkObj path [(name, PI32 v)] RINone.
Definition query_ix := indexed
  [seg 2 20000 [g_obj (path_group (B "group")) (-51); named ch1 (B "Prop1") (-1); named ch2 (B "Prop2") (-2)];
   seg 2 20000 [g_obj (path_group (B "group2")) (-51); named (ch "group2" "ch1") (B "Prop1") (-1);
                named (ch "group2" "ch2") (B "Prop2") (-2); g_obj (path_group (B "group3")) (-51)]].
Example queries :
  all_paths query_ix = [B "/'group'"; ch1; ch2; B "/'group2'"; ch "group2" "ch1"; ch "group2" "ch2"; B "/'group3'"]
  /\ paths_starting_with query_ix (B "/'group2'") = [B "/'group2'"; ch "group2" "ch1"; ch "group2" "ch2"]
  /\ paths_starting_with query_ix (B "/'group4'") = [].
Proof. vm_compute. auto. Qed.

(** ** raw_data/mod.rs *)
Definition dummy (toc next raw : N) : segment := mkSeg (toc_of_u32 toc) next raw None.
Definition one_f64 := [mkRaw DoubleFloat 1000 None].
(** datablock_captures_sizing_from_segment, data_block_errors_if_no_channels,
    ..._if_length_is_zero and ..._if_raw_offset_is_greater_than_length. *)
Example block_from_segment :
  from_segment dbg (dummy 14 500 20) 10 two_f64 = Ok (mkBlock 58 480 Contigious two_f64 LittleE)
  /\ (exists e, from_segment dbg (dummy 14 500 20) 0 [] = Err e)
  /\ (exists e, from_segment dbg (dummy 14 500 500) 0 one_f64 = Err e)
  /\ (exists e, from_segment dbg (dummy 14 500 501) 0 one_f64 = Err e).
Proof. split; [vm_compute; reflexivity|]. repeat split; eexists; vm_compute; reflexivity. Qed.
(** data_block_gets_layout_from_segment, data_block_gets_endianess_from_segment. *)
Example block_flags :
  from_segment dbg (dummy (14 + 32) 500 20) 0 one_f64 = Ok (mkBlock 48 480 Interleaved one_f64 LittleE)
  /\ from_segment dbg (dummy 14 500 20) 0 one_f64 = Ok (mkBlock 48 480 Contigious one_f64 LittleE)
  /\ from_segment dbg (dummy (14 + 64) 500 20) 0 one_f64 = Ok (mkBlock 48 480 Contigious one_f64 BigE).
Proof. vm_compute. auto. Qed.
(** data_block_get_chunk_size_single_type, ..._single_type_overflow, ..._multi_type,
    ..._string and ..._string_overflow. *)
Definition block_of (len : N) (chans : list rawmeta) := mkBlock 48 len Contigious chans LittleE.
Definition string_f64 (n : N) := [mkRaw TdmsString 1000 (Some n); mkRaw DoubleFloat 1000 None].
Example chunk_sizes :
  chunk_size (block_of 480 two_f64) = Ok (CFixed 16000)
  /\ (exists e, chunk_size (block_of 480 [mkRaw DoubleFloat (two64 - 1) None; mkRaw DoubleFloat 1000 None]) = Err e)
  /\ chunk_size (block_of 480 [mkRaw U32 1000 None; mkRaw DoubleFloat 1000 None]) = Ok (CFixed 12000)
  /\ chunk_size (block_of 480 (string_f64 12000)) = Ok (CVar 20000)
  /\ (exists e, chunk_size (block_of 480 (string_f64 (two64 - 1))) = Err e).
Proof. split; [vm_compute; reflexivity|]. split; [eexists; vm_compute; reflexivity|].
  do 2 (split; [vm_compute; reflexivity|]). eexists. vm_compute. reflexivity. Qed.
(** The data_block_chunk_count tests. *)
Example chunk_counts :
  number_of_chunks (block_of 16000 two_f64) = Ok 1
  /\ number_of_chunks (block_of 16000 [mkRaw DoubleFloat 0 None; mkRaw DoubleFloat 0 None]) = Ok 0
  /\ number_of_chunks (block_of 48000 two_f64) = Ok 3
  /\ number_of_chunks (block_of 48300 two_f64) = Ok 3
  /\ number_of_chunks (block_of 50000 (string_f64 12000)) = Ok 1.
Proof. vm_compute. auto 6. Qed.

(** ** raw_data/records.rs *)
Definition three_types := [mkRaw DoubleFloat 1000 None; mkRaw I32 1000 None; mkRaw DoubleFloat 1000 None].
(** Sizes of a row and of a block of the plan for these requests. *)
Definition plan_sizes (t : sty) (chans : list rawmeta) (reqs : list req) : res (N * N) :=
  es <- @build_record_plan (carrier t) t chans reqs ;;
  r <- row_size dbg t es ;; b <- block_size dbg t es ;; Ok (r, b).
(** test_basic_record_structure_read_all, ..._read_one, test_error_on_type_mismatch
    and test_does_not_error_on_different_but_compatible_types. *)
Example record_plans :
  @build_record_plan N SF64 two_f64 [mkReq 0 1000 0; mkReq 1 1000 0]
  = Ok [mkEntry 1000 (PRead 0 [] 1000 0); mkEntry 1000 (PRead 1 [] 1000 0)]
  /\ @build_record_plan N SF64 two_f64 [mkReq 1 1000 0]
     = Ok [mkEntry 1000 (PSkip 8); mkEntry 1000 (PRead 0 [] 1000 0)]
  /\ @build_record_plan N SU32 two_f64 [mkReq 1 1000 0] = Err (EDataTypeMismatch DoubleFloat U32)
  /\ @build_record_plan N SF64 [mkRaw DoubleFloatWithUnit 1000 None; mkRaw DoubleFloatWithUnit 1000 None] [mkReq 1 1000 0]
     = Ok [mkEntry 1000 (PSkip 8); mkEntry 1000 (PRead 0 [] 1000 0)].
Proof. do 3 (split; [vm_compute; reflexivity|]). vm_compute. reflexivity. Qed.
(** test_returns_length_of_single_records, test_returns_length_of_write_block. *)
Example record_sizes : plan_sizes SI32 three_types [mkReq 1 1000 0] = Ok (20, 20000).
Proof. vm_compute. reflexivity. Qed.

(** ** raw_data/write.rs, all tests *)
Definition four_bytes := bytes [0;0;0;0;1;0;0;0;2;0;0;0;3;0;0;0].
Example write_blocks :
  slice_structure SU32 (repeat 0 20) 1 = [mkRaw U32 20 None]
  /\ wb_bytes (slice_block LittleE SU32 [0; 1; 2; 3]) = four_bytes
  /\ slice_structure SU32 (repeat 0 20) 4 = repeat (mkRaw U32 5 None) 4
  /\ snd (write_channels dbg SU32 empty_file [ch1; ch2; ch3] (repeat 0 20) Contigious) = Err (EBadDataBlockLength 20 3).
Proof. vm_compute. auto 6. Qed.

(** ** meta_data.rs *)
(** test_toc_example_from_ni, test_toc_example_to_bytes, test_segment_size_calc. *)
Example toc_and_size :
  toc_of_u32 14 = mkToc true true false false false true
  /\ write_toc (toc_of_u32 14) = bytes [14; 0; 0; 0]
  /\ total_size_bytes (mkSeg toc_default 500 20 None) = Ok 528.
Proof. vm_compute. auto. Qed.
(** test_unknown_property_type; io/reader.rs and io/writer.rs test_string. *)
Definition ni_string : list byte := bytes
  [35;0;0;0;47;39;77;101;97;115;117;114;101;100;32;84;104;114;111;117;103;104;112;117;116;32;68;97;116;97;32;40;86;111;108;116;115;41;39].
Example strings_from_ni :
  read_pval dbg LittleE ni_string = Err (EUnknownPropertyType 35)
  /\ dec_str dbg LittleE ni_string = Ok (B "/'Measured Throughput Data (Volts)'", [])
  /\ enc_str LittleE (B "/'Measured Throughput Data (Volts)'") = ni_string
  /\ val_size SStr (B "/'Measured Throughput Data (Volts)'") = lenN ni_string.
Proof. vm_compute. auto 6. Qed.
(** test_properties_raw_data_matches(_write). *)
Definition match_bytes : list byte := firstn 83 ni_bytes ++ bytes [0;0;0;0;0;0;0;0].
Definition match_meta : list objmeta := [
  mkObj (B "/'Group'") [(B "prop", PString (B "value")); (B "num", PI32 10)] RINone;
  mkObj (B "/'Group'/'Channel1'") [] RIMatch].
Example match_previous :
  read_metadata dbg LittleE match_bytes = Ok (match_meta, []) /\ write_metadata LittleE match_meta = match_bytes
  /\ metadata_size match_meta = lenN match_bytes.
Proof. vm_compute. auto. Qed.

(** ** io/writer.rs *)
(** test_write_segment, ..._data_only and ..._meta_only: the bytes of the lead-in
    at the places the tests look at, and the segment returned. *)
Definition ten_zeros := slice_block LittleE SF64 (repeat 0 10).
Definition lead_fields (bs : list byte) :=
  (firstn 4 bs, toc_of_u32 (uint_val LittleE (firstn 4 (skipn 4 bs))), uint_val LittleE (firstn 4 (skipn 8 bs)),
   uint_val LittleE (firstn 8 (skipn 12 bs)), uint_val LittleE (firstn 8 (skipn 20 bs))).
Definition written (m : option (list objmeta)) (d : option wblock) :=
  let '(bs, s) := write_segment LittleE toc_default m d in (lead_fields bs, s).
Example write_segments :
  let toc_md := mkToc true true false false false false in
  let toc_d := mkToc false true false false false false in
  let toc_m := mkToc true false false false false false in
  let msize := metadata_size match_meta in
  written (Some match_meta) (Some ten_zeros)
  = ((B "TDSm", toc_md, 4713, msize + 80, msize), mkSeg toc_md (msize + 80) msize (Some match_meta))
  /\ written None (Some ten_zeros) = ((B "TDSm", toc_d, 4713, 80, 0), mkSeg toc_d 80 0 None)
  /\ written (Some match_meta) None
     = ((B "TDSm", toc_m, 4713, msize, msize), mkSeg toc_m msize msize (Some match_meta)).
Proof. vm_compute. auto. Qed.

(** ** properties.rs and io/data_types *)
(** The macro tests of properties.rs, read_write and size, with floats, complex
    numbers and timestamps by their bits. *)
Definition sample_pvals : list pval :=
  [PU8 51; PI8 (-51); PU16 51; PI16 (-51); PU32 51; PI32 (-51); PU64 51; PI64 (-51);
   PSingle 0x424C0000; PDouble 0x4049800000000000; PBoolean true; PTimestamp (2082844900 * two64);
   PComplexSingle (0x3F800000, 0x40000000); PComplexDouble (0x3FF0000000000000, 0x4000000000000000);
   PVoid; PExtended 0x8000c].
Example property_round_trips :
  map (fun p => read_pval dbg LittleE (write_pval LittleE p)) sample_pvals = map (fun p => Ok (p, [])) sample_pvals
  /\ map (fun p => lenN (write_pval LittleE p)) sample_pvals = map pval_size sample_pvals.
Proof. vm_compute. auto. Qed.
(** The conversion tests, test_string_conversion and test_str_conversion. *)
Definition converts (t : sty) (v : carrier t) (p : pval) : Prop :=
  pval_from t v = Some p /\ pval_try_into t p = Some (Ok v).
Example conversions :
  (converts SU8 51 (PU8 51) /\ converts SI8 (-51)%Z (PI8 (-51)) /\ converts SU16 51 (PU16 51)
   /\ converts SI16 (-51)%Z (PI16 (-51)) /\ converts SU32 51 (PU32 51) /\ converts SI32 (-51)%Z (PI32 (-51))
   /\ converts SU64 51 (PU64 51) /\ converts SI64 (-51)%Z (PI64 (-51)))
  /\ converts SF32 0x424C0000 (PSingle 0x424C0000) /\ converts SF64 0x4049800000000000 (PDouble 0x4049800000000000)
  /\ converts SBool true (PBoolean true) /\ converts STime (2082844900 * two64) (PTimestamp (2082844900 * two64))
  /\ converts SC32 (0x3F800000, 0x40000000) (PComplexSingle (0x3F800000, 0x40000000))
  /\ converts SC64 (0x3FF0000000000000, 0x4000000000000000) (PComplexDouble (0x3FF0000000000000, 0x4000000000000000))
  /\ converts SStr (B "Hello World") (PString (B "Hello World")).
Proof. repeat split. Qed.
(** test_float_with_units_treated_as_float, the double and extended versions, and
    test_void_read. *)
Example units_read :
  read_pval dbg LittleE (write_dtype LittleE SingleFloatWithUnit ++ enc LittleE SF32 0x424C0000) = Ok (PSingle 0x424C0000, [])
  /\ read_pval dbg LittleE (write_dtype LittleE DoubleFloatWithUnit ++ enc LittleE SF64 0x4049800000000000) = Ok (PDouble 0x4049800000000000, [])
  /\ read_pval dbg LittleE (write_dtype LittleE ExtendedFloatWithUnit ++ enc LittleE SExt 0x8000c) = Ok (PExtended 0x8000c, [])
  /\ read_pval dbg LittleE (write_dtype LittleE Void) = Ok (PVoid, []).
Proof. vm_compute. auto 6. Qed.

(** native_numerics.rs, io/reader.rs, bool.rs and timestamp.rs: each value with
    its little-endian bytes, for both byte orders. *)
Definition codes (t : sty) (v : carrier t) (le : list N) : Prop :=
  enc LittleE t v = bytes le /\ enc BigE t v = bytes (rev le)
  /\ dec dbg LittleE t (bytes le) = Ok (v, []) /\ dec dbg BigE t (bytes (rev le)) = Ok (v, []).
Example encodings :
  (codes SI8 (-123)%Z [133] /\ codes SU8 123 [123] /\ codes SI16 (-1234)%Z [46; 251] /\ codes SU16 1234 [210; 4]
   /\ codes SI32 (-12345)%Z [199; 207; 255; 255] /\ codes SU32 12345 [57; 48; 0; 0])
  /\ codes SI64 (-21343543253)%Z [43; 96; 211; 7; 251; 255; 255; 255]
  /\ codes SU64 4325465436536 [120; 177; 212; 25; 239; 3; 0; 0]
  /\ codes SF64 0x4093487F7CED9168 [104; 145; 237; 124; 127; 72; 147; 64]
  /\ codes SF32 0x449A43FC [252; 67; 154; 68]
  /\ codes SBool true [1] /\ codes SBool false [0]
  /\ codes STime 0x0102030405060708090a0b0c0d0e0f10 [16; 15; 14; 13; 12; 11; 10; 9; 8; 7; 6; 5; 4; 3; 2; 1].
Proof. vm_compute. repeat split. Qed.
(** complex.rs and extended.rs. *)
Definition round_trips (t : sty) (v : carrier t) : Prop :=
  dec dbg LittleE t (enc LittleE t v) = Ok (v, []) /\ dec dbg BigE t (enc BigE t v) = Ok (v, []).
Example complex_and_extended :
  round_trips SC32 (0x3F800000, 0x40000000) /\ round_trips SC64 (0x3FF0000000000000, 0x4000000000000000)
  /\ round_trips SExt 0x8000c /\ val_size SExt 0 = 10.
Proof. vm_compute. repeat split. Qed.
(** strings.rs. *)
Example hello :
  dec_str dbg LittleE (bytes [13; 0; 0; 0] ++ B "Hello, world!") = Ok (B "Hello, world!", [])
  /\ exists e, dec_str dbg LittleE (bytes [255; 255; 255; 255] ++ B "Hello, world!") = Err e.
Proof. split; [|eexists]; vm_compute; reflexivity. Qed.

(** ** paths.rs, all tests *)
Definition gq := B "group'with'quotes".
Definition cq := B "channel'with'quotes".
Example path_texts :
  path_file = B "/" /\ path_group (B "group") = B "/'group'" /\ path_channel (B "group") (B "channel") = B "/'group'/'channel'"
  /\ path_group gq = B "/'group""with""quotes'"
  /\ path_channel gq cq = B "/'group""with""quotes'/'channel""with""quotes'"
  /\ is_channel (path_group (B "group")) = false /\ is_channel (path_channel (B "group") (B "channel")) = true.
Proof. vm_compute. repeat split. Qed.
Example path_conversions :
  pp_try_from (B "invalid") = Err (EInvalidObjectPath (B "invalid"))
  /\ pp_try_from (B "/'group'/'channel'") = Ok (B "/'group'/'channel'")
  /\ pp_try_from (B "/'group'") = Ok (B "/'group'") /\ pp_try_from (B "/") = Ok (B "/")
  /\ cp_try_from (B "invalid") = Err (EInvalidObjectPath (B "invalid"))
  /\ cp_try_from (B "/'group'/'channel'") = Ok (B "/'group'/'channel'")
  /\ cp_try_from (B "/'group'") = Err (EInvalidChannelPath (B "/'group'")) /\ cp_try_from (B "/") = Err (EInvalidChannelPath (B "/")).
Proof. vm_compute. repeat split. Qed.
Example group_names :
  path_group_name (B "/'group'/'channel'") = Ok (Some (B "group")) /\ path_group_name (B "/'group'") = Ok (Some (B "group"))
  /\ path_group_name (B "/") = Ok None /\ path_group_name (B "invalid") = Ok None.
Proof. vm_compute. repeat split. Qed.

(** ** file/mod.rs, all tests *)
Definition named_group (g : str) (F : tfile) : tfile :=
  fst (write_properties dbg F (path_group g) [(B "name", PString (B "my_channel"))]).
(** The doubles 1.0 to 6.0. *)
Definition six : list N :=
  [0x3FF0000000000000; 0x4000000000000000; 0x4008000000000000; 0x4010000000000000; 0x4014000000000000; 0x4018000000000000].
Definition wrote (c : str) (F : tfile) : tfile := fst (write_channels dbg SF64 F [c] six Interleaved).
Example file_tests :
  tdms_new dbg [] = Ok empty_file
  /\ list_groups (named_group (B "group") empty_file) = Ok [B "group"]
  /\ list_groups (named_group (B "group2") (named_group (B "group") empty_file)) = Ok [B "group"; B "group2"]
  /\ list_groups (wrote (ch "group" "channel") empty_file) = Ok [B "group"]
  /\ list_channels_in_group (wrote (ch "group" "channel") empty_file) (path_group (B "group")) = Ok [ch "group" "channel"]
  /\ list_channels_in_group (wrote (ch "group" "channel2") (wrote (ch "group" "channel") empty_file)) (path_group (B "group"))
     = Ok [ch "group" "channel"; ch "group" "channel2"]
  /\ list_channels_in_group (wrote (ch "group" "channel") empty_file) (path_group (B "group2")) = Ok [].
Proof. vm_compute. repeat split. Qed.

(** ** file/channel_reader.rs *)
(** The remaining read_plan tests. *)
Definition two_locs (a b : nat) := [mkLoc 20 a 1000; mkLoc 21 b 1000].
Definition both (s : N) (a b c d : nat) :=
  [mkBR 20 [Some (a, s); Some (c, s)]; mkBR 21 [Some (b, 0); Some (d, 0)]].
Example more_plans :
  read_plan [two_locs 1 1] [0] = Ok [mkBR 20 [Some (1%nat, 0)]; mkBR 21 [Some (1%nat, 0)]]
  /\ read_plan [two_locs 1 1; two_locs 2 0] [0; 0] = Ok (both 0 1 1 2 0)
  /\ read_plan [two_locs 1 1; two_locs 2 0] [500; 500] = Ok (both 500 1 1 2 0)
  /\ read_plan [two_locs 1 1; two_locs 2 0] [1000; 1000] = Ok [mkBR 21 [Some (1%nat, 0); Some (0%nat, 0)]].
Proof. vm_compute. repeat split. Qed.
(** test_progress_complete, test_progress_complete_over. *)
Example progress_complete : complete (mkPr (5 + 5) 10) = true /\ complete (mkPr (5 + 6) 10) = true.
Proof. auto. Qed.
