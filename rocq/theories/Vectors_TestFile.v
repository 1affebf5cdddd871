(** * Conformance: the integration tests of /repo on parts of their test file

    tests/read_structure.rs, read_with_offset.rs and read_properties.rs on the
    segments of TestFile.v, which LabVIEW wrote.  Like Vectors.v these are tests of
    the model, not proofs of properties.  They are evaluated when this file is
    compiled; the proof terms only record the outcome. *)
From Coq Require Import Strings.String.
From Verif Require Import Base Utf8 DataTypes Paths MetaData Maps DataBlock Index
  RawData ChannelReader TdmsFile Vectors TestFile.
Close Scope string_scope.

(** Bit pattern of the float with [m] bits of mantissa and exponent bias [b] that
    equals the integer [n] (the expected values of read_structure.rs 6-13). *)
Definition float_bits (b m n : N) : N :=
  if n =? 0 then 0 else let e := N.log2 n in (b + e) * 2 ^ m + (n - 2 ^ e) * 2 ^ (m - e).
Definition f64 := float_bits 1023 52.
Definition f32 := float_bits 127 23.
Definition iota (start len : N) : list N := map (fun i => start + N.of_nat i) (seq 0 (N.to_nat len)).

Definition test_ix := Eval vm_compute in
  match tdms_new dbg test_file with Ok F => tf_ix F | _ => index_new end.
Definition F0 : tfile := mkTF test_ix test_file.

(** The tree of the file. *)
Definition groups := Eval vm_compute in list_groups F0.
Example file_groups : groups = Ok [B "datatypes"; B "group"; B "structure"; B "subblock"].
Proof. reflexivity. Qed.
Definition lengths := Eval vm_compute in
  map (fun c => channel_length dbg F0 c)
      [ch "structure" "ch1"; ch "structure" "ch3"; ch "structure" "ch4"; ch "structure" "ch6";
       ch "subblock" "ch1"; ch "group" "channel"; ch "datatypes" "bool"].
Example file_lengths : lengths = map (fun n => Ok (Some n)) [2000; 2000; 1000; 1000; 500; 0; 4].
Proof. reflexivity. Qed.
(** The file holds three timestamps (tests/read_structure.rs 142-156) and three
    extended floats; the library announces six and none (finding of C36, here on
    a file that LabVIEW wrote). *)
Definition odd_lengths := Eval vm_compute in
  map (fun c => channel_length dbg F0 c) [ch "datatypes" "timestamp"; ch "datatypes" "extended"].
Example file_odd_lengths : odd_lengths = map (fun n => Ok (Some n)) [6; 0].
Proof. reflexivity. Qed.

(** read_structure.rs test_single_channel_read, test_multi_channel_read_shorter and
    read_with_offset.rs, fewer samples: across the end of the first, contiguous
    segment into the interleaved one. *)
Definition one_channel := Eval vm_compute in
  read_channel_from dbg F0 SF64 (ch "structure" "ch3") 970 (repeat 0 60).
Example file_one_channel : one_channel = (map f64 (iota 20970 60), Ok tt).
Proof. vm_compute. reflexivity. Qed.
Definition two_channels := Eval vm_compute in
  read_channels_from dbg F0 SF64 [ch "structure" "ch1"; ch "structure" "ch5"] 480 [repeat 0 40; repeat 0 40].
Example file_two_channels : two_channels = ([map f64 (iota 480 40); map f64 (iota 40480 40)], Ok tt).
Proof. vm_compute. reflexivity. Qed.
(** test_read_channel_from_beyond_data. *)
Definition beyond := Eval vm_compute in
  read_channel_from dbg F0 SF64 (ch "structure" "ch1") 2100 [7; 7].
Example file_beyond : beyond = ([7; 7], Ok tt).
Proof. reflexivity. Qed.
(** test_read_sub_blocks. *)
Definition sub_blocks := Eval vm_compute in
  read_channel_from dbg F0 SF64 (ch "subblock" "ch1") 450 (repeat 0 60).
Example file_sub_blocks : sub_blocks = (map f64 (iota 450 50) ++ repeat 0 10, Ok tt).
Proof. vm_compute. reflexivity. Qed.

(** test_read_basic_numeric_types, test_complex_type_read, test_boolean_data_types
    and test_timestamp_data_types. *)
Definition ints (t : sty) (c : str) (zero : carrier t) := read_channel dbg F0 t c (repeat zero 100).
Definition numerics := Eval vm_compute in
  (ints SI8 (ch "datatypes" "i8") 0%Z, ints SU8 (ch "datatypes" "u8") 0,
   ints SI16 (ch "datatypes" "i16") 0%Z, ints SU16 (ch "datatypes" "u16") 0,
   ints SI32 (ch "datatypes" "i32") 0%Z, ints SF64 (ch "datatypes" "f64") 0).
Example file_numerics : numerics =
  let u := iota 0 100 in let z := map Z.of_N u in
  ((z, Ok tt), (u, Ok tt), (z, Ok tt), (u, Ok tt), (z, Ok tt), (map f64 u, Ok tt)).
Proof. vm_compute. reflexivity. Qed.
Definition complexes := Eval vm_compute in
  (read_channel dbg F0 SC32 (ch "datatypes" "complex_f32") (repeat (0, 0) 3),
   read_channel dbg F0 SC64 (ch "datatypes" "complex_f64") (repeat (0, 0) 3)).
Example file_complexes : complexes =
  (([(f32 10, f32 1); (f32 20, f32 2); (f32 30, f32 3)], Ok tt),
   ([(f64 10, f64 1); (f64 20, f64 2); (f64 30, f64 3)], Ok tt)).
Proof. vm_compute. reflexivity. Qed.
Definition booleans := Eval vm_compute in read_channel dbg F0 SBool (ch "datatypes" "bool") (repeat false 100).
Example file_booleans : booleans = ([true; false; true; false] ++ repeat false 96, Ok tt).
Proof. vm_compute. reflexivity. Qed.
Definition timestamps := Eval vm_compute in
  let '(vs, r) := read_channel dbg F0 STime (ch "datatypes" "timestamp") (repeat 0 100) in (firstn 3 vs, r).
Example file_timestamps : timestamps =
  (map (fun s => s * 2 ^ 64) [3780807865; 3780807866; 3780807867], Ok tt).
Proof. vm_compute. reflexivity. Qed.

(** read_properties.rs, all tests. *)
Definition test_properties : list (str * pval) :=
  [ (B "i8", PI8 (-5)%Z); (B "u8", PU8 5); (B "i16", PI16 (-10)%Z); (B "u16", PU16 10);
    (B "i32", PI32 (-20)%Z); (B "u32", PU32 20); (B "i64", PI64 (-30)%Z); (B "u64", PU64 30);
    (B "f32", PSingle (f32 40 + 2 ^ 31)); (B "f64", PDouble (f64 40));
    (B "bool_true", PBoolean true); (B "bool_false", PBoolean false);
    (B "complex_f32", PComplexSingle (f32 60, f32 6));
    (B "complex_f64", PComplexDouble (f64 60 + 2 ^ 63, f64 6 + 2 ^ 63));
    (B "timestamp", PTimestamp (3780807561 * 2 ^ 64)) ].
Definition properties_of (F : tfile) (p : str) := map (fun kv => read_property F p (fst kv)) test_properties.
Definition expected_properties := map (fun kv => @Ok (option pval) (Some (snd kv))) test_properties.
Definition properties := Eval vm_compute in
  (properties_of F0 path_file, properties_of F0 (path_group (B "group")), properties_of F0 (ch "group" "channel")).
Example file_properties : properties = (expected_properties, expected_properties, expected_properties).
Proof. vm_compute. reflexivity. Qed.

(** write_properties.rs, all tests: two calls on an empty file. *)
Definition written_properties (p : str) :=
  let F1 := fst (write_properties dbg empty_file p (firstn 14 test_properties)) in
  properties_of (fst (write_properties dbg F1 p (skipn 14 test_properties))) p.
Example write_properties_file :
  map written_properties [path_file; path_group (B "group"); ch "group" "channel"]
  = [expected_properties; expected_properties; expected_properties].
Proof. vm_compute. reflexivity. Qed.

(** write_structure.rs test_fragmented_write and test_repeated_writes. *)
Definition w (F : tfile) cs vs := fst (write_channels dbg SF64 F cs (map f64 vs) Contigious).
Example fragmented :
  let c1 := ch "structure" "ch1" in let c2 := ch "structure" "ch2" in
  let F := w (w (w empty_file [c1] [1;2;3]) [c2] [6;7;8;9;10]) [c1] [4;5] in
  read_channel dbg F SF64 c1 (repeat 0 5) = (map f64 [1;2;3;4;5], Ok tt).
Proof. vm_compute. reflexivity. Qed.
Example repeated :
  let c1 := ch "structure" "ch1" in let c2 := ch "structure" "ch2" in
  let F := w (w empty_file [c1; c2] [1;2;3;4;5;6]) [c1; c2] [7;8;9;10;11;12] in
  read_channel dbg F SF64 c1 (repeat 0 6) = (map f64 [1;2;3;7;8;9], Ok tt)
  /\ read_channel dbg F SF64 c2 (repeat 0 6) = (map f64 [4;5;6;10;11;12], Ok tt).
Proof. vm_compute. split; reflexivity. Qed.
(** write_with_no_channels_error. *)
Example no_channels : snd (write_channels dbg SU32 empty_file [] [] Contigious) = Err ENoChannels.
Proof. vm_compute. reflexivity. Qed.
(** read_with_offset.rs test_read_channels_from_separate_blocks, a tenth of the
    samples. *)
Example separate_blocks :
  let c1 := ch "test" "ch1" in let c2 := ch "test" "ch2" in
  let F := w (w (w empty_file [c1] (iota 0 100)) [c2] (iota 100 100)) [c1; c2] (iota 200 200) in
  read_channels_from dbg F SF64 [c1; c2] 50 [repeat 0 10; repeat 0 10]
  = ([map f64 (iota 50 10); map f64 (iota 150 10)], Ok tt).
Proof. vm_compute. reflexivity. Qed.
