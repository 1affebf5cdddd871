(** * Conformance examples: unit tests of /repo replayed on the model.
      Each example cites the Rust test whose inputs and expected values it
      copies.  These are tests of the model, not proofs of properties. *)
From Coq Require Import Strings.String.
From Verif Require Import Base Utf8 DataTypes Paths MetaData Maps DataBlock Index
  RawData ChannelReader TdmsFile.

Close Scope string_scope.

(** String literals as bytes. *)
Definition B (s : String.string) : str := String.list_byte_of_string s.
Arguments B s%string.
(** Byte literals. *)
Definition bytes (l : list N) : list byte := map byte_of_N l.

(** A debug build on a machine where every allocation below 2^31 succeeds. *)
Definition dbg : env := mkEnv true (fun _ n => n <? 2147483648) (two64 - 1).
(** The same, release build. *)
Definition rel : env := mkEnv false (fun _ n => n <? 2147483648) (two64 - 1).

(** meta_data.rs test_properties_standard_data(_write). *)
Definition ni_bytes : list byte := bytes [
  2;0;0;0;8;0;0;0;47;39;71;114;111;117;112;39;255;255;255;255;2;0;0;0;4;0;0;0;
  112;114;111;112;32;0;0;0;5;0;0;0;118;97;108;117;101;3;0;0;0;110;117;109;3;0;0;0;
  10;0;0;0;19;0;0;0;47;39;71;114;111;117;112;39;47;39;67;104;97;110;110;101;108;49;39;20;
  0;0;0;3;0;0;0;1;0;0;0;2;0;0;0;0;0;0;0;0;0;0;0].
Definition ni_meta : list objmeta := [
  mkObj (B "/'Group'") [(B "prop", PString (B "value")); (B "num", PI32 10)] RINone;
  mkObj (B "/'Group'/'Channel1'") [] (RIRaw (mkRaw I32 2 None))].
Example ni_read : read_metadata dbg LittleE ni_bytes = Ok (ni_meta, []).
Proof. vm_compute. reflexivity. Qed.
Example ni_write : write_metadata LittleE ni_meta = ni_bytes.
Proof. vm_compute. reflexivity. Qed.
Example ni_size : metadata_size ni_meta = lenN ni_bytes.
Proof. vm_compute. reflexivity. Qed.

(** meta_data.rs test_properties_count_overflow_error and
    test_metadata_errors_on_allocation_error. *)
Example props_overflow :
  read_metadata dbg LittleE (firstn 20 ni_bytes ++ bytes [255;255;255;255] ++ skipn 24 ni_bytes)
  = Err EPropertyTableAllocationFailed.
Proof. vm_compute. reflexivity. Qed.
Example objs_overflow :
  read_metadata dbg LittleE (bytes [255;255;255;255] ++ skipn 4 ni_bytes)
  = Err EVecAllocationFailed.
Proof. vm_compute. reflexivity. Qed.

(** paths.rs unit tests (string forms and accessors). *)
Example path_ex1 : path_channel (B "my group") (B "my channel") = B "/'my group'/'my channel'".
Proof. reflexivity. Qed.
Example path_ex2 : pp_group_name (path_channel (B "g") (B "c")) = Ok (Some (B "g")).
Proof. reflexivity. Qed.
Example path_ex3 : cp_channel_name (path_channel (B "g") (B "c")) = Ok (B "c").
Proof. reflexivity. Qed.

(** The buffer of contigious_multi_channel_read.rs create_test_buffer, with the
    f64 [i] replaced by the bit pattern [i] (the reader treats floats as bit
    patterns). *)
Definition buf100 : list byte := concat (map (fun i => enc BigE SF64 (N.of_nat i)) (seq 0 100)).
Definition meta_cols (cols rows : N) : list rawmeta :=
  repeat (mkRaw DoubleFloat rows None) (N.to_nat cols).
Definition blk lay cols rows := mkBlock 0 800 lay (meta_cols cols rows) BigE.

(** contigious_multi_channel_read.rs tests. *)
Example contig_single :
  block_read dbg buf100 SF64 (blk Contigious 2 50) [mkReq 0 3 0] = ([[0;1;2]], Ok 3).
Proof. vm_compute. reflexivity. Qed.
Example contig_multi :
  block_read dbg buf100 SF64 (blk Contigious 4 25) [mkReq 0 3 0; mkReq 2 3 0]
  = ([[0;1;2];[50;51;52]], Ok 3).
Proof. vm_compute. reflexivity. Qed.
Example contig_repeated :
  block_read dbg buf100 SF64 (blk Contigious 4 2) [mkReq 0 3 0; mkReq 2 3 0]
  = ([[0;1;8];[4;5;12]], Ok 3).
Proof. vm_compute. reflexivity. Qed.
Example contig_lengths :
  block_read dbg buf100 SF64 (blk Contigious 4 25) [mkReq 0 3 0; mkReq 2 2 0]
  = ([[0;1;2];[50;51]], Ok 2).
Proof. vm_compute. reflexivity. Qed.
Example contig_skip :
  block_read_from dbg buf100 SF64 (blk Contigious 4 25) [mkReq 0 3 0; mkReq 2 3 0] 2
  = ([[2;3;4];[52;53;54]], Ok 3).
Proof. vm_compute. reflexivity. Qed.
Example contig_skip_blocks :
  block_read_from dbg buf100 SF64 (blk Contigious 2 3) [mkReq 0 3 0; mkReq 1 3 0] 1
  = ([[1;2;6];[4;5;9]], Ok 3).
Proof. vm_compute. reflexivity. Qed.

(** interleaved_multi_channel_read.rs tests. *)
Example inter_single :
  block_read dbg buf100 SF64 (blk Interleaved 2 512) [mkReq 0 3 0] = ([[0;2;4]], Ok 3).
Proof. vm_compute. reflexivity. Qed.
Example inter_multi :
  block_read dbg buf100 SF64 (blk Interleaved 4 256) [mkReq 0 3 0; mkReq 2 3 0]
  = ([[0;4;8];[2;6;10]], Ok 3).
Proof. vm_compute. reflexivity. Qed.
Example inter_lengths :
  block_read dbg buf100 SF64 (blk Interleaved 4 256) [mkReq 0 3 0; mkReq 2 2 0]
  = ([[0;4;8];[2;6]], Ok 3).
Proof. vm_compute. reflexivity. Qed.
Example inter_skip :
  block_read_from dbg buf100 SF64 (blk Interleaved 4 256) [mkReq 0 3 0; mkReq 2 3 0] 2
  = ([[8;12;16];[10;14;18]], Ok 3).
Proof. vm_compute. reflexivity. Qed.

(** channel_reader.rs tests of [read_plan]. *)
Example plan_skip :
  read_plan [[mkLoc 20 1 1000; mkLoc 21 1 1000; mkLoc 22 1 1000]] [1500]
  = Ok [mkBR 21 [Some (1%nat, 500)]; mkBR 22 [Some (1%nat, 0)]].
Proof. vm_compute. reflexivity. Qed.
Example plan_complex :
  read_plan [[mkLoc 20 1 1000; mkLoc 21 1 1000; mkLoc 25 0 1000];
             [mkLoc 20 2 1000; mkLoc 21 0 1000; mkLoc 22 1 1000]] [0; 0]
  = Ok [mkBR 20 [Some (1%nat, 0); Some (2%nat, 0)]; mkBR 21 [Some (1%nat, 0); Some (0%nat, 0)];
        mkBR 22 [None; Some (1%nat, 0)]; mkBR 25 [Some (0%nat, 0); None]].
Proof. vm_compute. reflexivity. Qed.

(** file/mod.rs documentation example: write three pairs, read back. *)
Definition empty_file : tfile := mkTF index_new [].
Definition ch (g c : String.string) : str := path_channel (B g) (B c).
Arguments ch g%string c%string.
Example write_read :
  let F := fst (write_channels dbg SI32 empty_file [ch "g" "a"; ch "g" "b"]
                  [1;2;3;4;5;6]%Z Interleaved) in
  read_channel dbg F SI32 (ch "g" "b") [0;0;0]%Z = ([2;4;6]%Z, Ok tt)
  /\ tdms_new dbg (tf_bytes F) = Ok F.
Proof. vm_compute. split; reflexivity. Qed.
