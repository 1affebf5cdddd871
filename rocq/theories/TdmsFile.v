(** * The file API: src/file/mod.rs, src/file/channel_reader.rs 46-139,
      src/file/file_writer.rs *)
From Verif Require Import Base DataTypes Paths MetaData Maps DataBlock Index RawData
  ChannelReader.

(** The loop of [build_index], file/mod.rs 61-74.  Every segment advances the
    position by at least 28 bytes and reading at or after the end of the bytes
    stops, so fuel [S (length f)] suffices (theorem C11). *)
Fixpoint build_loop (E : env) (f : list byte) (fuel : nat) (ix : index) (pos : N)
  : res index :=
  match fuel with
  | O => Diverge
  | S fuel' =>
    match segment_read E f pos with
    | Ok s =>
      let '(ix', r) := add_segment E ix s in
      next <- r ;;
      match seek_to E next with
      | Ok p => build_loop E f fuel' ix' p
      | _ => Ok ix'
      end
    | Err EEndOfFile => Ok ix
    | Err x => Err x
    | Panic p => Panic p
    | Diverge => Diverge
    end
  end.

(** [build_index], file/mod.rs 56-75. *)
Definition build_index (E : env) (f : list byte) : res index :=
  build_loop E f (S (length f)) index_new 0.

(** [TdmsFile], file/mod.rs 31-34: the index and the bytes of the stream. *)
Record tfile := mkTF { tf_ix : index; tf_bytes : list byte }.

(** [TdmsFile::new], file/mod.rs 86-89 ([load] and [create], 39-53, open a file
    and call it; the operating system calls are not modelled). *)
Definition tdms_new (E : env) (f : list byte) : res tfile :=
  ix <- build_index E f ;; Ok (mkTF ix f).

(** [TdmsFile::read_property], file/mod.rs 104-110. *)
Definition read_property (F : tfile) (path name : str) : res (option pval) :=
  get_object_property (tf_ix F) path name.

(** [TdmsFile::read_all_properties], file/mod.rs 115-120. *)
Definition read_all_properties (F : tfile) (path : str) : option (list (str * pval)) :=
  get_object_properties (tf_ix F) path.

(** The loop of [list_groups], file/mod.rs 133-138. *)
Fixpoint collect_groups (paths : list str) (acc : list str) : res (list str) :=
  match paths with
  | [] => Ok acc
  | p :: r =>
    g <- path_group_name p ;;
    collect_groups r (match g with Some g => set_insert g acc | None => acc end)
  end.

(** [TdmsFile::list_groups], file/mod.rs 125-141. *)
Definition list_groups (F : tfile) : res (list str) :=
  collect_groups (all_paths (tf_ix F)) [].

(** The lazy filter of [list_channels_in_group], file/mod.rs 151, consumed to
    the end. *)
Fixpoint filter_channels (paths : list str) : res (list str) :=
  match paths with
  | [] => Ok []
  | p :: r =>
    match cp_try_from p with
    | Ok c => rest <- filter_channels r ;; Ok (c :: rest)
    | Err _ => filter_channels r
    | Panic x => Panic x
    | Diverge => Diverge
    end
  end.

(** [TdmsFile::list_channels_in_group], file/mod.rs 146-152. *)
Definition list_channels_in_group (F : tfile) (group : str) : res (list str) :=
  filter_channels (paths_starting_with (tf_ix F) group).

(** [TdmsFile::channel_length], channel_reader.rs 48-50. *)
Definition channel_length (E : env) (F : tfile) (path : str) : res (option N) :=
  ix_channel_length E (tf_ix F) path.

(** [read_channels_from], channel_reader.rs 120-139. *)
Definition read_channels_from (E : env) (F : tfile) (t : sty) (chans : list str)
           (start : N) (outs : list (list (carrier t))) :=
  ix_read_channels_from E (tf_bytes F) t (tf_ix F) chans start outs.

(** [read_channels], channel_reader.rs 98-104. *)
Definition read_channels (E : env) (F : tfile) (t : sty) (chans : list str)
           (outs : list (list (carrier t))) :=
  read_channels_from E F t chans 0 outs.

(** [read_channel_from], channel_reader.rs 79-92: the plan for one channel and
    one output. *)
Definition read_channel_from (E : env) (F : tfile) (t : sty) (chan : str)
           (start : N) (out : list (carrier t)) : list (carrier t) * res unit :=
  match get_positions (tf_ix F) chan with
  | None => (out, Err (EMissingObject chan))
  | Some l =>
    match read_plan [l] [start] with
    | Ok plan =>
      let '(outs, r) := execute_read_plan E (tf_bytes F) t (tf_ix F) plan [out] in
      (hd out outs, r)
    | q => (out, recast q)
    end
  end.

(** [read_channel], channel_reader.rs 57-63. *)
Definition read_channel (E : env) (F : tfile) (t : sty) (chan : str)
           (out : list (carrier t)) := read_channel_from E F t chan 0 out.

(** [DataStreamWriter::new] up to the segment written, file_writer.rs 110-159:
    the ToC, metadata and data given to [write_segment], or the argument
    errors. *)
Definition stream_segment (e : endian) (t : sty) (ix : index) (chans : list str)
           (vs : list (carrier t)) (lay : layout) : res (list byte * segment) :=
  match chans with
  | [] => Err ENoChannels
  | _ =>
    let count := lenN chans in
    if negb (lenN vs mod count =? 0) then Err (EBadDataBlockLength (lenN vs) count)
    else
      let objs := combine chans (slice_structure t vs (length chans)) in
      let '(matches, idxs) := check_write_values ix objs in
      let meta := if matches then None
                  else Some (map (fun p => mkObj (fst p) [] (snd p)) idxs) in
      let tc := mkToc false false false (layout_eqb lay Interleaved) false (negb matches) in
      Ok (write_segment e tc meta (Some (slice_block e t vs)))
  end.

(** [TdmsFileWriter::write_channels], file_writer.rs 39-48 with 161-164, on a
    writer obtained from [TdmsFile::writer] (file/mod.rs 179-188: seek to the
    end, [LittleEndianWriter]).  [e] is the writer's byte order.  The writer is
    a [BufWriter] flushed when dropped or synced; the model appends the bytes at
    once, and the stream accepts all writes. *)
Definition write_channels_e (E : env) (e : endian) (t : sty) (F : tfile)
           (chans : list str) (vs : list (carrier t)) (lay : layout) : tfile * res unit :=
  match stream_segment e t (tf_ix F) chans vs lay with
  | Ok (bs, sg) =>
    let '(ix', r) := add_segment E (tf_ix F) sg in
    (mkTF ix' (tf_bytes F ++ bs), _n <- r ;; Ok tt)
  | q => (F, recast q)
  end.

(** [TdmsFileWriter::write_properties], file_writer.rs 68-94. *)
Definition write_properties_e (E : env) (e : endian) (F : tfile) (path : str)
           (props : list (str * pval)) : tfile * res unit :=
  let '(bs, sg) := write_segment e toc_default (Some [mkObj path props RINone]) None in
  let '(ix', r) := add_segment E (tf_ix F) sg in
  (mkTF ix' (tf_bytes F ++ bs), _n <- r ;; Ok tt).

(** [write_channels], file_writer.rs 39-48: the writer returned by
    [TdmsFile::writer] is little endian, file/mod.rs 185. *)
Definition write_channels E t F chans vs lay := write_channels_e E LittleE t F chans vs lay.
(** [write_properties], file_writer.rs 68-94, likewise. *)
Definition write_properties E F path props := write_properties_e E LittleE F path props.
