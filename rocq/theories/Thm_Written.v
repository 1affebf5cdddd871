(** * C73: exactly which bytes are written *)
From Coq Require Import Strings.String.
From Verif Require Import Base Lib DataTypes MetaData RawData Index TdmsFile SpecCodec SpecIndex SpecWrite SpecGrammar SpecWritten
  Written_proofs Vectors.
Close Scope string_scope.

(** The bytes appended by a call of [write_channels] whose arguments are
    accepted, whatever it returns. *)
Theorem C73_data : forall E e t F H chans vs lay F' r,
  accepted E H (tf_ix F) -> chans <> [] -> lenN vs mod lenN chans = 0 ->
  Forall (fun c => lenN c < 2 ^ 32) chans -> lenN chans < 2 ^ 32 -> lenN vs < 2 ^ 64 ->
  Forall (rust_value t) vs -> Forall (storable t) vs ->
  write_channels_e E e t F chans vs lay = (F', r) ->
  exists bs, tf_bytes F' = tf_bytes F ++ bs /\ data_call e t H chans vs lay bs.
Proof. exact data_call_written. Qed.

(** The bytes appended by a call of [write_properties]. *)
Theorem C73_properties : forall E e F path kvs F' r,
  lenN path < 2 ^ 32 -> lenN kvs < 2 ^ 32 -> Forall writable_prop kvs ->
  write_properties_e E e F path kvs = (F', r) ->
  exists bs, tf_bytes F' = tf_bytes F ++ bs /\ property_call e path kvs bs.
Proof. exact property_call_written. Qed.

(** The description leaves no byte open. *)
Theorem C73_fixed : forall e,
  (forall t H chans vs lay b1 b2,
     data_call e t H chans vs lay b1 -> data_call e t H chans vs lay b2 -> b1 = b2)
  /\ (forall path kvs b1 b2, property_call e path kvs b1 -> property_call e path kvs b2 -> b1 = b2).
Proof. intros e. split; [intros t H chans vs lay b1 b2; apply data_call_fixed|intros path kvs b1 b2; apply property_call_fixed]. Qed.

(** Two calls on a new file: the second repeats the format of one channel. *)
Definition c73_F1 : tfile := fst (write_channels_e dbg BigE SI16 (mkTF index_new []) [ch "g" "a"; ch "g" "b"] [1; -2; 3; 4]%Z Contigious).
Lemma c73_accepted : exists s, accepted dbg [s] (tf_ix c73_F1) /\ toc_big (sg_toc s) = true.
Proof.
  pose (p := write_segment BigE (mkToc false false false false false true)
              (Some (map (fun c => mkObj c [] (RIRaw (mkRaw I16 2 None))) [ch "g" "a"; ch "g" "b"]))
              (Some (slice_block BigE SI16 [1; -2; 3; 4]%Z))).
  exists (snd p). split; [|reflexivity]. apply (acc_snoc dbg [] index_new (snd p) _ 112); [constructor|]. vm_compute. reflexivity.
Qed.
Example C73_case_data : exists H F2 r bs,
  accepted dbg H (tf_ix c73_F1)
  /\ write_channels_e dbg LittleE SI16 c73_F1 [ch "g" "b"; ch "g" "c"] [7; -1; 8; -2]%Z Interleaved = (F2, r)
  /\ tf_bytes F2 = tf_bytes c73_F1 ++ bs
  /\ data_call LittleE SI16 H [ch "g" "b"; ch "g" "c"] [7; -1; 8; -2]%Z Interleaved bs.
Proof.
  destruct c73_accepted as [s [A _]].
  destruct (write_channels_e dbg LittleE SI16 c73_F1 [ch "g" "b"; ch "g" "c"] [7; -1; 8; -2]%Z Interleaved) as [F2 r] eqn:W.
  destruct (C73_data dbg LittleE SI16 c73_F1 [s] [ch "g" "b"; ch "g" "c"] [7; -1; 8; -2]%Z Interleaved F2 r) as [bs [B D]];
    [exact A|discriminate|reflexivity|repeat constructor|reflexivity|reflexivity| |repeat constructor|exact W|].
  - repeat constructor; vm_compute; congruence.
  - exists [s], F2, r, bs. auto.
Qed.
(** The bytes of that call. *)
Example C73_case_bytes :
  dropN 112 (tf_bytes (fst (write_channels_e dbg LittleE SI16 c73_F1 [ch "g" "b"; ch "g" "c"] [7; -1; 8; -2]%Z Interleaved)))
  = B "TDSm" ++ bytes [2 + 4 + 8 + 32; 0; 0; 0] ++ bytes [105; 18; 0; 0] ++ bytes [68; 0; 0; 0; 0; 0; 0; 0] ++ bytes [60; 0; 0; 0; 0; 0; 0; 0]
    ++ bytes [2; 0; 0; 0]
    ++ bytes [8; 0; 0; 0] ++ B "/'g'/'b'" ++ bytes [0; 0; 0; 0] ++ bytes [0; 0; 0; 0]
    ++ bytes [8; 0; 0; 0] ++ B "/'g'/'c'" ++ bytes [20; 0; 0; 0] ++ bytes [2; 0; 0; 0] ++ bytes [1; 0; 0; 0] ++ bytes [2; 0; 0; 0; 0; 0; 0; 0] ++ bytes [0; 0; 0; 0]
    ++ bytes [7; 0; 255; 255; 8; 0; 254; 255].
Proof. vm_compute. reflexivity. Qed.
Example C73_case_properties : exists bs,
  tf_bytes (fst (write_properties_e dbg BigE c73_F1 (B "/") [(B "n", PI16 (-2)%Z); (B "v", PExtended 5)])) = tf_bytes c73_F1 ++ bs
  /\ property_call BigE (B "/") [(B "n", PI16 (-2)%Z); (B "v", PExtended 5)] bs.
Proof.
  eapply C73_properties; [reflexivity|reflexivity| |apply surjective_pairing].
  repeat constructor; vm_compute; congruence.
Qed.

(** The calls offered to users write little endian. *)
Theorem C73_public : forall E F,
  (forall t H chans vs lay F' r,
     accepted E H (tf_ix F) -> chans <> [] -> lenN vs mod lenN chans = 0 ->
     Forall (fun c => lenN c < 2 ^ 32) chans -> lenN chans < 2 ^ 32 -> lenN vs < 2 ^ 64 ->
     Forall (rust_value t) vs -> Forall (storable t) vs ->
     write_channels E t F chans vs lay = (F', r) ->
     exists bs, tf_bytes F' = tf_bytes F ++ bs /\ data_call LittleE t H chans vs lay bs)
  /\ (forall path kvs F' r,
     lenN path < 2 ^ 32 -> lenN kvs < 2 ^ 32 -> Forall writable_prop kvs ->
     write_properties E F path kvs = (F', r) ->
     exists bs, tf_bytes F' = tf_bytes F ++ bs /\ property_call LittleE path kvs bs).
Proof.
  intros E F. split.
  - intros t H chans vs lay F' r A N0 D Lc Lcs Lv R S W. exact (C73_data E LittleE t F H chans vs lay F' r A N0 D Lc Lcs Lv R S W).
  - intros path kvs F' r Lp Lk Wp W. exact (C73_properties E LittleE F path kvs F' r Lp Lk Wp W).
Qed.
Example C73_case_public :
  dropN 28 (tf_bytes (fst (write_properties dbg empty_file (B "/") [(B "n", PI16 (-2)%Z)])))
  = bytes [1; 0; 0; 0] ++ bytes [1; 0; 0; 0] ++ B "/" ++ bytes [255; 255; 255; 255] ++ bytes [1; 0; 0; 0]
    ++ bytes [1; 0; 0; 0] ++ B "n" ++ bytes [2; 0; 0; 0] ++ bytes [254; 255].
Proof. vm_compute. reflexivity. Qed.

Print Assumptions C73_data.
Print Assumptions C73_public.
Print Assumptions C73_properties.
Print Assumptions C73_fixed.
