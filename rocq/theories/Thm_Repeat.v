(** * C102 What a read gives when a channel is asked for more than once *)
From Coq Require Import Strings.String.
From Verif Require Import Base Lib DataTypes MetaData Maps DataBlock Index RawData ChannelReader TdmsFile
  SpecIndex SpecSession SpecRead SpecMulti SpecRepeat Read_proofs Session_proofs
  Serve_proofs Repeat_proofs Again_proofs Last_proofs Thm_Index Thm_Read Thm_MultiExact Vectors.
Close Scope string_scope.

(** As C65_exact, for any list of channels. *)
Theorem C102_exact : forall E H F t chans start outs,
  session E H F -> fixed t -> addressable E (tf_bytes F) ->
  Forall (mentioned (all_objs H)) chans -> Forall (stored (tf_bytes F) t H) chans -> length outs = length chans ->
  read_channels_from E F t chans start outs
  = (map (tk_buf t) (served_again (tf_bytes F) t (blocks_after H) (before_read H t chans start outs)), Ok tt).
Proof. intros. now apply read_again. Qed.

(** The channels before anything is read, beside their names. *)
Definition named (H : list segment) (t : sty) (chans : list str) (start : N) (outs : list (list (carrier t))) : list (str * taker t) :=
  map (fun po => (fst po, mkTaker t (needed (locs_after H (fst po)) start) 0 (snd po))) (combine chans outs).
Lemma named_snd H t chans start outs : map snd (named H t chans start outs) = before_read H t chans start outs.
Proof. unfold named, before_read. rewrite map_map. now apply map_ext. Qed.
Lemma combine_fst {A B} (l : list A) : forall (l' : list B), length l' = length l -> map fst (combine l l') = l.
Proof. induction l as [|x l IH]; intros [|y l'] K; try discriminate; [reflexivity|]. cbn [combine map fst]. now rewrite IH by (injection K as K; exact K). Qed.
Lemma combine_snd {A B} (l : list A) : forall (l' : list B), length l' = length l -> map snd (combine l l') = l'.
Proof. induction l as [|x l IH]; intros [|y l'] K; try discriminate; [reflexivity|]. cbn [combine map snd]. now rewrite IH by (injection K as K; exact K). Qed.
Lemma combine_back {A B} (l : list (A * B)) : combine (map fst l) (map snd l) = l.
Proof. induction l as [|[x y] l IH]; [reflexivity|]. cbn [map combine fst snd]. now rewrite IH. Qed.
Lemma named_fst H t chans start outs : length outs = length chans -> map fst (named H t chans start outs) = chans.
Proof. intros Lo. unfold named. rewrite map_map. cbn [fst]. now apply combine_fst. Qed.
Lemma last_map {A B} (g : str * A -> str * B) (l : list (str * A)) : (forall x, fst (g x) = fst x) -> last_only (map g l) = map g (last_only l).
Proof.
  intros Hg. induction l as [|[p x] r IH]; [reflexivity|]. cbn [map last_only]. pose proof (Hg (p, x)) as Gp. cbn [fst] in Gp.
  destruct (g (p, x)) as [p' y] eqn:K. cbn [fst] in Gp. subst p'. rewrite map_map, (map_ext _ fst Hg).
  destruct (existsb _ _); [exact IH|]. cbn [map]. now rewrite K, IH.
Qed.
Lemma named_levels H t chans start : forall outs, length outs = length chans -> later_no_shorter chans outs -> levels t (named H t chans start outs).
Proof.
  induction chans as [|p chans IH]; intros [|o outs] Lo La; try discriminate; [exact Logic.I|].
  cbn [named combine map levels fst snd]. injection Lo as Lo. split.
  - intros k' Hk'. apply in_map_iff in Hk'. destruct Hk' as [[p' o'] [K Hin]]. cbn [fst snd] in K. injection K as -> <-.
    apply In_nth_error in Hin. destruct Hin as [i Hi].
    assert (Hp : nth_error chans i = Some p). { rewrite <- (combine_fst chans outs Lo), nth_error_map, Hi. reflexivity. }
    assert (Ho : nth_error outs i = Some o'). { rewrite <- (combine_snd chans outs Lo), nth_error_map, Hi. reflexivity. }
    split; [reflexivity|]. cbn [tk_buf tk_count]. split; [|now right].
    apply (La 0%nat (S i) p o o'); [lia|reflexivity|exact Hp|reflexivity|exact Ho].
  - apply (IH outs Lo). intros i i' q x x' Hi. intros. apply (La (S i) (S i') q x x'); [lia|assumption..].
Qed.

(** A buffer gets nothing if its channel is asked for again later, with a buffer
    at least as long. *)
Theorem C102_shadowed : forall E H F t chans start outs,
  session E H F -> fixed t -> addressable E (tf_bytes F) ->
  Forall (mentioned (all_objs H)) chans -> Forall (stored (tf_bytes F) t H) chans -> length outs = length chans ->
  later_no_shorter chans outs ->
  exists outs', read_channels_from E F t chans start outs = (outs', Ok tt) /\ length outs' = length chans
    /\ forall i i' p, (i < i')%nat -> nth_error chans i = Some p -> nth_error chans i' = Some p ->
       nth_error outs' i = nth_error outs i.
Proof.
  intros E H F t chans start outs Se Fx Ad M St Lo La.
  eexists. split; [eapply C102_exact; eassumption|]. rewrite <- named_snd. unfold served_again. rewrite <- serve_blocks_snd.
  set (L := named H t chans start outs). set (js := seq 0 (length (blocks_after H))).
  destruct (blocks_levels (tf_bytes F) t (blocks_after H) js L (named_levels H t chans start outs Lo La)) as [_ U].
  pose proof (named_fst H t chans start outs Lo) as Nf. fold L in Nf.
  set (L' := fold_left _ js L) in *. clearbody L'. pose proof (untouched_fst t _ _ U) as Uf. rewrite Nf in Uf.
  split; [now rewrite map_map, map_length, <- (map_length fst), Uf|]. intros i i' p Hi Pi Pi'.
  assert (Bo : map (fun x => tk_buf t (snd x)) L = outs).
  { unfold L, named. rewrite map_map. cbn [snd tk_buf]. now apply combine_snd. }
  rewrite map_map, <- Bo. rewrite <- Nf in Pi, Pi'. clear -U Hi Pi Pi'. clearbody L.
  revert L' i i' Hi Pi Pi' U. induction L as [|[q k] r IH]; intros [|[q' k'] r'] i i' Hi Pi Pi' U; cbn [untouched] in U; try contradiction; [reflexivity|].
  destruct U as [-> [Ub U]]. destruct i as [|i], i' as [|i']; try lia.
  - cbn [map fst nth_error snd] in *. injection Pi as ->. f_equal. apply Ub. now apply nth_error_In in Pi'.
  - cbn [map fst nth_error snd] in *. apply (IH r' i i'); [lia|assumption..].
Qed.

Lemma named_placed E H F t chans start outs : session E H F -> Forall (mentioned (all_objs H)) chans -> length outs = length chans ->
  entered_alike H chans start -> placed t (named H t chans start outs).
Proof.
  intros Se M Lo En p k p' k' j c s c' s' Hk Hk' Nk Nk'.
  destruct (C14_incremental E H F Se) as [_ [_ [_ [_ [Gp _]]]]].
  pose proof (C18_sessions E H F (session_any _ _ _ Se)) as Va.
  assert (Me : forall p k, In (p, k) (named H t chans start outs) -> In p chans /\ tk_needs t k = needed (locs_after H p) start).
  { clear. intros p k Hk. apply in_map_iff in Hk. destruct Hk as [[p' o] [K Hin]]. cbn [fst snd] in K. injection K as -> <-.
    split; [now apply in_combine_l in Hin|reflexivity]. }
  destruct (Me p k Hk) as [Hp Kn], (Me p' k' Hk') as [Hp' Kn']. rewrite Kn in Nk. rewrite Kn' in Nk'.
  split; [exact (En p p' j c s c' s' Hp Hp' Nk Nk')|]. intros Npp Ec. subst c'.
  apply needed_in in Nk. apply needed_in in Nk'. destruct Nk as [l [Hl [Lb [Lc _]]]], Nk' as [l' [Hl' [Lb' [Lc' _]]]].
  rewrite Forall_forall in M. pose proof (Gp p (M p Hp)) as G1. pose proof (Gp p' (M p' Hp')) as G2.
  destruct (Va p _ G1) as [_ [_ Di]]. apply (Di p' _ l l' (not_eq_sym Npp) G2 Hl Hl'); congruence.
Qed.

(** If moreover all channels enter the blocks alike, the last request for each
    channel is answered as if it were the only one. *)
Theorem C102_last : forall E H F t chans start outs,
  session E H F -> fixed t -> addressable E (tf_bytes F) ->
  Forall (mentioned (all_objs H)) chans -> Forall (stored (tf_bytes F) t H) chans -> length outs = length chans ->
  later_no_shorter chans outs -> entered_alike H chans start ->
  let once := last_only (combine chans outs) in
  NoDup (map fst once)
  /\ exists outs' outs1,
       read_channels_from E F t chans start outs = (outs', Ok tt)
    /\ read_channels_from E F t (map fst once) start (map snd once) = (outs1, Ok tt)
    /\ length outs' = length chans
    /\ last_only (combine chans outs') = combine (map fst once) outs1.
Proof.
  intros E H F t chans start outs Se Fx Ad M St Lo La En once. split; [apply last_nodup|].
  assert (Sub : forall p, In p (map fst once) -> In p chans).
  { intros p Hp. unfold once in Hp. rewrite last_fst_in, combine_fst in Hp by exact Lo. exact Hp. }
  assert (Lo1 : length (map snd once) = length (map fst once)) by now rewrite !map_length.
  pose proof (named_placed E H F t chans start outs Se M Lo En) as Pl.
  eexists. eexists. split; [eapply C102_exact; eassumption|]. split.
  { apply (C102_exact E H F t); try assumption.
    - apply Forall_forall. intros p Hp. exact (proj1 (Forall_forall _ _) M p (Sub p Hp)).
    - apply Forall_forall. intros p Hp. exact (proj1 (Forall_forall _ _) St p (Sub p Hp)). }
  rewrite <- !named_snd. unfold served_again. rewrite <- !serve_blocks_snd.
  set (js := seq 0 (length (blocks_after H))).
  assert (On : named H t (map fst once) start (map snd once) = last_only (named H t chans start outs)).
  { unfold named. rewrite combine_back. unfold once. symmetry. apply (last_map (fun po => (fst po, mkTaker t (needed (locs_after H (fst po)) start) 0 (snd po)))). reflexivity. }
  rewrite On. rewrite <- serve_blocks_last.
  - pose proof (serve_blocks_fst (tf_bytes F) t (blocks_after H) js (named H t chans start outs)) as Sf. rewrite (named_fst H t chans start outs Lo) in Sf.
    assert (Sl : map fst (last_only (fold_left (fun L j => serve_block (tf_bytes F) t (blocks_after H) j L) js (named H t chans start outs))) = map fst once).
    { rewrite serve_blocks_last.
      - rewrite serve_blocks_fst, <- On. now apply named_fst.
      - now apply named_levels.
      - exact Pl. }
    set (L' := fold_left _ js (named H t chans start outs)) in *. clearbody L'.
    split; [now rewrite !map_length, <- (map_length fst), Sf|].
    rewrite <- Sf at 1. rewrite <- Sl, !map_map. clear.
    transitivity (last_only (map (fun x => (fst x, tk_buf t (snd x))) L')).
    + f_equal. induction L' as [|[p k] r IH]; [reflexivity|]. cbn [map combine fst snd]. now rewrite IH.
    + rewrite last_map by reflexivity. induction (last_only L') as [|[p k] r IH]; [reflexivity|]. cbn [map combine fst snd]. now rewrite IH.
  - now apply named_levels.
  - exact Pl.
Qed.

(** So from the first sample on. *)
Lemma entered_at_first H chans : entered_alike H chans 0.
Proof. intros p p' j c s c' s' _ _ A B. apply needed_0 in A. apply needed_0 in B. congruence. Qed.
Theorem C102_from_start : forall E H F t chans outs,
  session E H F -> fixed t -> addressable E (tf_bytes F) ->
  Forall (mentioned (all_objs H)) chans -> Forall (stored (tf_bytes F) t H) chans -> length outs = length chans ->
  later_no_shorter chans outs ->
  let once := last_only (combine chans outs) in
  exists outs' outs1,
       read_channels E F t chans outs = (outs', Ok tt)
    /\ read_channels E F t (map fst once) (map snd once) = (outs1, Ok tt)
    /\ last_only (combine chans outs') = combine (map fst once) outs1.
Proof.
  intros E H F t chans outs Se Fx Ad M St Lo La once.
  destruct (C102_last E H F t chans 0 outs Se Fx Ad M St Lo La (entered_at_first H chans)) as [_ [o1 [o2 [A [B [_ C]]]]]].
  exists o1, o2. split; [exact A|]. split; [exact B|exact C].
Qed.

(** Both conditions are needed.  Unless blocks are entered alike, a request that
    comes again changes what the other requests get. *)
Theorem C102_other_starts : exists f F outs,
  tdms_new dbg f = Ok F
  /\ later_no_shorter [ch "g" "a"; ch "g" "b"; ch "g" "a"] outs
  /\ last_only (combine [ch "g" "a"; ch "g" "b"; ch "g" "a"] outs) = combine [ch "g" "b"; ch "g" "a"] (skipn 1 outs)
  /\ read_channels_from dbg F SI32 [ch "g" "a"; ch "g" "b"; ch "g" "a"] 2 outs
     = ([[0; 0; 0; 0]; [102; 104; 105; 106]; [4; 5; 6; 7]]%Z, Ok tt)
  /\ read_channels_from dbg F SI32 [ch "g" "b"; ch "g" "a"] 2 (skipn 1 outs)
     = ([[103; 0; 104; 105]; [3; 4; 5; 6]]%Z, Ok tt).
Proof.
  exists (offset_file false), (open_bytes dbg (offset_file false)), [[0; 0; 0; 0]; [0; 0; 0; 0]; [0; 0; 0; 0]]%Z.
  split; [vm_compute; reflexivity|]. split.
  { intros i i' p o o' _ _ _ Ho Ho'. apply nth_error_In in Ho. apply nth_error_In in Ho'. cbn [List.In] in Ho, Ho'.
    intuition subst; apply le_n. }
  do 2 (split; [vm_compute; reflexivity|]). vm_compute. reflexivity.
Qed.
(** A longer buffer that comes first is filled from where the later one ends, with
    samples from further on. *)
Theorem C102_longer_first : exists f F outs,
  tdms_new dbg f = Ok F
  /\ read_channel dbg F SI32 (ch "g" "a") [0; 0; 0; 0]%Z = ([1; 2; 3; 4]%Z, Ok tt)
  /\ read_channels dbg F SI32 [ch "g" "a"; ch "g" "a"] outs = ([[0; 0; 5; 6]; [1; 2]]%Z, Ok tt).
Proof.
  exists (offset_file false), (open_bytes dbg (offset_file false)), [[0; 0; 0; 0]; [0; 0]]%Z.
  do 2 (split; [vm_compute; reflexivity|]). vm_compute. reflexivity.
Qed.

Example C102_case :
  let chans := [ch "g" "a"; ch "g" "b"; ch "g" "a"] in
  let outs := [[0; 0; 0]; [0; 0; 0; 0]; [0; 0; 0; 0]]%Z in
  (exists H, session dbg H offset_F /\ addressable dbg (tf_bytes offset_F)
     /\ Forall (mentioned (all_objs H)) chans /\ Forall (stored (tf_bytes offset_F) SI32 H) chans
     /\ length outs = length chans /\ later_no_shorter chans outs /\ entered_alike H chans 0)
  /\ read_channels dbg offset_F SI32 chans outs = ([[0; 0; 0]; [101; 102; 103; 104]; [1; 2; 3; 4]]%Z, Ok tt)
  /\ read_channels_from dbg offset_F SI32 [ch "g" "a"; ch "g" "b"; ch "g" "b"] 2 [[0; 0; 0; 0]; [0; 0; 0; 0]; [0; 0; 0; 0]]%Z
     = ([[4; 0; 5; 6]; [0; 0; 0; 0]; [102; 103; 104; 105]]%Z, Ok tt).
Proof.
  cbv zeta. split; [|split; vm_compute; reflexivity].
  assert (O : tdms_new dbg (offset_file true) = Ok offset_F) by (vm_compute; reflexivity).
  destruct (C14_open_is_session _ _ _ O) as [H [_ [Se _]]]. exists H. split; [exact Se|].
  split; [split; vm_compute; congruence|].
  assert (Ga : get_positions (tf_ix offset_F) (ch "g" "a") = Some [mkLoc 0 0 1; mkLoc 1 1 3; mkLoc 2 1 3]) by (vm_compute; reflexivity).
  assert (Gb : get_positions (tf_ix offset_F) (ch "g" "b") = Some [mkLoc 1 0 3; mkLoc 2 0 3]) by (vm_compute; reflexivity).
  destruct (session_stored dbg _ _ H SI32 _ _ O Se Ga) as [Ma Sa]; [vm_compute; reflexivity|].
  destruct (session_stored dbg _ _ H SI32 _ _ O Se Gb) as [Mb Sb]; [vm_compute; reflexivity|].
  split; [repeat constructor; assumption|]. split; [repeat constructor; assumption|]. split; [reflexivity|].
  split; [|apply entered_at_first].
  intros i i' p o o' Hi Hp Hp' Ho Ho'.
  do 3 (destruct i as [|i]; [do 3 (destruct i' as [|i']; [cbn [nth_error] in *; try lia; apply some_eq in Ho, Ho'; subst; cbn [length]; lia|]);
    destruct i'; discriminate Hp'|]). destruct i; discriminate Hp.
Qed.

Print Assumptions C102_exact.
Print Assumptions C102_shadowed.
Print Assumptions C102_last.
Print Assumptions C102_from_start.
Print Assumptions C102_other_starts.
Print Assumptions C102_longer_first.
