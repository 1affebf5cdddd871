(** * Claim C116: reading channels together or singly from a file that has lost its end *)
From Coq Require Import Strings.String Sorted.
From Verif Require Import Base Lib DataTypes MetaData Maps DataBlock Index RawData ChannelReader TdmsFile
  SpecIndex SpecSession SpecShortStep SpecCutFile SpecArrive SpecRead Block_proofs Request_proofs Plan_proofs Read_proofs Session_proofs Parse_proofs
  Short_proofs ShortStep_proofs Arrive_proofs ArriveRun_proofs Told_proofs Again_proofs Index_proofs Vectors Thm_Open Thm_Index Thm_Read Thm_CutFile
  Thm_ShortStep Thm_Arrive Thm_ArriveOk.
Close Scope string_scope.

(** The call for one channel and the call for a list of one channel do the same, whatever the file and the channel. *)
Theorem C116_one : forall E F t p start o,
  read_channel_from E F t p start o
  = (hd o (fst (read_channels_from E F t [p] start [o])), snd (read_channels_from E F t [p] start [o])).
Proof.
  intros E F t p start o. unfold read_channel_from, read_channels_from, ix_read_channels_from. cbn [lookup_positions].
  destruct (get_positions (tf_ix F) p) as [l|]; [|reflexivity]. cbn [bind length repeat].
  destruct (read_plan [l] [start]) as [plan|e|k|]; try reflexivity.
  destruct (execute_read_plan E (tf_bytes F) t (tf_ix F) plan [o]) as [os r]. reflexivity.
Qed.
Print Assumptions C116_one.

Lemma no_requests {V} : forall chs (outs : list (list V)), Forall (fun o => o = []) outs ->
  block_requests chs (map (fun o => mkPr 0 (lenN o)) outs) = []
  /\ store chs (map (fun o => mkPr 0 (lenN o)) outs) outs [] = outs
  /\ forall k, forallb complete (advance chs k (map (fun o => mkPr 0 (lenN o)) outs)) = true.
Proof.
  induction chs as [|c chs IH]; intros outs F; inversion F as [|o l Ho F']; subst; cbn [map block_requests store advance]; try (split; [reflexivity|split; reflexivity]).
  - split; [reflexivity|]. split; [reflexivity|]. intros _. cbn [forallb]. cbn. induction F' as [|o l Ho F'' IH]; cbn [map forallb]; [reflexivity|]. subst o.
    rewrite IH by (constructor; [reflexivity|exact F'']). reflexivity.
  - destruct (IH l F') as [A [B C]]. change (complete (mkPr 0 (lenN (@nil V)))) with true.
    split; [|split].
    + destruct c as [[i s]|]; exact A.
    + destruct c as [x|]; now rewrite B.
    + intros k. cbn [forallb]. rewrite C, andb_true_r. destruct c as [x|]; [apply N.leb_le, N.le_0_l|reflexivity].
Qed.

(** With empty buffers every read of known channels succeeds, however much of the file is gone. *)
Theorem C116_empty : forall E H W f x t chans start outs,
  session E H W -> tf_bytes W = f ++ x -> fixed t -> addressable E (tf_bytes W) ->
  Forall (mentioned (all_objs H)) chans -> Forall (stored (tf_bytes W) t H) chans ->
  Forall (fun o => o = []) outs ->
  read_channels_from E (mkTF (tf_ix W) f) t chans start outs = (outs, Ok tt).
Proof.
  intros E H W f x t chans start outs Se By Fx Ad M St Em.
  unfold read_channels_from, ix_read_channels_from. cbn [tf_ix tf_bytes]. rewrite (lookup_ok E H W Se) by exact M. cbn [bind].
  destruct (plan_ok E H W Se chans start M) as [plan [Hpl [Ps [Sh Hn]]]]. rewrite Hpl. clear Hpl.
  destruct (C14_incremental E H W Se) as [_ [_ [_ [Hb _]]]].
  unfold execute_read_plan. destruct plan as [|br rest]; [reflexivity|].
  destruct (Forall_inv Sh) as [Ln [c [s Hc]]]. apply In_nth_error in Hc. destruct Hc as [i Hi].
  assert (Hi0 : (i < length chans)%nat) by (rewrite <- Ln; apply nth_error_Some; congruence).
  destruct (nth_error chans i) as [p|] eqn:Pi; [|apply nth_error_Some in Hi0; contradiction].
  pose proof (planned_in i (br :: rest) br c s (or_introl eq_refl) Hi) as X. rewrite (Hn _ _ Pi) in X.
  apply needed_in in X. destruct X as [l [Hl [El _]]].
  rewrite Forall_forall in St. specialize (St p (nth_error_In _ _ Pi)). unfold stored in St. rewrite Forall_forall in St.
  destruct (St l Hl) as [b [m [Bb [[n [ck [Pn [Pc [Ne [Fu [Ck Pr]]]]]]] _]]]]. rewrite El, <- Hb in Bb.
  destruct (no_requests (br_chans br) outs Em) as [Nr [Ns Na]].
  cbn [execute]. unfold get_data_block. rewrite Bb. cbv zeta. rewrite Nr, any_read_is. rewrite By in Ad, Pr.
  destruct (block_cut E f x t Fx Ad b [] 0 n ck (any_skip (br_chans br)) Pn Pc Ne Fu Ck Pr (Forall_nil _) (NoDup_nil _) (N.le_0_l _)
              (fun _ => eq_refl) (Forall_nil _)) as [r [-> [_ Br]]].
  destruct Br as [_ Br']. destruct r as [k|e|q|]; try (exfalso; apply Br'; intros q' []).
  cbn [map]. rewrite Ns, Na. reflexivity.
Qed.
Print Assumptions C116_empty.

(** Channels that stay in step get the same samples together as singly. *)
Theorem C116_values : forall E H W f x t chans start outs,
  session E H W -> tf_bytes W = f ++ x -> fixed t -> addressable E (tf_bytes W) ->
  Forall (mentioned (all_objs H)) chans -> Forall (stored (tf_bytes W) t H) chans ->
  NoDup chans -> length outs = length chans ->
  stay_in_step (samples_after (tf_bytes W) t H) H chans start outs ->
  fst (read_channels_from E (mkTF (tf_ix W) f) t chans start outs)
  = map (fun po => fst (read_channel_from E (mkTF (tf_ix W) f) t (fst po) start (snd po))) (combine chans outs).
Proof.
  intros E H W f x t chans start outs Se By Fx Ad M St ND Lo Sp.
  destruct (C114_arrived E H W f x t chans start outs Se By Fx Ad M St ND Lo Sp) as (outs' & r & R & L & V & _). rewrite R. cbn [fst].
  apply nth_ext_error. intros i. rewrite nth_error_map.
  destruct (nth_error chans i) as [p|] eqn:Pi.
  2:{ apply nth_error_None in Pi. rewrite (proj2 (nth_error_None outs' i)) by lia.
      rewrite (proj2 (nth_error_None (combine chans outs) i)); [reflexivity|]. rewrite combine_length. lia. }
  assert (Hi0 : (i < length chans)%nat) by (apply nth_error_Some; congruence).
  destruct (nth_error outs i) as [o|] eqn:Oi; [|apply nth_error_None in Oi; lia].
  rewrite (V i p o Pi Oi), (combine_nth _ _ _ _ _ Pi Oi). cbn [option_map fst snd]. f_equal. rewrite C116_one. cbn [fst].
  pose proof (nth_error_In _ _ Pi) as Hp. rewrite Forall_forall in M, St.
  assert (Sp1 : stay_in_step (samples_after (tf_bytes W) t H) H [p] start [o]).
  { destruct Sp as [_|[[Z B]|[I2 _]]].
    - left. split; [intros a b [<-|[]] [<-|[]]; reflexivity|]. exists (length o). repeat constructor.
    - left. split; [intros a b [<-|[]] [<-|[]]; reflexivity|]. exists (length o). repeat constructor.
    - left. split; [intros a b [<-|[]] [<-|[]]; reflexivity|]. exists (length o). repeat constructor. }
  assert (ND1 : NoDup [p]) by (repeat constructor; intros []).
  destruct (C114_arrived E H W f x t [p] start [o] Se By Fx Ad (Forall_cons p (M p Hp) (Forall_nil _)) (Forall_cons p (St p Hp) (Forall_nil _)) ND1 eq_refl Sp1)
    as (outs1 & r1 & R1 & L1 & V1 & _).
  rewrite R1. cbn [fst]. specialize (V1 0%nat p o eq_refl eq_refl). destruct outs1 as [|o1 outs1]; [discriminate|]. cbn [nth_error] in V1.
  injection V1 as ->. reflexivity.
Qed.
Print Assumptions C116_values.

(** Channels in the same blocks with equal buffers are read without error together exactly if they are singly. *)
Theorem C116_result : forall E H W f x t chans start outs k,
  session E H W -> tf_bytes W = f ++ x -> fixed t -> addressable E (tf_bytes W) ->
  Forall (mentioned (all_objs H)) chans -> Forall (stored (tf_bytes W) t H) chans ->
  NoDup chans -> length outs = length chans ->
  same_places H chans -> Forall (fun o => length o = k) outs ->
  snd (read_channels_from E (mkTF (tf_ix W) f) t chans start outs) = Ok tt
  <-> forall p o, In (p, o) (combine chans outs) -> snd (read_channel_from E (mkTF (tf_ix W) f) t p start o) = Ok tt.
Proof.
  intros E H W f x t chans start outs k Se By Fx Ad M St ND Lo Al Lk.
  assert (Case : Forall (fun o => o = []) outs \/ (chans <> [] /\ (0 < k)%nat)).
  { destruct chans as [|p chans]; [left; destruct outs; [constructor|discriminate]|].
    destruct k as [|k]; [left|right; split; [discriminate|lia]]. eapply Forall_impl; [|exact Lk]. intros o Ho. now apply length_zero_iff_nil. }
  destruct Case as [Em|[Ne Hk]].
  - rewrite (C116_empty E H W f x t chans start outs) by assumption. split; [|reflexivity]. intros _ p o Hin.
    rewrite C116_one. cbn [snd]. rewrite Forall_forall in M, St, Em.
    pose proof (in_combine_l _ _ _ _ Hin) as Hp. pose proof (in_combine_r _ _ _ _ Hin) as Ho.
    rewrite (C116_empty E H W f x t [p] start [o]); auto.
  - rewrite (C115_singly E H W f x t chans start outs k) by assumption.
    split; intros X p o Hin; specialize (X p o Hin); rewrite C116_one in *; exact X.
Qed.
Print Assumptions C116_result.

(** a and b of [C113_case] with 247 and with 127 bytes left, together, singly, and with empty buffers. *)
Example C116_case :
  let cut n := mkTF (tf_ix pair_F) (firstn n pair_file) in
  (exists H, session dbg H pair_F /\ tf_bytes pair_F = firstn 247 pair_file ++ skipn 247 pair_file
    /\ Forall (mentioned (all_objs H)) [ch "g" "a"; ch "g" "b"]
    /\ Forall (stored (tf_bytes pair_F) SI32 H) [ch "g" "a"; ch "g" "b"]
    /\ same_places H [ch "g" "a"; ch "g" "b"]
    /\ stay_in_step (samples_after (tf_bytes pair_F) SI32 H) H [ch "g" "a"; ch "g" "b"] 2 [[7; 7; 7]; [8; 8; 8]]%Z)
  /\ map (fun n => (read_channels_from dbg (cut n) SI32 [ch "g" "a"; ch "g" "b"] 2 [[7; 7; 7]; [8; 8; 8]]%Z,
                    read_channel_from dbg (cut n) SI32 (ch "g" "a") 2 [7; 7; 7]%Z,
                    read_channel_from dbg (cut n) SI32 (ch "g" "b") 2 [8; 8; 8]%Z)) [247; 127]%nat
     = [([[3; 4; 7]; [103; 104; 105]], Err (EIo UnexpectedEof), ([3; 4; 7], Err (EIo UnexpectedEof)), ([103; 104; 105], Err (EIo UnexpectedEof)));
        ([[3; 7; 7]; [8; 8; 8]], Err (EIo UnexpectedEof), ([3; 7; 7], Err (EIo UnexpectedEof)), ([8; 8; 8], Err (EIo UnexpectedEof)))]%Z
  /\ read_channels_from dbg (cut 4%nat) SI32 [ch "g" "a"; ch "g" "b"] 2 [[]; []] = ([[]; []], Ok tt).
Proof.
  cbv zeta. split; [|vm_compute; split; reflexivity].
  destruct C30_case as [[H [Se [M [St Al]]]] _]. exists H. split; [exact Se|]. split; [vm_compute; reflexivity|]. do 3 (split; [assumption|]).
  left. split; [exact Al|]. exists 3%nat. repeat constructor.
Qed.
