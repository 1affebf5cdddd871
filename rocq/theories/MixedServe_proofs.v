(** * Executing a read plan over blocks of any make-up *)
From Coq Require Import Sorting.Sorted.
From Verif Require Import Base Lib DataTypes MetaData DataBlock Index RawData ChannelReader TdmsFile SpecIndex SpecSession SpecRead SpecMulti
  SpecUneven SpecSeen SpecMixed Block_proofs Request_proofs Plan_proofs Read_proofs Session_proofs Skips_proofs SkipReq_proofs
  Seen_proofs Mixed_proofs Serve_proofs Thm_Index.

Lemma mixed_length f t b reqs q : (length (mixed_got f t b reqs q) <= rq_room q)%nat.
Proof. unfold mixed_got. destruct (b_layout b); rewrite firstn_length; lia. Qed.

Section Serve.
Context (E : env) (f : list byte) (t : sty) (ix : index).
Hypothesis (Sz : sized t) (Ad : addressable E f).
Local Notation V := (carrier t).
Local Notation bs := (ix_blocks ix).

(** The block of [br] can be read; the planned channels store type [t], every
    skip lies inside what the index counts for them. *)
Definition mixed_br (br : blockread) (b : dblock) : Prop :=
  nth_error bs (br_block br) = Some b
  /\ b_chans b <> [] /\ mixed_block E f t b
  /\ (forall i ci si, nth_error (br_chans br) i = Some (Some (ci, si)) ->
        exists m, nth_error (b_chans b) ci = Some m /\ supports t (rm_type m) = true /\ si < rm_n m * whole_chunks b)
  /\ distinct_chans (br_chans br).

Lemma no_wants_mixed j ks : (forall k, In k ks -> wants t j k = None) -> mixed_serve f t bs j ks = ks.
Proof.
  intros H. unfold mixed_serve. destruct (nth_error bs j) as [b|]; [|reflexivity]. transitivity (map (fun k => k) ks); [|apply map_id].
  apply map_ext_in. intros k Hk. rewrite (H k Hk). reflexivity.
Qed.
Lemma done_mixed js : forall ks, (forall k, In k ks -> lenN (tk_buf t k) <= tk_count t k) ->
  fold_left (fun ks j => mixed_serve f t bs j ks) js ks = ks.
Proof.
  induction js as [|j js IH]; intros ks H; [reflexivity|]. cbn [fold_left]. rewrite no_wants_mixed; [now apply IH|].
  intros k Hk. unfold wants. specialize (H k Hk). now replace (lenN (tk_buf t k) <=? tk_count t k) with true by lia.
Qed.

Lemma execute_mixed m : forall j plan prs outs ks,
  (j + m = length bs)%nat ->
  length outs = length ks -> length prs = length ks ->
  StronglySorted lt (map br_block plan) ->
  Forall (fun br => (j <= br_block br)%nat /\ length (br_chans br) = length ks /\ exists b, mixed_br br b) plan ->
  (forall i pr o k, nth_error prs i = Some pr -> nth_error outs i = Some o -> nth_error ks i = Some k -> same_state t pr o k) ->
  (forall i k j', nth_error ks i = Some k -> (j <= j')%nat ->
     same_want t j' (match find (fun br => Nat.eqb (br_block br) j') plan with
                   | Some br => match nth_error (br_chans br) i with Some p => p | None => None end
                   | None => None end) k) ->
  execute E f t ix plan prs outs = (map (tk_buf t) (fold_left (fun ks j => mixed_serve f t bs j ks) (seq j m) ks), Ok tt).
Proof.
  induction m as [|m IH]; intros j plan prs outs ks Hj Lo Lp So Fa St Wa.
  - destruct plan as [|br plan].
    + cbn [execute seq fold_left]. f_equal. apply nth_ext_error. intros i. rewrite nth_error_map.
      destruct (nth_error outs i) as [o|] eqn:Oi.
      * assert (Hi : (i < length ks)%nat) by (rewrite <- Lo; apply nth_error_Some; congruence).
        destruct (nth_error ks i) as [k|] eqn:Ki; [|apply nth_error_None in Ki; lia].
        destruct (nth_error prs i) as [pr|] eqn:Pi; [|apply nth_error_None in Pi; lia].
        destruct (St i pr o k Pi Oi Ki) as [-> _]. reflexivity.
      * apply nth_error_None in Oi. rewrite (proj2 (nth_error_None ks i)) by lia. reflexivity.
    + exfalso. inversion Fa as [|y l [Le [_ [b Sb]]] _]; subst. destruct Sb as [Hb _].
      assert (br_block br < length bs)%nat by (apply nth_error_Some; congruence). lia.
  - cbn [seq fold_left].
    assert (Skip : (forall br, In br plan -> (S j <= br_block br)%nat) ->
       execute E f t ix plan prs outs = (map (tk_buf t) (fold_left (fun ks j => mixed_serve f t bs j ks) (seq (S j) m) (mixed_serve f t bs j ks)), Ok tt)).
    { intros Far.
      assert (Nw : mixed_serve f t bs j ks = ks).
      { apply no_wants_mixed. intros k Hk. apply In_nth_error in Hk. destruct Hk as [i Ki].
        assert (Hi : (i < length ks)%nat) by (apply nth_error_Some; congruence).
        specialize (Wa i k j Ki (Nat.le_refl j)).
        assert (No : find (fun br => Nat.eqb (br_block br) j) plan = None).
        { destruct (find _ plan) as [br'|] eqn:Fd; [|reflexivity]. apply find_some in Fd. destruct Fd as [Hin Eq].
          apply Nat.eqb_eq in Eq. specialize (Far _ Hin). lia. }
        rewrite No in Wa. unfold same_want in Wa. unfold wants. rewrite Wa. now destruct (lenN (tk_buf t k) <=? tk_count t k). }
      rewrite Nw. apply IH; auto; [lia| |].
      - rewrite Forall_forall in *. intros br Hbr. destruct (Fa br Hbr) as [_ X]. split; [now apply Far|exact X].
      - intros i k j' Ki Hj'. apply Wa; [exact Ki|lia]. }
    destruct plan as [|br rest]; [apply Skip; contradiction|].
    destruct (Nat.eq_dec (br_block br) j) as [Ej|Nj].
    2:{ apply Skip. intros br' [<-|Hin].
        - rewrite Forall_forall in Fa. destruct (Fa br (or_introl eq_refl)) as [X _]. lia.
        - cbn [map] in So. inversion So as [|y l _ Fl]; subst. rewrite Forall_forall in Fl, Fa.
          specialize (Fl _ (in_map br_block _ _ Hin)). destruct (Fa br (or_introl eq_refl)) as [X _]. lia. }
    clear Skip. inversion Fa as [|y l [_ [Lbr [b Sb]]] Fa']; subst y l.
    destruct Sb as [Bb [Hne [Hmb [Hch Hd]]]].
    cbn [map] in So. inversion So as [|y l So' Fl]; subst y l.
    (* the requests *)
    assert (Wj : forall i p k, nth_error (br_chans br) i = Some p -> nth_error ks i = Some k -> same_want t j p k).
    { intros i p k Hp Ki. specialize (Wa i k j Ki (Nat.le_refl j)). cbn [find] in Wa.
      rewrite Ej, Nat.eqb_refl, Hp in Wa. exact Wa. }
    set (reqs := block_requests (br_chans br) prs).
    assert (Rq : reqs = concat (map (asks t j) ks)).
    { unfold reqs. apply (requests_are t j _ _ outs); try congruence.
      intros i p pr o k Hp Hpr Ho Hk. split; [eapply St; eauto|eapply Wj; eauto]. }
    assert (Hv : Forall (valid_req t (b_chans b)) reqs).
    { apply Forall_forall. intros q Hq. apply in_requests in Hq. destruct Hq as [i [ci [si [pr [Hi [_ [_ ->]]]]]]].
      destruct (Hch _ _ _ Hi) as [mm [Hm [Hsu _]]]. exists mm. auto. }
    assert (Hss : Forall (fun q => exists m, nth_error (b_chans b) (rq_chan q) = Some m /\ rq_skip q < rm_n m * whole_chunks b) reqs).
    { apply Forall_forall. intros q Hq. apply in_requests in Hq. destruct Hq as [i [ci [si [pr [Hi [_ [_ ->]]]]]]].
      destruct (Hch _ _ _ Hi) as [mm [Hm [_ Hx]]]. exists mm. auto. }
    destruct (block_mixed E f t Sz Ad b reqs Hne Hmb Hv (distinct_nodup _ _ Hd) Hss) as [Rs R0].
    set (G := fun q => mixed_got f t b reqs q) in *.
    set (cnt := mixed_count t b reqs) in *.
    cbn [execute]. unfold get_data_block. rewrite Bb.
    assert (Rd : (if any_skip (br_chans br) then block_read_skips E f t b reqs else block_read E f t b reqs)
                 = (map G reqs, Ok cnt)).
    { destruct (any_skip (br_chans br)) eqn:As; [exact Rs|]. apply R0.
      apply Forall_forall. intros q Hq. apply in_requests in Hq. destruct Hq as [i [ci [si [pr [Hi [_ [_ ->]]]]]]].
      cbn [rq_skip]. destruct (0 <? si) eqn:Q; [|lia]. exfalso. apply not_true_iff_false in As. apply As.
      apply existsb_exists. exists (Some (ci, si)). split; [eapply nth_error_In; eauto|exact Q]. }
    fold reqs. rewrite Rd.
    set (prs' := advance (br_chans br) cnt prs). set (outs' := store (br_chans br) prs outs (map G reqs)).
    set (ks' := mixed_serve f t bs j ks).
    assert (Nk : forall i k, nth_error ks i = Some k -> nth_error ks' i = Some (match wants t j k with
        | Some (ci, s) => mkTaker t (tk_needs t k) (tk_count t k + cnt)
            (put t (tk_buf t k) (tk_count t k) (G (mkReq ci (N.to_nat (lenN (tk_buf t k) - tk_count t k)) s)))
        | None => k end)).
    { intros i k Ki. unfold ks', mixed_serve. rewrite <- Ej, Bb, Ej, <- Rq. rewrite nth_error_map, Ki. reflexivity. }
    assert (Lk' : length ks' = length ks).
    { unfold ks', mixed_serve. destruct (nth_error bs j); [now rewrite map_length|reflexivity]. }
    assert (Lp' : length prs' = length ks') by (unfold prs'; rewrite advance_length; congruence).
    assert (Lo' : length outs' = length ks') by (unfold outs'; rewrite store_length; congruence).
    assert (St' : forall i pr' o' k', nth_error prs' i = Some pr' -> nth_error outs' i = Some o' -> nth_error ks' i = Some k' ->
       same_state t pr' o' k' /\ exists k, nth_error ks i = Some k /\ tk_needs t k' = tk_needs t k).
    { intros i pr' o' k' Hpr' Ho' Hk'.
      assert (Hi : (i < length ks)%nat) by (rewrite <- Lk'; apply nth_error_Some; congruence).
      destruct (nth_error ks i) as [k|] eqn:Ki; [|apply nth_error_None in Ki; lia].
      destruct (nth_error prs i) as [pr|] eqn:Hpr; [|apply nth_error_None in Hpr; lia].
      destruct (nth_error outs i) as [o|] eqn:Ho; [|apply nth_error_None in Ho; lia].
      destruct (nth_error (br_chans br) i) as [p|] eqn:Hp; [|apply nth_error_None in Hp; lia].
      unfold prs' in Hpr'. rewrite (nth_advance cnt _ _ _ _ _ Hp Hpr) in Hpr'. injection Hpr' as <-.
      unfold outs', reqs in Ho'. rewrite (nth_store G _ _ _ _ _ _ _ Hp Hpr Ho) in Ho'. injection Ho' as <-.
      rewrite (Nk i k Ki) in Hk'. injection Hk' as <-.
      pose proof (St i pr o k Hpr Ho Ki) as Ss. rewrite (wants_is t j p pr o k Ss (Wj i p k Hp Ki)).
      destruct Ss as [-> [T C]]. split.
      2:{ exists k. split; [reflexivity|]. destruct (complete pr); [reflexivity|]. destruct p as [[ci s]|]; reflexivity. }
      destruct p as [[ci s]|].
      - destruct (complete pr) eqn:K.
        + split; [reflexivity|]. split; [exact T|]. unfold complete in *. cbn [pr_read pr_target].
          replace (pr_target pr <=? pr_read pr + cnt) with true by lia. exact C.
        + cbn [tk_buf tk_count]. unfold room_of. rewrite T, C.
          assert (Lput : length (put t (tk_buf t k) (tk_count t k) (G (mkReq ci (N.to_nat (lenN (tk_buf t k) - tk_count t k)) s))) = length (tk_buf t k)).
          { apply put_length. pose proof (mixed_length f t b reqs (mkReq ci (N.to_nat (lenN (tk_buf t k) - tk_count t k)) s)) as Gl. unfold G. cbn [rq_room rq_chan] in *. unfold complete in K.
            rewrite T, C in K. unfold lenN in *. lia. }
          unfold splice. fold (put t (tk_buf t k) (tk_count t k) (G (mkReq ci (N.to_nat (lenN (tk_buf t k) - tk_count t k)) s))).
          split; [reflexivity|]. cbn [pr_target pr_read].
          assert (Lq : forall l : list V, length l = length (tk_buf t k) -> lenN l = lenN (tk_buf t k)) by (intros l X; unfold lenN; now rewrite X).
          rewrite (Lq _ Lput). split; [reflexivity|].
          unfold complete. cbn [pr_target pr_read tk_buf tk_count].
          destruct (lenN (tk_buf t k) <=? tk_count t k + cnt) eqn:Q; [lia|reflexivity].
      - assert (X : (if complete pr then None else None : option (nat * N)) = None) by (destruct (complete pr); reflexivity).
        rewrite X. split; [reflexivity|]. split; [exact T|exact C]. }
    destruct (forallb complete prs') eqn:Fc.
    + (* all complete *)
      assert (Dn : forall k', In k' ks' -> lenN (tk_buf t k') <= tk_count t k').
      { intros k' Hk'. apply In_nth_error in Hk'. destruct Hk' as [i Ki'].
        assert (Hi : (i < length ks')%nat) by (apply nth_error_Some; congruence).
        destruct (nth_error prs' i) as [pr'|] eqn:Hpr'; [|apply nth_error_None in Hpr'; lia].
        destruct (nth_error outs' i) as [o'|] eqn:Ho'; [|apply nth_error_None in Ho'; lia].
        destruct (St' i pr' o' k' Hpr' Ho' Ki') as [[-> [T C]] _].
        rewrite forallb_forall in Fc. rewrite (Fc pr' (nth_error_In _ _ Hpr')) in C. exact C. }
      rewrite (done_mixed _ ks' Dn). f_equal. apply nth_ext_error. intros i. rewrite nth_error_map.
      destruct (nth_error ks' i) as [k'|] eqn:Ki'.
      * assert (Hi : (i < length ks')%nat) by (apply nth_error_Some; congruence).
        destruct (nth_error prs' i) as [pr'|] eqn:Hpr'; [|apply nth_error_None in Hpr'; lia].
        destruct (nth_error outs' i) as [o'|] eqn:Ho'; [|apply nth_error_None in Ho'; lia].
        destruct (St' i pr' o' k' Hpr' Ho' Ki') as [[-> _] _]. reflexivity.
      * apply nth_error_None in Ki'. rewrite (proj2 (nth_error_None outs' i)) by lia. reflexivity.
    + apply (IH (S j) rest prs' outs' ks'); auto; [lia| | |].
      * apply Forall_forall. intros br' Hbr'. rewrite Forall_forall in Fa', Fl.
        destruct (Fa' br' Hbr') as [_ [X Y]]. specialize (Fl _ (in_map br_block _ _ Hbr')).
        split; [lia|]. split; [congruence|exact Y].
      * intros i pr' o' k' A B C. exact (proj1 (St' i pr' o' k' A B C)).
      * intros i k' j' Ki' Hj'.
        assert (Hi : (i < length ks')%nat) by (apply nth_error_Some; congruence).
        destruct (nth_error prs' i) as [pr'|] eqn:Hpr'; [|apply nth_error_None in Hpr'; lia].
        destruct (nth_error outs' i) as [o'|] eqn:Ho'; [|apply nth_error_None in Ho'; lia].
        destruct (St' i pr' o' k' Hpr' Ho' Ki') as [_ [k [Ki Nn]]]. specialize (Wa i k j' Ki ltac:(lia)).
        cbn [find] in Wa. replace (Nat.eqb (br_block br) j') with false in Wa by (symmetry; apply Nat.eqb_neq; lia).
        unfold same_want in *. rewrite Nn. exact Wa.
Qed.
End Serve.

Section Session.
Context (E : env) (H : list segment) (F : tfile) (t : sty).
Hypothesis (Se : session E H F) (Sz : sized t) (Ad : addressable E (tf_bytes F)).
Local Notation V := (carrier t).

Lemma plan_mixed chans start plan : Forall (mentioned (all_objs H)) chans -> NoDup chans ->
  Forall (mixed_stored E (tf_bytes F) t H) chans ->
  Forall (fun br => length (br_chans br) = length chans /\ exists c s, In (Some (c, s)) (br_chans br)) plan ->
  (forall i p, nth_error chans i = Some p -> planned i plan = needed (locs_after H p) start) ->
  Forall (fun br => length (br_chans br) = length chans /\ exists b, mixed_br E (tf_bytes F) t (tf_ix F) br b) plan.
Proof.
  intros M ND Hst Sh Hn. destruct (C14_incremental E H F Se) as [_ [_ [_ [Hb [Gp _]]]]].
  pose proof (C18_sessions E H F (session_any _ _ _ Se)) as Va.
  apply Forall_forall. intros br Hbr. rewrite Forall_forall in Sh.
  destruct (Sh br Hbr) as [Ln [c0 [s0 Hc0]]]. split; [exact Ln|].
  assert (Ent : forall i ci si, nth_error (br_chans br) i = Some (Some (ci, si)) ->
     exists p l b m, nth_error chans i = Some p /\ In l (locs_after H p) /\ l_block l = br_block br /\ l_chan l = ci
       /\ si < l_n l /\ nth_error (blocks_after H) (br_block br) = Some b /\ mixed_block E (tf_bytes F) t b
       /\ nth_error (b_chans b) ci = Some m /\ supports t (rm_type m) = true /\ l_n l = rm_n m * whole_chunks b).
  { intros i ci si Hi. assert (Hl : (i < length chans)%nat) by (rewrite <- Ln; apply nth_error_Some; congruence).
    destruct (nth_error chans i) as [p|] eqn:Hp; [|apply nth_error_None in Hp; lia].
    pose proof (planned_in i plan br ci si Hbr Hi) as Pl. rewrite (Hn i p Hp) in Pl.
    apply needed_in in Pl. destruct Pl as [l [Hin [Lb [Lc Lt]]]].
    rewrite Forall_forall in Hst. specialize (Hst p (nth_error_In _ _ Hp)). unfold mixed_stored in Hst.
    rewrite Forall_forall in Hst. destruct (Hst l Hin ltac:(lia)) as [b [m [Hb1 [Hm [Ht Hw]]]]].
    pose proof (locs_located H p) as Lo. rewrite Forall_forall in Lo. destruct (Lo l Hin) as [b' [m' [Hb2 [Hm2 Hl2]]]].
    rewrite Hb1 in Hb2. injection Hb2 as <-. rewrite Hm in Hm2. injection Hm2 as <-.
    exists p, l, b, m. rewrite <- Lb, <- Lc.
    repeat (split; [first [assumption|reflexivity]|]).
    split; [now apply stored_as_supports|exact Hl2]. }
  apply In_nth_error in Hc0. destruct Hc0 as [i0 Hi0].
  destruct (Ent _ _ _ Hi0) as [p0 [l0 [b [m0 [Hp0 [Hl0 [Lb0 [Lc0 [Lt0 [Hb0 [Hw0 [Hm0 [Hs0 Ln0]]]]]]]]]]]]].
  exists b. unfold mixed_br. rewrite Hb. split; [assumption|].
  split; [intros K; rewrite K in Hm0; destruct c0; discriminate|]. split; [assumption|]. split.
  - intros i ci si Hi.
    destruct (Ent _ _ _ Hi) as [p [l [b' [m [_ [_ [_ [_ [Lt [Hb' [_ [Hm [Hsu Lm]]]]]]]]]]]]].
    rewrite Hb0 in Hb'. injection Hb' as <-. exists m. split; [exact Hm|]. split; [exact Hsu|]. lia.
  - intros i j ci si sj Hi Hj.
    destruct (Ent _ _ _ Hi) as [p [l [_ [_ [Hp [Hl [Lb [Lc _]]]]]]]].
    destruct (Ent _ _ _ Hj) as [p' [l' [_ [_ [Hp' [Hl' [Lb' [Lc' _]]]]]]]].
    destruct (list_eq_dec Byte.byte_eq_dec p p') as [Epp|Npp].
    + subst p'. apply (proj1 (NoDup_nth_error chans) ND); [apply nth_error_Some; congruence|congruence].
    + exfalso. rewrite Forall_forall in M.
      pose proof (Gp p (M p (nth_error_In _ _ Hp))) as G1. pose proof (Gp p' (M p' (nth_error_In _ _ Hp'))) as G2.
      destruct (Va p _ G1) as [_ [_ Di]]. apply (Di p' _ l l' (not_eq_sym Npp) G2 Hl Hl'); congruence.
Qed.

Lemma read_mixed chans start outs :
  Forall (mentioned (all_objs H)) chans -> Forall (mixed_stored E (tf_bytes F) t H) chans ->
  NoDup chans -> length outs = length chans ->
  read_channels_from E F t chans start outs
  = (map (tk_buf t) (mixed_served (tf_bytes F) t (blocks_after H) (takers H t chans start outs)), Ok tt).
Proof.
  intros M St ND Lo. destruct (C14_incremental E H F Se) as [_ [_ [_ [Hb _]]]].
  unfold read_channels_from, ix_read_channels_from. rewrite (lookup_ok E H F Se) by exact M. cbn [bind].
  destruct (plan_ok E H F Se chans start M) as [plan [Hp [Ps [Sh Hn]]]]. rewrite Hp. unfold execute_read_plan, mixed_served. rewrite <- Hb.
  pose proof (plan_mixed chans start plan M ND St Sh Hn) as Sk.
  assert (Lt : length (takers H t chans start outs) = length chans).
  { unfold takers. rewrite map_length, combine_length. lia. }
  assert (Nt : forall i k, nth_error (takers H t chans start outs) i = Some k ->
     exists p o, nth_error chans i = Some p /\ nth_error outs i = Some o /\ k = mkTaker t (needed (locs_after H p) start) 0 o).
  { intros i k Ki. assert (Hi : (i < length chans)%nat) by (rewrite <- Lt; apply nth_error_Some; congruence).
    destruct (nth_error chans i) as [p|] eqn:Pi; [|apply nth_error_None in Pi; lia].
    destruct (nth_error outs i) as [o|] eqn:Oi; [|apply nth_error_None in Oi; lia].
    exists p, o. do 2 (split; [reflexivity|]). unfold takers in Ki. rewrite nth_error_map, (combine_nth _ _ _ _ _ Pi Oi) in Ki.
    cbn [option_map fst snd] in Ki. congruence. }
  apply (execute_mixed E (tf_bytes F) t (tf_ix F) Sz Ad (length (ix_blocks (tf_ix F))) 0 plan); auto; try congruence.
  - rewrite map_length. congruence.
  - eapply Forall_impl; [|exact Sk]. cbv beta. intros br [L X]. split; [lia|]. split; [congruence|exact X].
  - intros i pr o k Hpr Ho Hk. destruct (Nt i k Hk) as [p [o' [_ [Oi ->]]]]. rewrite Ho in Oi. injection Oi as <-.
    rewrite nth_error_map, Ho in Hpr. injection Hpr as <-. split; [reflexivity|]. split; [reflexivity|].
    unfold complete. cbn [pr_read pr_target tk_count]. destruct (lenN o <=? 0) eqn:Q; [lia|reflexivity].
  - intros i k j Ki _. destruct (Nt i k Ki) as [p [o [Pi [_ ->]]]]. unfold same_want. cbn [tk_needs].
    rewrite <- (Hn i p Pi), (find_planned i j plan Ps).
    destruct (find _ plan) as [br|]; [|reflexivity]. destruct (nth_error (br_chans br) i) as [[[c s]|]|]; reflexivity.
Qed.
End Session.
