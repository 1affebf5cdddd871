(** * Executing a read plan: what every channel receives *)
From Coq Require Import Sorting.Sorted.
From Verif Require Import Base Lib DataTypes MetaData DataBlock Index RawData ChannelReader TdmsFile SpecIndex SpecSession SpecRead SpecMulti
  Block_proofs Request_proofs Plan_proofs Read_proofs Session_proofs Skips_proofs SkipReq_proofs Thm_Index.

(** The planned entry for block [j]. *)
Lemma find_planned i j : forall plan, StronglySorted lt (map br_block plan) ->
  find (fun x : nat * nat * N => Nat.eqb (fst (fst x)) j) (planned i plan) =
  match find (fun br => Nat.eqb (br_block br) j) plan with
  | Some br => match nth_error (br_chans br) i with Some (Some (c, s)) => Some (j, c, s) | _ => None end
  | None => None
  end.
Proof.
  induction plan as [|br plan IH]; intros So; [reflexivity|]. cbn [map] in So. inversion So as [|y l So' Fa]; subst.
  specialize (IH So'). unfold planned in *. cbn [flat_map find]. destruct (Nat.eqb (br_block br) j) eqn:K.
  - apply Nat.eqb_eq in K.
    assert (No : find (fun br => Nat.eqb (br_block br) j) plan = None).
    { destruct (find _ plan) as [br'|] eqn:Fd; [|reflexivity]. apply find_some in Fd. destruct Fd as [Hin Eq].
      apply Nat.eqb_eq in Eq. rewrite Forall_forall in Fa. specialize (Fa _ (in_map br_block _ _ Hin)). lia. }
    rewrite No in IH. destruct (nth_error (br_chans br) i) as [[[c s]|]|]; cbn [app find fst]; auto.
    replace (Nat.eqb (br_block br) j) with true by (symmetry; now apply Nat.eqb_eq). congruence.
  - destruct (nth_error (br_chans br) i) as [[[c s]|]|]; cbn [app find fst]; auto. now rewrite K.
Qed.

Section Serve.
Context (E : env) (f : list byte) (t : sty) (ix : index).
Hypothesis (Fx : fixed t) (Ad : addressable E f).
Local Notation V := (carrier t).
Local Notation bs := (ix_blocks ix).

(** The block of [br] is whole, stores type [t] in the planned channels, and
    every skip lies inside it. *)
Definition skips_block (br : blockread) (b : dblock) (n c : N) : Prop :=
  nth_error bs (br_block br) = Some b
  /\ 0 < n /\ 0 < c /\ b_chans b <> []
  /\ Forall (fun m => rm_n m = n /\ 0 < width (rm_type m)) (b_chans b)
  /\ chunks b c /\ b_start b + c * sub_bytes (b_chans b) <= lenN f
  /\ (forall i ci si, nth_error (br_chans br) i = Some (Some (ci, si)) ->
        si <= c * n /\ exists m, nth_error (b_chans b) ci = Some m /\ supports t (rm_type m) = true)
  /\ distinct_chans (br_chans br).

(** A channel of the model and one of the specification. *)
Definition same_state (pr : progress) (o : list V) (k : taker t) : Prop :=
  o = tk_buf t k /\ pr_target pr = lenN o
  /\ (if complete pr then lenN o <= tk_count t k else pr_read pr = tk_count t k).

(** What block [j] is asked for. *)
Definition same_want (j : nat) (p : option (nat * N)) (k : taker t) : Prop :=
  find (fun x : nat * nat * N => Nat.eqb (fst (fst x)) j) (tk_needs t k)
  = match p with Some (c, s) => Some (j, c, s) | None => None end.

Lemma wants_is j p pr o k : same_state pr o k -> same_want j p k ->
  wants t j k = if complete pr then None else p.
Proof.
  intros [-> [T C]] W. unfold wants. unfold same_want in W. rewrite W. unfold complete in *. rewrite T in *.
  destruct (lenN (tk_buf t k) <=? pr_read pr) eqn:Q.
  - now replace (lenN (tk_buf t k) <=? tk_count t k) with true by lia.
  - rewrite <- C, Q. destruct p as [[c s]|]; reflexivity.
Qed.
Lemma requests_are j : forall plans prs outs ks,
  length prs = length plans -> length outs = length plans -> length ks = length plans ->
  (forall i p pr o k, nth_error plans i = Some p -> nth_error prs i = Some pr -> nth_error outs i = Some o ->
     nth_error ks i = Some k -> same_state pr o k /\ same_want j p k) ->
  block_requests plans prs = concat (map (asks t j) ks).
Proof.
  induction plans as [|p plans IH]; intros [|pr prs] [|o outs] [|k ks] L1 L2 L3 Hx; try discriminate; [reflexivity|].
  cbn [block_requests map concat].
  rewrite <- (IH prs outs ks) by (try (cbn [length] in *; lia); intros i p' pr' o' k' A B C D; apply (Hx (S i) p' pr' o' k'); auto).
  destruct (Hx 0%nat p pr o k eq_refl eq_refl eq_refl eq_refl) as [Ss Sw].
  unfold asks. rewrite (wants_is j p pr o k Ss Sw). destruct Ss as [-> [T C]].
  destruct p as [[c s]|]; [|destruct (complete pr); reflexivity].
  destruct (complete pr) eqn:K; [reflexivity|]. cbn [app]. now rewrite T, C.
Qed.

Lemma got_length lay n total reqs q (col : list V) : (length (got_of lay n total reqs q col) <= rq_room q)%nat.
Proof. unfold got_of. destruct lay; rewrite firstn_length; lia. Qed.
Lemma put_length (buf : list V) a vs : (N.to_nat a + length vs <= length buf)%nat -> length (put t buf a vs) = length buf.
Proof. intros H. unfold put. rewrite !app_length, firstn_length, skipn_length. lia. Qed.

Lemma no_wants j ks : (forall k, In k ks -> wants t j k = None) -> serve f t bs j ks = ks.
Proof.
  intros H. unfold serve. destruct (nth_error bs j) as [b|]; [|reflexivity]. transitivity (map (fun k => k) ks); [|apply map_id].
  apply map_ext_in. intros k Hk. rewrite (H k Hk). reflexivity.
Qed.
Lemma done_wants js : forall ks, (forall k, In k ks -> lenN (tk_buf t k) <= tk_count t k) ->
  fold_left (fun ks j => serve f t bs j ks) js ks = ks.
Proof.
  induction js as [|j js IH]; intros ks H; [reflexivity|]. cbn [fold_left]. rewrite no_wants; [now apply IH|].
  intros k Hk. unfold wants. specialize (H k Hk). now replace (lenN (tk_buf t k) <=? tk_count t k) with true by lia.
Qed.

Lemma execute_exact m : forall j plan prs outs ks,
  (j + m = length bs)%nat ->
  length outs = length ks -> length prs = length ks ->
  StronglySorted lt (map br_block plan) ->
  Forall (fun br => (j <= br_block br)%nat /\ length (br_chans br) = length ks /\ exists b n c, skips_block br b n c) plan ->
  (forall i pr o k, nth_error prs i = Some pr -> nth_error outs i = Some o -> nth_error ks i = Some k -> same_state pr o k) ->
  (forall i k j', nth_error ks i = Some k -> (j <= j')%nat ->
     same_want j' (match find (fun br => Nat.eqb (br_block br) j') plan with
                   | Some br => match nth_error (br_chans br) i with Some p => p | None => None end
                   | None => None end) k) ->
  execute E f t ix plan prs outs = (map (tk_buf t) (fold_left (fun ks j => serve f t bs j ks) (seq j m) ks), Ok tt).
Proof.
  induction m as [|m IH]; intros j plan prs outs ks Hj Lo Lp So Fa St Wa.
  - destruct plan as [|br plan].
    + cbn [execute seq fold_left]. f_equal. apply nth_ext_error. intros i. rewrite nth_error_map.
      destruct (nth_error outs i) as [o|] eqn:Oi.
      * assert (Hi : (i < length ks)%nat) by (rewrite <- Lo; apply nth_error_Some; congruence).
        destruct (nth_error ks i) as [k|] eqn:Ki; [|apply nth_error_None in Ki; lia].
        destruct (nth_error prs i) as [pr|] eqn:Pi; [|apply nth_error_None in Pi; lia].
        destruct (St i pr o k Pi Oi Ki) as [-> _]. reflexivity.
      * apply nth_error_None in Oi. rewrite (proj2 (nth_error_None ks i)) by lia. reflexivity.
    + exfalso. inversion Fa as [|y l [Le [_ [b [n [c Sb]]]]] _]; subst. destruct Sb as [Hb _].
      assert (br_block br < length bs)%nat by (apply nth_error_Some; congruence). lia.
  - cbn [seq fold_left].
    assert (Skip : (forall br, In br plan -> (S j <= br_block br)%nat) ->
       execute E f t ix plan prs outs = (map (tk_buf t) (fold_left (fun ks j => serve f t bs j ks) (seq (S j) m) (serve f t bs j ks)), Ok tt)).
    { intros Far.
      assert (Nw : serve f t bs j ks = ks).
      { apply no_wants. intros k Hk. apply In_nth_error in Hk. destruct Hk as [i Ki].
        assert (Hi : (i < length ks)%nat) by (apply nth_error_Some; congruence).
        specialize (Wa i k j Ki (Nat.le_refl j)).
        assert (No : find (fun br => Nat.eqb (br_block br) j) plan = None).
        { destruct (find _ plan) as [br'|] eqn:Fd; [|reflexivity]. apply find_some in Fd. destruct Fd as [Hin Eq].
          apply Nat.eqb_eq in Eq. specialize (Far _ Hin). lia. }
        rewrite No in Wa. unfold same_want in Wa. unfold wants. rewrite Wa. now destruct (lenN (tk_buf t k) <=? tk_count t k). }
      rewrite Nw. apply IH; auto; [lia| |].
      - rewrite Forall_forall in *. intros br Hbr. destruct (Fa br Hbr) as [_ X]. split; [now apply Far|exact X].
      - intros i k j' Ki Hj'. apply Wa; [exact Ki|lia]. }
    destruct plan as [|br rest]; [apply Skip; contradiction|].
    destruct (Nat.eq_dec (br_block br) j) as [Ej|Nj].
    2:{ apply Skip. intros br' [<-|Hin].
        - rewrite Forall_forall in Fa. destruct (Fa br (or_introl eq_refl)) as [X _]. lia.
        - cbn [map] in So. inversion So as [|y l _ Fl]; subst. rewrite Forall_forall in Fl, Fa.
          specialize (Fl _ (in_map br_block _ _ Hin)). destruct (Fa br (or_introl eq_refl)) as [X _]. lia. }
    clear Skip. inversion Fa as [|y l [_ [Lbr [b [n [c Sb]]]]] Fa']; subst y l.
    destruct Sb as [Bb [Hn [Hc [Hne [Hu [Hbl [Hin [Hch Hd]]]]]]]].
    cbn [map] in So. inversion So as [|y l So' Fl]; subst y l.
    (* the requests *)
    assert (Wj : forall i p k, nth_error (br_chans br) i = Some p -> nth_error ks i = Some k -> same_want j p k).
    { intros i p k Hp Ki. specialize (Wa i k j Ki (Nat.le_refl j)). cbn [find] in Wa.
      rewrite Ej, Nat.eqb_refl, Hp in Wa. exact Wa. }
    set (reqs := block_requests (br_chans br) prs).
    assert (Rq : reqs = concat (map (asks t j) ks)).
    { unfold reqs. apply (requests_are j _ _ outs); try congruence.
      intros i p pr o k Hp Hpr Ho Hk. split; [eapply St; eauto|eapply Wj; eauto]. }
    assert (Hv : Forall (valid_req t (b_chans b)) reqs).
    { apply Forall_forall. intros q Hq. apply in_requests in Hq. destruct Hq as [i [ci [si [pr [Hi [_ [_ ->]]]]]]].
      destruct (Hch _ _ _ Hi) as [_ [mm Hm]]. exists mm. exact Hm. }
    assert (Hss : Forall (fun q => rq_skip q <= c * n) reqs).
    { apply Forall_forall. intros q Hq. apply in_requests in Hq. destruct Hq as [i [ci [si [pr [Hi [_ [_ ->]]]]]]].
      now destruct (Hch _ _ _ Hi) as [Hx _]. }
    destruct (block_skips_exact E f t Fx Ad b reqs n c Hn Hc Hne Hu Hbl Hin Hv (distinct_nodup _ _ Hd) Hss) as [Rs R0].
    set (G := fun q => got_of (b_layout b) n (c * n) reqs q (block_samples f t b (rq_chan q) (c * n))) in *.
    set (cnt := count_of_block (b_layout b) n (c * n) reqs) in *.
    assert (Pc : per_chunk b = n).
    { unfold per_chunk. destruct (b_chans b) as [|m0 ms]; [congruence|]. inversion Hu as [|y l [A _] _]; subst. reflexivity. }
    assert (Pb : per_block b = c * n).
    { unfold per_block. rewrite Pc. f_equal. apply whole_chunks_of; [eapply Forall_impl; [|exact Hu]; cbv beta; tauto|apply (sub_bytes_pos n); assumption|exact Hbl]. }
    cbn [execute]. unfold get_data_block. rewrite Bb.
    assert (Rd : (if any_skip (br_chans br) then block_read_skips E f t b reqs else block_read E f t b reqs)
                 = (map G reqs, Ok cnt)).
    { destruct (any_skip (br_chans br)) eqn:As; [exact Rs|]. apply R0.
      apply Forall_forall. intros q Hq. apply in_requests in Hq. destruct Hq as [i [ci [si [pr [Hi [_ [_ ->]]]]]]].
      cbn [rq_skip]. destruct (0 <? si) eqn:Q; [|lia]. exfalso. apply not_true_iff_false in As. apply As.
      apply existsb_exists. exists (Some (ci, si)). split; [eapply nth_error_In; eauto|exact Q]. }
    fold reqs. rewrite Rd.
    set (prs' := advance (br_chans br) cnt prs). set (outs' := store (br_chans br) prs outs (map G reqs)).
    set (ks' := serve f t bs j ks).
    assert (Nk : forall i k, nth_error ks i = Some k -> nth_error ks' i = Some (match wants t j k with
        | Some (ci, s) => mkTaker t (tk_needs t k) (tk_count t k + cnt)
            (put t (tk_buf t k) (tk_count t k) (G (mkReq ci (N.to_nat (lenN (tk_buf t k) - tk_count t k)) s)))
        | None => k end)).
    { intros i k Ki. unfold ks', serve. rewrite <- Ej, Bb, Ej, <- Rq, Pc, Pb. rewrite nth_error_map, Ki. reflexivity. }
    assert (Lk' : length ks' = length ks).
    { unfold ks', serve. destruct (nth_error bs j); [now rewrite map_length|reflexivity]. }
    assert (Lp' : length prs' = length ks') by (unfold prs'; rewrite advance_length; congruence).
    assert (Lo' : length outs' = length ks') by (unfold outs'; rewrite store_length; congruence).
    assert (St' : forall i pr' o' k', nth_error prs' i = Some pr' -> nth_error outs' i = Some o' -> nth_error ks' i = Some k' ->
       same_state pr' o' k' /\ exists k, nth_error ks i = Some k /\ tk_needs t k' = tk_needs t k).
    { intros i pr' o' k' Hpr' Ho' Hk'.
      assert (Hi : (i < length ks)%nat) by (rewrite <- Lk'; apply nth_error_Some; congruence).
      destruct (nth_error ks i) as [k|] eqn:Ki; [|apply nth_error_None in Ki; lia].
      destruct (nth_error prs i) as [pr|] eqn:Hpr; [|apply nth_error_None in Hpr; lia].
      destruct (nth_error outs i) as [o|] eqn:Ho; [|apply nth_error_None in Ho; lia].
      destruct (nth_error (br_chans br) i) as [p|] eqn:Hp; [|apply nth_error_None in Hp; lia].
      unfold prs' in Hpr'. rewrite (nth_advance cnt _ _ _ _ _ Hp Hpr) in Hpr'. injection Hpr' as <-.
      unfold outs', reqs in Ho'. rewrite (nth_store G _ _ _ _ _ _ _ Hp Hpr Ho) in Ho'. injection Ho' as <-.
      rewrite (Nk i k Ki) in Hk'. injection Hk' as <-.
      pose proof (St i pr o k Hpr Ho Ki) as Ss. rewrite (wants_is j p pr o k Ss (Wj i p k Hp Ki)).
      destruct Ss as [-> [T C]]. split.
      2:{ exists k. split; [reflexivity|]. destruct (complete pr); [reflexivity|]. destruct p as [[ci s]|]; reflexivity. }
      destruct p as [[ci s]|].
      - destruct (complete pr) eqn:K.
        + split; [reflexivity|]. split; [exact T|]. unfold complete in *. cbn [pr_read pr_target].
          replace (pr_target pr <=? pr_read pr + cnt) with true by lia. exact C.
        + cbn [tk_buf tk_count]. unfold room_of. rewrite T, C.
          assert (Lput : length (put t (tk_buf t k) (tk_count t k) (G (mkReq ci (N.to_nat (lenN (tk_buf t k) - tk_count t k)) s))) = length (tk_buf t k)).
          { apply put_length. pose proof (got_length (b_layout b) n (c * n) reqs (mkReq ci (N.to_nat (lenN (tk_buf t k) - tk_count t k)) s)
              (block_samples f t b ci (c * n))) as Gl. unfold G. cbn [rq_room rq_chan] in *. unfold complete in K.
            rewrite T, C in K. unfold lenN in *. lia. }
          unfold splice. fold (put t (tk_buf t k) (tk_count t k) (G (mkReq ci (N.to_nat (lenN (tk_buf t k) - tk_count t k)) s))).
          split; [reflexivity|]. cbn [pr_target pr_read].
          assert (Lq : forall l : list V, length l = length (tk_buf t k) -> lenN l = lenN (tk_buf t k)) by (intros l X; unfold lenN; now rewrite X).
          rewrite (Lq _ Lput). split; [reflexivity|].
          unfold complete. cbn [pr_target pr_read tk_buf tk_count].
          destruct (lenN (tk_buf t k) <=? tk_count t k + cnt) eqn:Q; [lia|reflexivity].
      - assert (X : (if complete pr then None else None : option (nat * N)) = None) by (destruct (complete pr); reflexivity).
        rewrite X. split; [reflexivity|]. split; [exact T|exact C]. }
    destruct (forallb complete prs') eqn:Fc.
    + (* all complete *)
      assert (Dn : forall k', In k' ks' -> lenN (tk_buf t k') <= tk_count t k').
      { intros k' Hk'. apply In_nth_error in Hk'. destruct Hk' as [i Ki'].
        assert (Hi : (i < length ks')%nat) by (apply nth_error_Some; congruence).
        destruct (nth_error prs' i) as [pr'|] eqn:Hpr'; [|apply nth_error_None in Hpr'; lia].
        destruct (nth_error outs' i) as [o'|] eqn:Ho'; [|apply nth_error_None in Ho'; lia].
        destruct (St' i pr' o' k' Hpr' Ho' Ki') as [[-> [T C]] _].
        rewrite forallb_forall in Fc. rewrite (Fc pr' (nth_error_In _ _ Hpr')) in C. exact C. }
      rewrite (done_wants _ ks' Dn). f_equal. apply nth_ext_error. intros i. rewrite nth_error_map.
      destruct (nth_error ks' i) as [k'|] eqn:Ki'.
      * assert (Hi : (i < length ks')%nat) by (apply nth_error_Some; congruence).
        destruct (nth_error prs' i) as [pr'|] eqn:Hpr'; [|apply nth_error_None in Hpr'; lia].
        destruct (nth_error outs' i) as [o'|] eqn:Ho'; [|apply nth_error_None in Ho'; lia].
        destruct (St' i pr' o' k' Hpr' Ho' Ki') as [[-> _] _]. reflexivity.
      * apply nth_error_None in Ki'. rewrite (proj2 (nth_error_None outs' i)) by lia. reflexivity.
    + apply (IH (S j) rest prs' outs' ks'); auto; [lia| | |].
      * apply Forall_forall. intros br' Hbr'. rewrite Forall_forall in Fa', Fl.
        destruct (Fa' br' Hbr') as [_ [X Y]]. specialize (Fl _ (in_map br_block _ _ Hbr')).
        split; [lia|]. split; [congruence|exact Y].
      * intros i pr' o' k' A B C. exact (proj1 (St' i pr' o' k' A B C)).
      * intros i k' j' Ki' Hj'.
        assert (Hi : (i < length ks')%nat) by (apply nth_error_Some; congruence).
        destruct (nth_error prs' i) as [pr'|] eqn:Hpr'; [|apply nth_error_None in Hpr'; lia].
        destruct (nth_error outs' i) as [o'|] eqn:Ho'; [|apply nth_error_None in Ho'; lia].
        destruct (St' i pr' o' k' Hpr' Ho' Ki') as [_ [k [Ki Nn]]]. specialize (Wa i k j' Ki ltac:(lia)).
        cbn [find] in Wa. replace (Nat.eqb (br_block br) j') with false in Wa by (symmetry; apply Nat.eqb_neq; lia).
        unfold same_want in *. rewrite Nn. exact Wa.
Qed.
End Serve.

Section Session.
Context (E : env) (H : list segment) (F : tfile) (t : sty).
Hypothesis (Se : session E H F) (Fx : fixed t) (Ad : addressable E (tf_bytes F)).
Local Notation V := (carrier t).

Lemma plan_skips chans start plan : Forall (mentioned (all_objs H)) chans -> NoDup chans ->
  Forall (stored (tf_bytes F) t H) chans ->
  Forall (fun br => length (br_chans br) = length chans /\ exists c s, In (Some (c, s)) (br_chans br)) plan ->
  (forall i p, nth_error chans i = Some p -> planned i plan = needed (locs_after H p) start) ->
  Forall (fun br => length (br_chans br) = length chans /\ exists b n c, skips_block (tf_bytes F) t (tf_ix F) br b n c) plan.
Proof.
  intros M ND Hst Sh Hn. destruct (C14_incremental E H F Se) as [_ [_ [_ [Hb [Gp _]]]]].
  pose proof (C18_sessions E H F (session_any _ _ _ Se)) as Va.
  apply Forall_forall. intros br Hbr. rewrite Forall_forall in Sh.
  destruct (Sh br Hbr) as [Ln [c0 [s0 Hc0]]]. split; [exact Ln|].
  assert (Ent : forall i ci si, nth_error (br_chans br) i = Some (Some (ci, si)) ->
     exists p l b m, nth_error chans i = Some p /\ In l (locs_after H p) /\ l_block l = br_block br /\ l_chan l = ci
       /\ si < l_n l /\ nth_error (blocks_after H) (br_block br) = Some b /\ whole_block (tf_bytes F) b
       /\ nth_error (b_chans b) ci = Some m /\ supports t (rm_type m) = true /\ l_n l = rm_n m * whole_chunks b).
  { intros i ci si Hi. assert (Hl : (i < length chans)%nat) by (rewrite <- Ln; apply nth_error_Some; congruence).
    destruct (nth_error chans i) as [p|] eqn:Hp; [|apply nth_error_None in Hp; lia].
    pose proof (planned_in i plan br ci si Hbr Hi) as Pl. rewrite (Hn i p Hp) in Pl.
    apply needed_in in Pl. destruct Pl as [l [Hin [Lb [Lc Lt]]]].
    rewrite Forall_forall in Hst. specialize (Hst p (nth_error_In _ _ Hp)). unfold stored in Hst.
    rewrite Forall_forall in Hst. destruct (Hst l Hin) as [b [m [Hb1 [Hw [Hm Ht]]]]].
    pose proof (locs_located H p) as Lo. rewrite Forall_forall in Lo. destruct (Lo l Hin) as [b' [m' [Hb2 [Hm2 Hl2]]]].
    rewrite Hb1 in Hb2. injection Hb2 as <-. rewrite Hm in Hm2. injection Hm2 as <-.
    exists p, l, b, m. rewrite <- Lb, <- Lc.
    repeat (split; [first [assumption|reflexivity]|]).
    split; [now apply stored_as_supports|exact Hl2]. }
  apply In_nth_error in Hc0. destruct Hc0 as [i0 Hi0].
  destruct (Ent _ _ _ Hi0) as [p0 [l0 [b [m0 [Hp0 [Hl0 [Lb0 [Lc0 [Lt0 [Hb0 [Hw0 [Hm0 [Hs0 Ln0]]]]]]]]]]]]].
  destruct Hw0 as [n [c [Pn [Pc [Ne [Fu [Ck Pr]]]]]]].
  assert (Wc : whole_chunks b = c).
  { apply whole_chunks_of; [eapply Forall_impl; [|exact Fu]; cbv beta; tauto|apply (sub_bytes_pos n); assumption|exact Ck]. }
  exists b, n, c. unfold skips_block. rewrite Hb.
  do 7 (split; [assumption|]). split.
  - intros i ci si Hi.
    destruct (Ent _ _ _ Hi) as [p [l [b' [m [_ [_ [_ [_ [Lt [Hb' [_ [Hm [Hsu Lm]]]]]]]]]]]]].
    rewrite Hb0 in Hb'. injection Hb' as <-. rewrite Forall_forall in Fu. rewrite (proj1 (Fu m (nth_error_In _ _ Hm))), Wc in Lm.
    split; [lia|eauto].
  - intros i j ci si sj Hi Hj.
    destruct (Ent _ _ _ Hi) as [p [l [_ [_ [Hp [Hl [Lb [Lc _]]]]]]]].
    destruct (Ent _ _ _ Hj) as [p' [l' [_ [_ [Hp' [Hl' [Lb' [Lc' _]]]]]]]].
    destruct (list_eq_dec Byte.byte_eq_dec p p') as [Epp|Npp].
    + subst p'. apply (proj1 (NoDup_nth_error chans) ND); [apply nth_error_Some; congruence|congruence].
    + exfalso. rewrite Forall_forall in M.
      pose proof (Gp p (M p (nth_error_In _ _ Hp))) as G1. pose proof (Gp p' (M p' (nth_error_In _ _ Hp'))) as G2.
      destruct (Va p _ G1) as [_ [_ Di]]. apply (Di p' _ l l' (not_eq_sym Npp) G2 Hl Hl'); congruence.
Qed.

(** The channels before anything is read. *)
Definition takers (chans : list str) (start : N) (outs : list (list V)) : list (taker t) :=
  map (fun po => mkTaker t (needed (locs_after H (fst po)) start) 0 (snd po)) (combine chans outs).

Lemma read_exact chans start outs :
  Forall (mentioned (all_objs H)) chans -> Forall (stored (tf_bytes F) t H) chans ->
  NoDup chans -> length outs = length chans ->
  read_channels_from E F t chans start outs
  = (map (tk_buf t) (served (tf_bytes F) t (blocks_after H) (takers chans start outs)), Ok tt).
Proof.
  intros M St ND Lo. destruct (C14_incremental E H F Se) as [_ [_ [_ [Hb _]]]].
  unfold read_channels_from, ix_read_channels_from. rewrite (lookup_ok E H F Se) by exact M. cbn [bind].
  destruct (plan_ok E H F Se chans start M) as [plan [Hp [Ps [Sh Hn]]]]. rewrite Hp. unfold execute_read_plan, served. rewrite <- Hb.
  pose proof (plan_skips chans start plan M ND St Sh Hn) as Sk.
  assert (Lt : length (takers chans start outs) = length chans).
  { unfold takers. rewrite map_length, combine_length. lia. }
  assert (Nt : forall i k, nth_error (takers chans start outs) i = Some k ->
     exists p o, nth_error chans i = Some p /\ nth_error outs i = Some o /\ k = mkTaker t (needed (locs_after H p) start) 0 o).
  { intros i k Ki. assert (Hi : (i < length chans)%nat) by (rewrite <- Lt; apply nth_error_Some; congruence).
    destruct (nth_error chans i) as [p|] eqn:Pi; [|apply nth_error_None in Pi; lia].
    destruct (nth_error outs i) as [o|] eqn:Oi; [|apply nth_error_None in Oi; lia].
    exists p, o. do 2 (split; [reflexivity|]). unfold takers in Ki. rewrite nth_error_map, (combine_nth _ _ _ _ _ Pi Oi) in Ki.
    cbn [option_map fst snd] in Ki. congruence. }
  apply (execute_exact E (tf_bytes F) t (tf_ix F) Fx Ad (length (ix_blocks (tf_ix F))) 0 plan); auto; try congruence.
  - rewrite map_length. congruence.
  - eapply Forall_impl; [|exact Sk]. cbv beta. intros br [L X]. split; [lia|]. split; [congruence|exact X].
  - intros i pr o k Hpr Ho Hk. destruct (Nt i k Hk) as [p [o' [_ [Oi ->]]]]. rewrite Ho in Oi. injection Oi as <-.
    rewrite nth_error_map, Ho in Hpr. injection Hpr as <-. split; [reflexivity|]. split; [reflexivity|].
    unfold complete. cbn [pr_read pr_target tk_count]. destruct (lenN o <=? 0) eqn:Q; [lia|reflexivity].
  - intros i k j Ki _. destruct (Nt i k Ki) as [p [o [Pi [_ ->]]]]. unfold same_want. cbn [tk_needs].
    rewrite <- (Hn i p Pi), (find_planned i j plan Ps).
    destruct (find _ plan) as [br|]; [|reflexivity]. destruct (nth_error (br_chans br) i) as [[[c s]|]|]; reflexivity.
Qed.
End Session.
