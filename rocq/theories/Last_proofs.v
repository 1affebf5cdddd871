(** * Lemmas on requests for a channel that come again later *)
From Verif Require Import Base Lib DataTypes MetaData Maps DataBlock Index RawData ChannelReader
  SpecIndex SpecRead SpecMulti SpecRepeat Serve_proofs Repeat_proofs Again_proofs.

Section Pairs.
Context (f : list byte) (t : sty).
Local Notation V := (carrier t).
Local Notation pair := (str * taker t)%type.

Definition serve_one (j : nat) (b : dblock) (reqs : list req) (k : taker t) (later : list req) : taker t :=
  match wants t j k with
  | Some (c, s) =>
    let q := mkReq c (N.to_nat (lenN (tk_buf t k) - tk_count t k)) s in
    mkTaker t (tk_needs t k)
      (tk_count t k + count_final (b_layout b) (per_chunk b) (per_block b) reqs)
      (if again q later then tk_buf t k
       else put t (tk_buf t k) (tk_count t k)
              (got_final (b_layout b) (per_chunk b) (per_block b) reqs q (block_samples f t b c (per_block b))))
  | None => k
  end.
Definition reqs_of (j : nat) (L : list pair) : list req := concat (map (fun x => asks t j (snd x)) L).
Fixpoint serve_pairs (j : nat) (b : dblock) (reqs : list req) (L : list pair) : list pair :=
  match L with
  | [] => []
  | (p, k) :: r => (p, serve_one j b reqs k (reqs_of j r)) :: serve_pairs j b reqs r
  end.
Lemma serve_pairs_fst j b reqs L : map fst (serve_pairs j b reqs L) = map fst L.
Proof. induction L as [|[p k] r IH]; [reflexivity|]. cbn [serve_pairs map fst]. now rewrite IH. Qed.
Lemma serve_pairs_snd j b reqs L : map snd (serve_pairs j b reqs L) = serve_final f t j b reqs (map snd L).
Proof.
  induction L as [|[p k] r IH]; [reflexivity|]. cbn [serve_pairs map snd serve_final]. rewrite IH. f_equal.
  unfold serve_one, reqs_of. now rewrite map_map.
Qed.
Definition serve_block (bs : list dblock) (j : nat) (L : list pair) : list pair :=
  match nth_error bs j with None => L | Some b => serve_pairs j b (reqs_of j L) L end.
Lemma serve_block_fst bs j L : map fst (serve_block bs j L) = map fst L.
Proof. unfold serve_block. destruct (nth_error bs j); [apply serve_pairs_fst|reflexivity]. Qed.
Lemma serve_block_snd bs j L : map snd (serve_block bs j L) = serve_again f t bs j (map snd L).
Proof.
  unfold serve_block, serve_again. destruct (nth_error bs j) as [b|]; [|reflexivity]. rewrite serve_pairs_snd. unfold reqs_of. now rewrite map_map.
Qed.
Lemma serve_blocks_snd bs js : forall L, map snd (fold_left (fun L j => serve_block bs j L) js L)
  = fold_left (fun ks j => serve_again f t bs j ks) js (map snd L).
Proof. induction js as [|j js IH]; intros L; [reflexivity|]. cbn [fold_left]. now rewrite IH, serve_block_snd. Qed.
Lemma serve_blocks_fst bs js : forall L, map fst (fold_left (fun L j => serve_block bs j L) js L) = map fst L.
Proof. induction js as [|j js IH]; intros L; [reflexivity|]. cbn [fold_left]. now rewrite IH, serve_block_fst. Qed.

(** An earlier request for a channel stays level with a later one until its buffer
    counts as full. *)
Definition level (k k' : taker t) : Prop :=
  tk_needs t k = tk_needs t k' /\ (length (tk_buf t k) <= length (tk_buf t k'))%nat
  /\ (lenN (tk_buf t k) <= tk_count t k \/ tk_count t k = tk_count t k').
Fixpoint levels (L : list pair) : Prop :=
  match L with
  | [] => True
  | (p, k) :: r => (forall k', In (p, k') r -> level k k') /\ levels r
  end.
Lemma level_wants j k k' x : level k k' -> wants t j k = Some x -> wants t j k' = Some x.
Proof.
  intros [Nd [Le Co]] W. unfold wants in *. rewrite <- Nd. destruct (lenN (tk_buf t k) <=? tk_count t k) eqn:K; [discriminate|].
  destruct Co as [Co|Co]; [lia|]. rewrite <- Co. replace (lenN (tk_buf t k') <=? tk_count t k) with false; [exact W|].
  unfold lenN in *. lia.
Qed.
Lemma wants_none j k k' : level k k' -> wants t j k = None -> lenN (tk_buf t k) <= tk_count t k \/ wants t j k' = None.
Proof.
  intros [Nd [Le Co]] W. destruct Co as [Co|Co]; [now left|]. unfold wants in *. rewrite <- Nd.
  destruct (lenN (tk_buf t k) <=? tk_count t k) eqn:K; [left; lia|]. right.
  destruct (lenN (tk_buf t k') <=? tk_count t k'); [reflexivity|]. exact W.
Qed.
Lemma one_needs j b reqs k later : tk_needs t (serve_one j b reqs k later) = tk_needs t k.
Proof. unfold serve_one. destruct (wants t j k) as [[c s]|]; reflexivity. Qed.
Lemma one_length j b reqs k later : length (tk_buf t (serve_one j b reqs k later)) = length (tk_buf t k).
Proof.
  unfold serve_one. destruct (wants t j k) as [[c s]|] eqn:W; [|reflexivity]. cbv zeta. cbn [tk_buf].
  destruct (again _ later); [reflexivity|]. apply put_length.
  match goal with |- (_ + length (got_final ?a ?b ?c ?d ?e ?g) <= _)%nat => pose proof (got_final_length t a b c d e g) as Gl end.
  cbn [rq_room] in Gl. unfold wants in W. destruct (lenN (tk_buf t k) <=? tk_count t k) eqn:K; [discriminate|]. unfold lenN in *. lia.
Qed.
Lemma one_level j b reqs k k' la la' : level k k' -> level (serve_one j b reqs k la) (serve_one j b reqs k' la').
Proof.
  intros Lv. split; [now rewrite !one_needs; apply Lv|]. split; [rewrite !one_length; apply Lv|].
  unfold lenN. rewrite one_length. destruct (wants t j k) as [[c s]|] eqn:W.
  - pose proof (level_wants _ _ _ _ Lv W) as W'. unfold serve_one. rewrite W, W'. cbn [tk_count].
    destruct Lv as [_ [_ [Co|Co]]]; [left; unfold lenN in Co; lia|right; lia].
  - destruct (wants_none _ _ _ Lv W) as [Fu|W'].
    + left. unfold serve_one. rewrite W. exact Fu.
    + unfold serve_one. rewrite W, W'. apply Lv.
Qed.
Lemma pairs_in j b reqs L p k' : In (p, k') (serve_pairs j b reqs L) -> exists k la, In (p, k) L /\ k' = serve_one j b reqs k la.
Proof.
  induction L as [|[p0 k0] r IH]; [contradiction|]. cbn [serve_pairs]. intros [K|K].
  - injection K as <- <-. exists k0, (reqs_of j r). split; [now left|reflexivity].
  - destruct (IH K) as [k [la [A B]]]. exists k, la. split; [now right|exact B].
Qed.
Lemma pairs_levels j b reqs L : levels L -> levels (serve_pairs j b reqs L).
Proof.
  induction L as [|[p k] r IH]; [auto|]. cbn [serve_pairs levels]. intros [A B]. split; [|now apply IH].
  intros k' Hk'. destruct (pairs_in _ _ _ _ _ _ Hk') as [k0 [la [Hk0 ->]]]. apply one_level. now apply A.
Qed.
Lemma reqs_again j L p c s room : (exists k, In (p, k) L /\ wants t j k = Some (c, s)) -> again (mkReq c room s) (reqs_of j L) = true.
Proof.
  intros [k [Hk W]]. apply again_spec. cbn [rq_chan]. unfold reqs_of. apply in_map_iff.
  exists (mkReq c (N.to_nat (lenN (tk_buf t k) - tk_count t k)) s). split; [reflexivity|]. apply in_concat.
  exists (asks t j k). split; [apply in_map_iff; exists (p, k); auto|]. unfold asks. rewrite W. now left.
Qed.

(** A request that comes again later gets nothing. *)
Fixpoint untouched (L L' : list pair) : Prop :=
  match L, L' with
  | [], [] => True
  | (p, k) :: r, (p', k') :: r' => p' = p /\ (In p (map fst r) -> tk_buf t k' = tk_buf t k) /\ untouched r r'
  | _, _ => False
  end.
Lemma untouched_refl L : untouched L L.
Proof. induction L as [|[p k] r IH]; cbn [untouched]; auto. Qed.
Lemma untouched_fst L : forall L', untouched L L' -> map fst L' = map fst L.
Proof.
  induction L as [|[p k] r IH]; intros [|[p' k'] r'] U; cbn [untouched] in U; try contradiction; [reflexivity|].
  destruct U as [-> [_ U]]. cbn [map fst]. now rewrite (IH _ U).
Qed.
Lemma untouched_trans L : forall L1 L2, untouched L L1 -> untouched L1 L2 -> untouched L L2.
Proof.
  induction L as [|[p k] r IH]; intros [|[p1 k1] r1] [|[p2 k2] r2] A B; cbn [untouched] in *; try contradiction; auto.
  destruct A as [-> [A1 A2]], B as [-> [B1 B2]]. split; [reflexivity|]. split; [|eauto].
  intros Hp. rewrite B1, A1; [reflexivity|exact Hp|]. now rewrite (untouched_fst _ _ A2).
Qed.
Lemma pairs_untouched j b reqs L : levels L -> untouched L (serve_pairs j b reqs L).
Proof.
  induction L as [|[p k] r IH]; [auto|]. cbn [serve_pairs untouched levels]. intros [A B]. split; [reflexivity|]. split; [|now apply IH].
  intros Hp. apply in_map_iff in Hp. destruct Hp as [[p' k'] [K Hk']]. cbn [fst] in K. subst p'. specialize (A k' Hk').
  unfold serve_one. destruct (wants t j k) as [[c s]|] eqn:W; [|reflexivity]. cbv zeta. cbn [tk_buf].
  rewrite (reqs_again j r p c s); [reflexivity|]. exists k'. split; [exact Hk'|]. eapply level_wants; eauto.
Qed.
Lemma block_levels bs j L : levels L -> levels (serve_block bs j L) /\ untouched L (serve_block bs j L).
Proof.
  intros A. unfold serve_block. destruct (nth_error bs j) as [b|]; [|split; [exact A|apply untouched_refl]].
  split; [now apply pairs_levels|now apply pairs_untouched].
Qed.
Lemma blocks_levels bs js : forall L, levels L -> levels (fold_left (fun L j => serve_block bs j L) js L) /\ untouched L (fold_left (fun L j => serve_block bs j L) js L).
Proof.
  induction js as [|j js IH]; intros L A; [split; [exact A|apply untouched_refl]|]. cbn [fold_left].
  destruct (block_levels bs j L A) as [A1 U1]. destruct (IH _ A1) as [A2 U2]. split; [exact A2|eapply untouched_trans; eauto].
Qed.
End Pairs.

(** ** If all requests skip alike, those that come again make no difference *)
Lemma alike_dealt s reqs q : Forall (fun q => rq_skip q = s) reqs -> In q (final_ones reqs) -> skip_dealt reqs q = s.
Proof.
  intros A Hq. unfold skip_dealt.
  assert (L : (rank (final_ones reqs) q < length (map rq_skip reqs))%nat).
  { rewrite map_length. pose proof (final_length reqs). unfold rank.
    assert (K : (length (filter (fun q' => Nat.ltb (rq_chan q') (rq_chan q)) (final_ones reqs)) < length (final_ones reqs))%nat); [|lia].
    clear -Hq. induction (final_ones reqs) as [|x r IH]; [contradiction|]. cbn [filter length].
    assert (Fl : (length (filter (fun q' => Nat.ltb (rq_chan q') (rq_chan q)) r) <= length r)%nat).
    { clear. induction r as [|x r IH]; [apply le_n|]. cbn [filter length]. destruct (Nat.ltb (rq_chan x) (rq_chan q)); cbn [length]; lia. }
    destruct Hq as [->|Hq].
    - rewrite Nat.ltb_irrefl. lia.
    - specialize (IH Hq). destruct (Nat.ltb (rq_chan x) (rq_chan q)); cbn [length]; lia. }
  pose proof (nth_In (map rq_skip reqs) 0 L) as I0. apply in_map_iff in I0. destruct I0 as [x [<- Hx]].
  rewrite Forall_forall in A. now apply A.
Qed.
Lemma alike_furthest s n reqs : Forall (fun q => rq_skip q = s) reqs -> first_chunk n reqs = match reqs with [] => 0 | _ => s / n end.
Proof.
  induction 1 as [|q r Hq A IH]; [reflexivity|]. unfold first_chunk in *. cbn [fold_right]. rewrite IH, Hq. destruct r; [apply N.max_0_r|apply N.max_id].
Qed.
Lemma alike_least s reqs : Forall (fun q => rq_skip q = s) reqs -> least_skip reqs = match reqs with [] => 0 | _ => s end.
Proof.
  intros A. destruct reqs as [|q r]; [reflexivity|]. inversion A as [|? ? Hq Ar]; subst. unfold least_skip. clear A.
  induction Ar as [|x r Hx Ar IH]; [reflexivity|]. cbn [fold_right]. rewrite IH, Hx. lia.
Qed.
Lemma final_nil reqs : final_ones reqs = [] -> reqs = [].
Proof.
  destruct reqs as [|q r]; [reflexivity|]. intros K.
  assert (I0 : In (rq_chan q) (map rq_chan (final_ones (q :: r)))) by (apply final_chans; now left). rewrite K in I0. contradiction.
Qed.
Lemma final_final reqs : final_ones (final_ones reqs) = final_ones reqs.
Proof. apply final_all, final_nodup. Qed.
Lemma Forall_firstn {A} (P : A -> Prop) n l : Forall P l -> Forall P (firstn n l).
Proof. revert l. induction n as [|n IH]; intros l Hl; [constructor|]. destruct Hl; cbn [firstn]; constructor; auto. Qed.
Lemma alike_final s reqs : Forall (fun q => rq_skip q = s) reqs -> Forall (fun q => rq_skip q = s) (final_ones reqs).
Proof. rewrite !Forall_forall. intros A q Hq. apply A. now apply final_in. Qed.
Lemma alike_least_dealt s reqs : Forall (fun q => rq_skip q = s) reqs -> least_dealt (final_ones reqs) = least_dealt reqs.
Proof.
  intros A. unfold least_dealt. rewrite final_final.
  rewrite (alike_least s) by (apply Forall_firstn, alike_final, A).
  rewrite (alike_least s) by (apply Forall_firstn, A). rewrite firstn_all.
  pose proof (final_length reqs) as Fl. pose proof (final_nil reqs) as Fn.
  destruct (final_ones reqs) as [|q r] eqn:K; [reflexivity|]. destruct reqs; [discriminate K|]. reflexivity.
Qed.
Lemma alike_first s n reqs : Forall (fun q => rq_skip q = s) reqs -> first_chunk n (final_ones reqs) = first_chunk n reqs.
Proof.
  intros A. rewrite (alike_furthest s n reqs A), (alike_furthest s n _ (alike_final s reqs A)).
  pose proof (final_nil reqs) as Fn. destruct (final_ones reqs) eqn:K; [now rewrite Fn|]. destruct reqs; [discriminate K|reflexivity].
Qed.
Lemma alike_skip s reqs q : Forall (fun q => rq_skip q = s) reqs -> In q (final_ones reqs) -> skip_dealt (final_ones reqs) q = skip_dealt reqs q.
Proof.
  intros A Hq. rewrite (alike_dealt s reqs q A Hq). apply alike_dealt; [now apply alike_final|]. now rewrite final_final.
Qed.
Lemma alike_contig s n reqs q : Forall (fun q => rq_skip q = s) reqs -> In q (final_ones reqs) -> contig_dealt n (final_ones reqs) q = contig_dealt n reqs q.
Proof. intros A Hq. unfold contig_dealt. cbv zeta. now rewrite (alike_skip s), (alike_first s). Qed.
Lemma alike_wanted s reqs u : Forall (fun q => rq_skip q = s) reqs -> wanted_by_final (final_ones reqs) u = wanted_by_final reqs u.
Proof.
  intros A. unfold wanted_by_final. rewrite final_final.
  assert (K : forall l, (forall q, In q l -> In q (final_ones reqs)) ->
    existsb (fun q => (skip_dealt (final_ones reqs) q <=? u) && (u <? skip_dealt (final_ones reqs) q + N.of_nat (rq_room q))) l
    = existsb (fun q => (skip_dealt reqs q <=? u) && (u <? skip_dealt reqs q + N.of_nat (rq_room q))) l).
  { induction l as [|q l IH]; intros Hl; [reflexivity|]. cbn [existsb]. rewrite IH by (intros; apply Hl; now right).
    rewrite (alike_skip s) by (auto; apply Hl; now left). reflexivity. }
  now apply K.
Qed.
Lemma rows_run_ext w w' : (forall u, w u = w' u) -> forall m u, rows_run w u m = rows_run w' u m.
Proof. intros Hw. induction m as [|m IH]; intros u; [reflexivity|]. cbn [rows_run]. rewrite Hw. destruct (w' u); [now rewrite IH|reflexivity]. Qed.
Lemma alike_rows s reqs total : Forall (fun q => rq_skip q = s) reqs -> rows_passed (final_ones reqs) total = rows_passed reqs total.
Proof.
  intros A. unfold rows_passed. rewrite (alike_least_dealt s) by exact A. f_equal. apply rows_run_ext. intros u. now apply (alike_wanted s).
Qed.
Lemma alike_got {V} s lay n total reqs q (col : list V) : Forall (fun q => rq_skip q = s) reqs -> In q (final_ones reqs) ->
  got_final lay n total (final_ones reqs) q col = got_final lay n total reqs q col.
Proof.
  intros A Hq. unfold got_final. destruct lay.
  - now rewrite (alike_skip s), (alike_least_dealt s), (alike_rows s).
  - now rewrite (alike_contig s).
Qed.
Lemma last_in reqs q : last_request reqs = Some q -> In q reqs.
Proof. intros K. now apply find_some in K. Qed.
Lemma alike_count s lay n total reqs : Forall (fun q => rq_skip q = s) reqs ->
  count_final lay n total (final_ones reqs) = count_final lay n total reqs.
Proof.
  intros A. unfold count_final. destruct lay; [now apply (alike_rows s)|]. rewrite final_final.
  destruct (last_request (final_ones reqs)) as [q|] eqn:K; [|reflexivity]. rewrite (alike_contig s); [reflexivity|exact A|]. now apply last_in.
Qed.

Section Last.
Context (f : list byte) (t : sty).
Local Notation V := (carrier t).
Local Notation pair := (str * taker t)%type.
Implicit Type L : list pair.

(** Different channels are in different places, and enter a block alike. *)
Definition placed L : Prop := forall p k p' k' j c s c' s', In (p, k) L -> In (p', k') L ->
  In (j, c, s) (tk_needs t k) -> In (j, c', s') (tk_needs t k') -> s = s' /\ (p <> p' -> c <> c').
Lemma wants_in j (k : taker t) c s : wants t j k = Some (c, s) -> In (j, c, s) (tk_needs t k).
Proof.
  unfold wants. destruct (lenN (tk_buf t k) <=? tk_count t k); [discriminate|].
  destruct (find _ _) as [[[j' c'] s']|] eqn:K; [|discriminate]. intros W. injection W as <- <-.
  apply find_some in K. destruct K as [K1 K2]. cbn [fst] in K2. apply Nat.eqb_eq in K2. now subst j'.
Qed.
Lemma last_in_l {A} (l : list (str * A)) x : In x (last_only l) -> In x l.
Proof. induction l as [|[p y] r IH]; [auto|]. cbn [last_only]. destruct (existsb _ _); [right; auto|]. intros [K|K]; [now left|right; auto]. Qed.
Lemma existsb_in p (l : list str) : existsb (str_eqb p) l = true <-> In p l.
Proof.
  rewrite existsb_exists. split.
  - intros [x [Hx K]]. apply str_eqb_eq in K. now subst.
  - intros Hp. exists p. split; [exact Hp|]. now apply str_eqb_eq.
Qed.
Lemma existsb_not_in p (l : list str) : existsb (str_eqb p) l = false <-> ~ In p l.
Proof. rewrite <- existsb_in. destruct (existsb (str_eqb p) l); split; congruence. Qed.
Lemma last_fst_in {A} (l : list (str * A)) p : In p (map fst (last_only l)) <-> In p (map fst l).
Proof.
  induction l as [|[p0 y] r IH]; [reflexivity|]. cbn [last_only map fst]. destruct (existsb _ _) eqn:K.
  - rewrite IH. apply existsb_in in K. split; [now right|]. intros [<-|X]; auto.
  - cbn [map fst]. split; (intros [X|X]; [now left|right; now apply IH]).
Qed.
Lemma last_nodup {A} (l : list (str * A)) : NoDup (map fst (last_only l)).
Proof.
  induction l as [|[p0 y] r IH]; [constructor|]. cbn [last_only]. destruct (existsb _ _) eqn:K; [exact IH|]. cbn [map fst]. constructor; [|exact IH].
  rewrite last_fst_in. now apply existsb_not_in.
Qed.
Lemma reqs_in j L q : In q (reqs_of t j L) -> exists p k, In (p, k) L /\ wants t j k = Some (rq_chan q, rq_skip q).
Proof.
  unfold reqs_of. rewrite in_concat. intros [l [Hl Hq]]. apply in_map_iff in Hl. destruct Hl as [[p k] [<- Hk]]. cbn [snd] in Hq.
  exists p, k. split; [exact Hk|]. unfold asks in Hq. destruct (wants t j k) as [[c s]|]; [|contradiction]. destruct Hq as [<-|[]]. reflexivity.
Qed.
Lemma not_again j p k L c s room : placed ((p, k) :: L) -> wants t j k = Some (c, s) -> ~ In p (map fst L) -> again (mkReq c room s) (reqs_of t j L) = false.
Proof.
  intros Pl W Np. destruct (again _ _) eqn:K; [|reflexivity]. exfalso. apply again_spec in K. cbn [rq_chan] in K.
  apply in_map_iff in K. destruct K as [q [Kc Kq]]. destruct (reqs_in _ _ _ Kq) as [p' [k' [Hk' W']]].
  destruct (Pl p k p' k' j c s (rq_chan q) (rq_skip q)) as [_ D]; [now left|now right|now apply wants_in|now apply wants_in|].
  apply D; [|now symmetry]. intros <-. apply Np. apply in_map_iff. exists (p, k'). auto.
Qed.
Lemma placed_tail x L : placed (x :: L) -> placed L.
Proof. intros Pl p k p' k' j c s c' s' A B. apply (Pl p k p' k'); now right. Qed.
Lemma placed_sub L L' : (forall x, In x L' -> In x L) -> placed L -> placed L'.
Proof. intros Su Pl p k p' k' j c s c' s' A B. apply (Pl p k p' k'); auto. Qed.
Lemma final_last j L : levels t L -> placed L -> final_ones (reqs_of t j L) = reqs_of t j (last_only L).
Proof.
  induction L as [|[p k] r IH]; [reflexivity|]. intros [Lv Lr] Pl. specialize (IH Lr (placed_tail _ _ Pl)).
  change (reqs_of t j ((p, k) :: r)) with (asks t j k ++ reqs_of t j r). cbn [last_only].
  destruct (existsb (str_eqb p) (map fst r)) eqn:K.
  - rewrite <- IH. unfold asks. destruct (wants t j k) as [[c s]|] eqn:W; [|reflexivity]. cbn [app final_ones].
    apply existsb_in, in_map_iff in K. destruct K as [[p' k'] [K1 K2]]. cbn [fst] in K1. subst p'.
    rewrite (reqs_again t j r p c s); [reflexivity|]. exists k'. split; [exact K2|]. eapply level_wants; eauto.
  - change (reqs_of t j ((p, k) :: last_only r)) with (asks t j k ++ reqs_of t j (last_only r)). rewrite <- IH.
    unfold asks. destruct (wants t j k) as [[c s]|] eqn:W; [|reflexivity]. cbn [app final_ones].
    rewrite (not_again j p k r c s); [reflexivity|exact Pl|exact W|]. now apply existsb_not_in.
Qed.
Lemma alike_reqs j L : placed L -> exists s, Forall (fun q => rq_skip q = s) (reqs_of t j L).
Proof.
  intros Pl. destruct (reqs_of t j L) as [|q r] eqn:K; [exists 0; constructor|]. exists (rq_skip q). rewrite <- K.
  apply Forall_forall. intros x Hx. assert (Hq : In q (reqs_of t j L)) by (rewrite K; now left).
  destruct (reqs_in _ _ _ Hx) as [p [k [Hk W]]], (reqs_in _ _ _ Hq) as [p' [k' [Hk' W']]].
  apply (Pl p k p' k' j _ _ _ _ Hk Hk' (wants_in _ _ _ _ W) (wants_in _ _ _ _ W')).
Qed.
Lemma serve_last j b reqs reqs' : count_final (b_layout b) (per_chunk b) (per_block b) reqs' = count_final (b_layout b) (per_chunk b) (per_block b) reqs ->
  (forall q (col : list V), In q reqs' -> got_final (b_layout b) (per_chunk b) (per_block b) reqs' q col = got_final (b_layout b) (per_chunk b) (per_block b) reqs q col) ->
  forall L, placed L -> (forall q, In q (reqs_of t j (last_only L)) -> In q reqs') ->
  last_only (serve_pairs f t j b reqs L) = serve_pairs f t j b reqs' (last_only L).
Proof.
  intros Hc Hg. induction L as [|[p k] r IH]; intros Pl Su; [reflexivity|]. cbn [serve_pairs last_only]. rewrite serve_pairs_fst.
  cbn [last_only] in Su. destruct (existsb (str_eqb p) (map fst r)) eqn:K; [apply IH; [now apply placed_tail in Pl|exact Su]|].
  change (reqs_of t j ((p, k) :: last_only r)) with (asks t j k ++ reqs_of t j (last_only r)) in Su.
  cbn [serve_pairs]. rewrite IH; [|now apply placed_tail in Pl|intros q Hq; apply Su, in_or_app; now right].
  f_equal. f_equal. unfold serve_one. destruct (wants t j k) as [[c s]|] eqn:W; [|reflexivity]. cbv zeta. rewrite Hc.
  apply existsb_not_in in K.
  rewrite (not_again j p k r c s) by assumption.
  rewrite (not_again j p k (last_only r) c s); [|apply (placed_sub ((p, k) :: r)); [|exact Pl]|exact W|now rewrite last_fst_in].
  - rewrite Hg; [reflexivity|]. apply Su, in_or_app. left. unfold asks. rewrite W. now left.
  - intros x [<-|Hx]; [now left|right; now apply last_in_l].
Qed.
Lemma serve_block_last bs j L : levels t L -> placed L ->
  last_only (serve_block f t bs j L) = serve_block f t bs j (last_only L).
Proof.
  intros Lv Pl. unfold serve_block. destruct (nth_error bs j) as [b|]; [|reflexivity].
  destruct (alike_reqs j L Pl) as [s As]. pose proof (final_last j L Lv Pl) as Fl. rewrite <- Fl. apply serve_last.
  - now apply (alike_count s).
  - intros q col Hq. now apply (alike_got s).
  - exact Pl.
  - intros q. now rewrite Fl.
Qed.
Lemma block_placed bs j L : placed L -> placed (serve_block f t bs j L).
Proof.
  intros Pl. unfold serve_block. destruct (nth_error bs j) as [b|]; [|exact Pl].
  intros p k p' k' j' c s c' s' Hk Hk' Nk Nk'.
  destruct (pairs_in f t _ _ _ _ _ _ Hk) as [k0 [la [Hk0 ->]]], (pairs_in f t _ _ _ _ _ _ Hk') as [k1 [la' [Hk1 ->]]].
  rewrite one_needs in Nk, Nk'. exact (Pl p k0 p' k1 j' c s c' s' Hk0 Hk1 Nk Nk').
Qed.
Lemma serve_blocks_last bs js : forall L, levels t L -> placed L ->
  last_only (fold_left (fun L j => serve_block f t bs j L) js L) = fold_left (fun L j => serve_block f t bs j L) js (last_only L).
Proof.
  induction js as [|j js IH]; intros L Lv Pl; [reflexivity|]. cbn [fold_left].
  rewrite IH; [now rewrite serve_block_last|apply (block_levels f t bs j L Lv)|now apply block_placed].
Qed.
End Last.
