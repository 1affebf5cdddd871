(** * Blocks of any make-up: requests for a channel that come again later *)
From Verif Require Import Base Lib DataTypes MetaData Maps DataBlock Index RawData ChannelReader
  SpecIndex SpecRead SpecMulti SpecUneven SpecSeen SpecMixed SpecRepeat SpecDealt
  Serve_proofs Repeat_proofs Again_proofs Last_proofs Mixed_proofs Dealt_proofs.

Section Pairs.
Context (f : list byte) (t : sty).
Local Notation V := (carrier t).
Local Notation pair := (str * taker t)%type.
Local Notation level := (level t).
Local Notation levels := (levels t).
Local Notation untouched := (untouched t).
Local Notation reqs_of := (reqs_of t).

Definition deal_one (j : nat) (b : dblock) (reqs : list req) (k : taker t) (later : list req) : taker t :=
  match wants t j k with
  | Some (c, s) =>
    let q := mkReq c (N.to_nat (lenN (tk_buf t k) - tk_count t k)) s in
    mkTaker t (tk_needs t k)
      (tk_count t k + dealt_count t b reqs)
      (if again q later then tk_buf t k
       else put t (tk_buf t k) (tk_count t k)
              (dealt_got f t b reqs q))
  | None => k
  end.
Fixpoint deal_pairs (j : nat) (b : dblock) (reqs : list req) (L : list pair) : list pair :=
  match L with
  | [] => []
  | (p, k) :: r => (p, deal_one j b reqs k (reqs_of j r)) :: deal_pairs j b reqs r
  end.
Lemma deal_pairs_fst j b reqs L : map fst (deal_pairs j b reqs L) = map fst L.
Proof. induction L as [|[p k] r IH]; [reflexivity|]. cbn [deal_pairs map fst]. now rewrite IH. Qed.
Lemma deal_pairs_snd j b reqs L : map snd (deal_pairs j b reqs L) = dealt_to f t j b reqs (map snd L).
Proof.
  induction L as [|[p k] r IH]; [reflexivity|]. cbn [deal_pairs map snd dealt_to]. rewrite IH. f_equal.
  unfold deal_one, Last_proofs.reqs_of. now rewrite map_map.
Qed.
Definition deal_block (bs : list dblock) (j : nat) (L : list pair) : list pair :=
  match nth_error bs j with None => L | Some b => deal_pairs j b (reqs_of j L) L end.
Lemma deal_block_fst bs j L : map fst (deal_block bs j L) = map fst L.
Proof. unfold deal_block. destruct (nth_error bs j); [apply deal_pairs_fst|reflexivity]. Qed.
Lemma deal_block_snd bs j L : map snd (deal_block bs j L) = dealt_serve f t bs j (map snd L).
Proof.
  unfold deal_block, dealt_serve. destruct (nth_error bs j) as [b|]; [|reflexivity]. rewrite deal_pairs_snd. unfold Last_proofs.reqs_of. now rewrite map_map.
Qed.
Lemma deal_blocks_snd bs js : forall L, map snd (fold_left (fun L j => deal_block bs j L) js L)
  = fold_left (fun ks j => dealt_serve f t bs j ks) js (map snd L).
Proof. induction js as [|j js IH]; intros L; [reflexivity|]. cbn [fold_left]. now rewrite IH, deal_block_snd. Qed.
Lemma deal_blocks_fst bs js : forall L, map fst (fold_left (fun L j => deal_block bs j L) js L) = map fst L.
Proof. induction js as [|j js IH]; intros L; [reflexivity|]. cbn [fold_left]. now rewrite IH, deal_block_fst. Qed.

Lemma deal_needs j b reqs k later : tk_needs t (deal_one j b reqs k later) = tk_needs t k.
Proof. unfold deal_one. destruct (wants t j k) as [[c s]|]; reflexivity. Qed.
Lemma deal_length j b reqs k later : length (tk_buf t (deal_one j b reqs k later)) = length (tk_buf t k).
Proof.
  unfold deal_one. destruct (wants t j k) as [[c s]|] eqn:W; [|reflexivity]. cbv zeta. cbn [tk_buf].
  destruct (again _ later); [reflexivity|]. apply put_length.
  match goal with |- (_ + length (dealt_got ?a ?b ?c ?d ?e) <= _)%nat => pose proof (dealt_length a b c d e) as Gl end.
  cbn [rq_room] in Gl. unfold wants in W. destruct (lenN (tk_buf t k) <=? tk_count t k) eqn:K; [discriminate|]. unfold lenN in *. lia.
Qed.
Lemma deal_level j b reqs k k' la la' : level k k' -> level (deal_one j b reqs k la) (deal_one j b reqs k' la').
Proof.
  intros Lv. split; [now rewrite !deal_needs; apply Lv|]. split; [rewrite !deal_length; apply Lv|].
  unfold lenN. rewrite deal_length. destruct (wants t j k) as [[c s]|] eqn:W.
  - pose proof (level_wants t _ _ _ _ Lv W) as W'. unfold deal_one. rewrite W, W'. cbn [tk_count].
    destruct Lv as [_ [_ [Co|Co]]]; [left; unfold lenN in Co; lia|right; lia].
  - destruct (wants_none t _ _ _ Lv W) as [Fu|W'].
    + left. unfold deal_one. rewrite W. exact Fu.
    + unfold deal_one. rewrite W, W'. apply Lv.
Qed.
Lemma deal_in j b reqs L p k' : In (p, k') (deal_pairs j b reqs L) -> exists k la, In (p, k) L /\ k' = deal_one j b reqs k la.
Proof.
  induction L as [|[p0 k0] r IH]; [contradiction|]. cbn [deal_pairs]. intros [K|K].
  - injection K as <- <-. exists k0, (reqs_of j r). split; [now left|reflexivity].
  - destruct (IH K) as [k [la [A B]]]. exists k, la. split; [now right|exact B].
Qed.
Lemma deal_levels j b reqs L : levels L -> levels (deal_pairs j b reqs L).
Proof.
  induction L as [|[p k] r IH]; [auto|]. cbn [deal_pairs Last_proofs.levels]. intros [A B]. split; [|now apply IH].
  intros k' Hk'. destruct (deal_in _ _ _ _ _ _ Hk') as [k0 [la [Hk0 ->]]]. apply deal_level. now apply A.
Qed.
Lemma deal_untouched j b reqs L : levels L -> untouched L (deal_pairs j b reqs L).
Proof.
  induction L as [|[p k] r IH]; [auto|]. cbn [deal_pairs Last_proofs.untouched Last_proofs.levels]. intros [A B]. split; [reflexivity|]. split; [|now apply IH].
  intros Hp. apply in_map_iff in Hp. destruct Hp as [[p' k'] [K Hk']]. cbn [fst] in K. subst p'. specialize (A k' Hk').
  unfold deal_one. destruct (wants t j k) as [[c s]|] eqn:W; [|reflexivity]. cbv zeta. cbn [tk_buf].
  rewrite (reqs_again t j r p c s); [reflexivity|]. exists k'. split; [exact Hk'|]. eapply level_wants; eauto.
Qed.
Lemma dealt_levels bs j L : levels L -> levels (deal_block bs j L) /\ untouched L (deal_block bs j L).
Proof.
  intros A. unfold deal_block. destruct (nth_error bs j) as [b|]; [|split; [exact A|apply untouched_refl]].
  split; [now apply deal_levels|now apply deal_untouched].
Qed.
Lemma deals_levels bs js : forall L, levels L -> levels (fold_left (fun L j => deal_block bs j L) js L) /\ untouched L (fold_left (fun L j => deal_block bs j L) js L).
Proof.
  induction js as [|j js IH]; intros L A; [split; [exact A|apply untouched_refl]|]. cbn [fold_left].
  destruct (dealt_levels bs j L A) as [A1 U1]. destruct (IH _ A1) as [A2 U2]. split; [exact A2|eapply untouched_trans; eauto].
Qed.
End Pairs.

Lemma widths_alike t cs cs' ms : (forall i, In i cs <-> In i cs') -> widths_for t cs ms = widths_for t cs' ms.
Proof.
  intros Q. unfold widths_for. apply map_ext. intros [i m]. cbn [fst snd].
  assert (K : existsb (Nat.eqb i) cs = existsb (Nat.eqb i) cs').
  { apply eq_true_iff_eq. rewrite !Mixed_proofs.existsb_in. apply Q. }
  now rewrite K.
Qed.
Lemma widths_final t reqs ms : widths_for t (map rq_chan (final_ones reqs)) ms = widths_for t (map rq_chan reqs) ms.
Proof. apply widths_alike. intros i. apply final_chans. Qed.
Lemma alike_dealt_first s b reqs q : Forall (fun q => rq_skip q = s) reqs -> In q (final_ones reqs) ->
  dealt_first b (final_ones reqs) q = dealt_first b reqs q.
Proof. intros A Hq. unfold dealt_first. cbv zeta. now rewrite (alike_skip s), (alike_first s). Qed.
Lemma alike_dealt_got f t s b reqs q : Forall (fun q => rq_skip q = s) reqs -> In q (final_ones reqs) ->
  dealt_got f t b (final_ones reqs) q = dealt_got f t b reqs q.
Proof.
  intros A Hq. unfold dealt_got. cbv zeta. rewrite widths_final. destruct (b_layout b).
  - now rewrite (alike_skip s), (alike_least_dealt s), (alike_rows s).
  - now rewrite (alike_dealt_first s).
Qed.
Lemma alike_dealt_count t s b reqs : Forall (fun q => rq_skip q = s) reqs -> dealt_count t b (final_ones reqs) = dealt_count t b reqs.
Proof.
  intros A. unfold dealt_count. cbv zeta. rewrite widths_final. destruct (b_layout b); [now apply (alike_rows s)|]. rewrite final_final.
  destruct (last_request (final_ones reqs)) as [q|] eqn:K; [|reflexivity]. rewrite (alike_dealt_first s); [reflexivity|exact A|]. now apply last_in.
Qed.

Section Last.
Context (f : list byte) (t : sty).
Local Notation pair := (str * taker t)%type.
Implicit Type L : list pair.
Local Notation placed := (placed t).

Lemma deal_last j b reqs reqs' : dealt_count t b reqs' = dealt_count t b reqs ->
  (forall q, In q reqs' -> dealt_got f t b reqs' q = dealt_got f t b reqs q) ->
  forall L, placed L -> (forall q, In q (reqs_of t j (last_only L)) -> In q reqs') ->
  last_only (deal_pairs f t j b reqs L) = deal_pairs f t j b reqs' (last_only L).
Proof.
  intros Hc Hg. induction L as [|[p k] r IH]; intros Pl Su; [reflexivity|]. cbn [deal_pairs last_only]. rewrite deal_pairs_fst.
  cbn [last_only] in Su. destruct (existsb (str_eqb p) (map fst r)) eqn:K; [apply IH; [now apply (placed_tail t) in Pl|exact Su]|].
  change (reqs_of t j ((p, k) :: last_only r)) with (asks t j k ++ reqs_of t j (last_only r)) in Su.
  cbn [deal_pairs]. rewrite IH; [|now apply (placed_tail t) in Pl|intros q Hq; apply Su, in_or_app; now right].
  f_equal. f_equal. unfold deal_one. destruct (wants t j k) as [[c s]|] eqn:W; [|reflexivity]. cbv zeta. rewrite Hc.
  apply existsb_not_in in K.
  rewrite (not_again t j p k r c s) by assumption.
  rewrite (not_again t j p k (last_only r) c s); [|apply (placed_sub t ((p, k) :: r)); [|exact Pl]|exact W|now rewrite last_fst_in].
  - rewrite Hg; [reflexivity|]. apply Su, in_or_app. left. unfold asks. rewrite W. now left.
  - intros x [<-|Hx]; [now left|right; now apply last_in_l].
Qed.
Lemma deal_block_last bs j L : levels t L -> placed L ->
  last_only (deal_block f t bs j L) = deal_block f t bs j (last_only L).
Proof.
  intros Lv Pl. unfold deal_block. destruct (nth_error bs j) as [b|]; [|reflexivity].
  destruct (alike_reqs t j L Pl) as [s As]. pose proof (final_last t j L Lv Pl) as Fl. rewrite <- Fl. apply deal_last.
  - now apply (alike_dealt_count t s).
  - intros q Hq. now apply (alike_dealt_got f t s).
  - exact Pl.
  - intros q. now rewrite Fl.
Qed.
Lemma deal_placed bs j L : placed L -> placed (deal_block f t bs j L).
Proof.
  intros Pl. unfold deal_block. destruct (nth_error bs j) as [b|]; [|exact Pl].
  intros p k p' k' j' c s c' s' Hk Hk' Nk Nk'.
  destruct (deal_in f t _ _ _ _ _ _ Hk) as [k0 [la [Hk0 ->]]], (deal_in f t _ _ _ _ _ _ Hk') as [k1 [la' [Hk1 ->]]].
  rewrite deal_needs in Nk, Nk'. exact (Pl p k0 p' k1 j' c s c' s' Hk0 Hk1 Nk Nk').
Qed.
Lemma deal_blocks_last bs js : forall L, levels t L -> placed L ->
  last_only (fold_left (fun L j => deal_block f t bs j L) js L) = fold_left (fun L j => deal_block f t bs j L) js (last_only L).
Proof.
  induction js as [|j js IH]; intros L Lv Pl; [reflexivity|]. cbn [fold_left].
  rewrite IH; [now rewrite deal_block_last|apply (dealt_levels f t bs j L Lv)|now apply deal_placed].
Qed.
End Last.
