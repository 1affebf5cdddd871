(** * The buffered reader refines reading from a list of bytes *)
From Verif Require Import Base Utf8 DataTypes MetaData DataBlock Index RawData ChannelReader TdmsFile ReaderIO Lib SpecIndex
  Index_proofs History_proofs Open_proofs Safe_proofs SpecReadIO.

(** ** Positions in a list of bytes *)

(** Where the stream is: the file at a position without a buffer, a [BufReader]
    at a logical position, or nobody knows (after a failure, or when a
    [BufReader] was dropped). *)
Inductive place := AtRaw (p : N) | AtBuf (p : N) | Lost.

(** What an operation should do; [None] if it reads from an unknown place. *)
Definition pure_op (E : env) (f : list byte) (o : rop) (w : place) : option (res (list byte) * place) :=
  match o, w with
  | RawSeek p, _ => Some (if p <=? seek_max E then (Ok [], AtRaw p) else (Err (EIo InvalidSeek), Lost))
  | RawRead n, AtRaw p =>
    Some (match read_exact n (dropN p f) with Ok (b, _) => (Ok b, AtRaw (p + n)) | q => (recast q, Lost) end)
  | NewBuf, AtRaw p => Some (Ok [], AtBuf p)
  | NewBuf, _ => Some (Ok [], Lost)
  | BufSeek p, AtRaw _ => None
  | BufSeek p, _ => Some (if p <=? seek_max E then (Ok [], AtBuf p) else (Err (EIo InvalidSeek), Lost))
  | BufRel d, AtBuf p =>
    Some (match seek_rel E p d with Ok q => (Ok [], AtBuf q) | q => (recast q, Lost) end)
  | BufRead n, AtBuf p =>
    Some (match read_exact n (dropN p f) with Ok (b, _) => (Ok b, AtBuf (p + n)) | q => (recast q, Lost) end)
  | _, _ => None
  end.

Fixpoint run_pure {A} (E : env) (f : list byte) (p : prog A) (w : place) : option (A * place) :=
  match p with
  | Ret a => Some (a, w)
  | Do o k =>
    match pure_op E f o w with
    | Some (x, w') => run_pure E f (k x) w'
    | None => None
    end
  end.

Lemma run_pure_bind A B E f (p : prog A) (q : A -> prog B) : forall w,
  run_pure E f (pbind p q) w = match run_pure E f p w with Some (a, w') => run_pure E f (q a) w' | None => None end.
Proof.
  induction p as [a|o k IH]; intros w; cbn [pbind run_pure]; [reflexivity|].
  destruct (pure_op E f o w) as [[x w']|]; [apply IH|reflexivity].
Qed.

(** ** One operation *)
Section Device.
Context (E : env) (D : rdevice) (cap : N) (f : list byte) (Fits : lenN f <= seek_max E).

Definition fails : Prop := ~ reliable_reader D.

(** The buffer holds the bytes before the position of the file. *)
Definition holds (s : rstate) (p : N) : Prop :=
  exists st, dropN st f = rs_buf s ++ dropN (rs_pos s) f /\ rs_pos s = st + lenN (rs_buf s)
    /\ rs_at s <= lenN (rs_buf s) /\ p = st + rs_at s /\ rs_pos s <= seek_max E.
Definition is_at (s : rstate) (w : place) : Prop :=
  match w with
  | AtRaw p => rs_pos s = p /\ p <= seek_max E
  | AtBuf p => holds s p
  | Lost => True
  end.

Lemma holds_unread s p : holds s p -> dropN p f = unread s ++ dropN (rs_pos s) f
  /\ p + lenN (unread s) = rs_pos s /\ rs_pos s <= seek_max E.
Proof.
  intros [st [D1 [P [A [-> M]]]]]. unfold unread. split; [|split; [|exact M]].
  - rewrite <- dropN_dropN, D1, dropN_skipn, skipn_app.
    replace (N.to_nat (rs_at s) - length (rs_buf s))%nat with 0%nat by (unfold lenN in A; lia). reflexivity.
  - rewrite lenN_skipn. lia.
Qed.
Lemma holds_fresh s p : rs_pos s = p -> p <= seek_max E -> holds (discard s) p.
Proof. intros <- M. exists (rs_pos s). cbn [discard rs_buf rs_pos rs_at]. rewrite lenN_nil. repeat split; try lia; exact M. Qed.

Lemma cut_ahead p l rest m : dropN p f = l ++ rest ->
  dropN p f = firstn m l ++ dropN (p + lenN (firstn m l)) f.
Proof.
  intros H. rewrite <- dropN_dropN, H, dropN_skipn, lenN_length, firstn_length, skipn_app.
  rewrite <- (firstn_skipn m l) at 1. rewrite <- app_assoc. f_equal.
  destruct (Nat.le_gt_cases m (length l)).
  - rewrite Nat.min_l by lia. replace (m - length l)%nat with 0%nat by lia. reflexivity.
  - rewrite Nat.min_r, !skipn_all2, Nat.sub_diag by lia. reflexivity.
Qed.

(** A [read] that delivers a part of what lies ahead. *)
Definition delivers (at_ : rstate -> N -> Prop) (read : N -> rstate -> rstate * res (list byte)) : Prop :=
  forall n s p s' x, 0 < n -> at_ s p -> read n s = (s', x) ->
    match x with
    | Ok bs => dropN p f = bs ++ dropN (p + lenN bs) f /\ lenN bs <= n /\ at_ s' (p + lenN bs)
               /\ (bs = [] -> dropN p f = [])
    | Err y => y = EIo DeviceError /\ fails
    | _ => False
    end.

Lemma exact_spec at_ read : delivers at_ read ->
  forall fuel n acc s p s' x, at_ s p -> (length (dropN p f) < fuel)%nat ->
    exact_loop read fuel n acc s = (s', x) ->
    match x with
    | Ok b => n <= lenN (dropN p f) /\ b = acc ++ firstn (N.to_nat n) (dropN p f) /\ at_ s' (p + n)
    | Err y => (y = EIo UnexpectedEof /\ lenN (dropN p f) < n) \/ (y = EIo DeviceError /\ fails)
    | _ => False
    end.
Proof.
  intros Dl. induction fuel as [|fuel IH]; intros n acc s p s' x A Fu X; [lia|]. cbn [exact_loop] in X.
  destruct (n =? 0) eqn:Z.
  { injection X as <- <-. replace n with 0 by lia. rewrite N.add_0_r. cbn [N.to_nat firstn]. rewrite app_nil_r.
    split; [lia|]. split; [reflexivity|exact A]. }
  destruct (read n s) as [s1 y] eqn:R. assert (Hn : 0 < n) by lia.
  pose proof (Dl n s p s1 y Hn A R) as Q. destruct y as [bs|y|y|]; try contradiction.
  - destruct Q as [D1 [L [A1 Z1]]]. destruct bs as [|b0 bs].
    + injection X as <- <-. left. split; [reflexivity|]. rewrite (Z1 eq_refl), lenN_nil. exact Hn.
    + set (c := b0 :: bs) in *. assert (Lc : 0 < lenN c) by (unfold c; rewrite lenN_cons; lia).
      pose proof (lenN_dropN p f) as L1. pose proof (lenN_dropN (p + lenN c) f) as L2.
      assert (L3 : lenN (dropN p f) = lenN c + lenN (dropN (p + lenN c) f)) by (rewrite D1 at 1; apply lenN_app).
      assert (Fu' : (length (dropN (p + lenN c) f) < fuel)%nat) by (pose proof (lenN_length (dropN p f)); pose proof (lenN_length (dropN (p + lenN c) f)); lia).
      pose proof (IH _ _ _ _ _ _ A1 Fu' X) as G. destruct x as [b|y|y|]; try contradiction.
      * destruct G as [G1 [G2 G3]]. split; [lia|]. split.
        -- rewrite G2, <- app_assoc. f_equal. rewrite D1 at 1. rewrite firstn_app.
           rewrite (firstn_all2 c) by (unfold lenN in L; lia). f_equal. f_equal. unfold lenN. lia.
        -- replace (p + n) with (p + lenN c + (n - lenN c)) by lia. exact G3.
      * destruct G as [[G1 G2]|G]; [left; split; [exact G1|lia]|right; exact G].
  - injection X as <- <-. right. exact Q.
Qed.

Lemma dev_read_spec n s s' x : 0 < n -> dev_read D f n s = (s', x) ->
  match x with
  | Ok bs => dropN (rs_pos s) f = bs ++ dropN (rs_pos s + lenN bs) f /\ lenN bs <= n
             /\ rs_pos s' = rs_pos s + lenN bs /\ rs_buf s' = rs_buf s /\ rs_at s' = rs_at s
             /\ (bs = [] -> dropN (rs_pos s) f = []) /\ lenN bs <= lenN f - rs_pos s
  | Err y => y = EIo DeviceError /\ fails
  | _ => False
  end.
Proof.
  intros Hn. unfold dev_read. destruct (rd_gives D (rs_calls s) n) as [j|] eqn:G; intros X; injection X as <- <-.
  - set (m := N.min n (N.max 1 j)). cbn [rs_pos rs_buf rs_at].
    assert (Lb : lenN (firstn (N.to_nat m) (dropN (rs_pos s) f)) = N.min m (lenN f - rs_pos s))
      by (rewrite lenN_firstn, lenN_dropN; lia).
    split; [|split; [rewrite Lb; unfold m; lia|split; [reflexivity|split; [reflexivity|split; [reflexivity|split]]]]].
    + apply (cut_ahead _ _ []). symmetry. apply app_nil_r.
    + intros Z. apply (f_equal lenN) in Z. rewrite Lb, lenN_nil in Z. apply lenN_0. rewrite lenN_dropN. unfold m in Z. lia.
    + rewrite Lb. lia.
  - split; [reflexivity|]. intros [R _]. exact (R _ _ G).
Qed.
Lemma raw_delivers : delivers (fun s p => rs_pos s = p /\ p <= seek_max E) (dev_read D f).
Proof.
  intros n s p s' x Hn [<- M] R. pose proof (dev_read_spec n s s' x Hn R) as Q. destruct x; try contradiction; [|exact Q].
  destruct Q as [Q1 [Q2 [Q3 [_ [_ [Q4 Q5]]]]]]. repeat split; try assumption. lia.
Qed.
Lemma buf_delivers : delivers holds (buf_read D cap f).
Proof.
  intros n s p s' x Hn H R. destruct (holds_unread s p H) as [U1 [U2 M]]. unfold buf_read in R.
  destruct ((lenN (unread s) =? 0) && (cap <=? n)) eqn:Dir.
  - apply andb_prop in Dir as [D0 _]. assert (U0 : unread s = []) by (apply lenN_0; lia).
    rewrite U0, lenN_nil in *. rewrite app_nil_l in U1. pose proof (dev_read_spec n (discard s) s' x Hn R) as Q.
    destruct x; try contradiction; [|exact Q]. cbn [discard rs_pos rs_buf rs_at] in Q.
    destruct Q as [Q1 [Q2 [Q3 [Q4 [Q5 [Q6 Q7]]]]]]. assert (p = rs_pos s) as -> by lia.
    repeat split; try assumption. exists (rs_pos s'). rewrite Q4, Q5, lenN_nil. repeat split; lia.
  - unfold fill_buf in R. destruct (unread s) as [|u0 us] eqn:Us.
    + rewrite app_nil_l in U1. rewrite lenN_nil in *. assert (p = rs_pos s) as -> by lia.
      destruct (dev_read D f cap (discard s)) as [s1 y] eqn:Rd.
      assert (Hc : 0 < cap) by lia.
      pose proof (dev_read_spec cap (discard s) s1 y Hc Rd) as Q. destruct y as [bs|y|y|]; try contradiction.
      * cbn [discard rs_pos rs_buf rs_at] in Q. destruct Q as [Q1 [Q2 [Q3 [Q4 [Q5 [Q6 Q7]]]]]].
        injection R as <- <-. unfold unread. cbn [rs_buf rs_at]. change (skipn (N.to_nat 0) bs) with bs.
        assert (Lb : lenN (firstn (N.to_nat n) bs) = N.min n (lenN bs)) by (rewrite lenN_firstn; lia).
        split; [exact (cut_ahead _ _ _ _ Q1)|]. split; [rewrite Lb; lia|]. split.
        -- exists (rs_pos s). unfold consume. cbn [rs_buf rs_pos rs_at]. rewrite Lb. split; [rewrite Q3; exact Q1|].
           split; [exact Q3|]. repeat split; lia.
        -- intros Z. apply Q6. apply (f_equal lenN) in Z. rewrite Lb, lenN_nil in Z. apply lenN_0. lia.
      * injection R as <- <-. exact Q.
    + injection R as <- <-. rewrite Us. set (us' := u0 :: us) in *.
      assert (Lb : lenN (firstn (N.to_nat n) us') = N.min n (lenN us')) by (rewrite lenN_firstn; lia).
      destruct H as [st [D1 [P [A [-> M']]]]].
      split; [|split; [rewrite Lb; lia|split]].
      * exact (cut_ahead _ _ _ _ U1).
      * exists st. unfold consume. cbn [rs_buf rs_pos rs_at]. rewrite Lb. repeat split; try assumption; lia.
      * intros Z. apply (f_equal lenN) in Z. rewrite Lb, lenN_nil in Z. unfold us' in Z. rewrite lenN_cons in Z. lia.
Qed.

Lemma dev_seek_spec z s s' x : dev_seek E D z s = (s', x) ->
  rs_buf s' = rs_buf s /\ rs_at s' = rs_at s /\
  match x with
  | Ok b => b = [] /\ (0 <= z)%Z /\ rs_pos s' = Z.to_N z /\ rs_pos s' <= seek_max E
  | Err y => (y = EIo InvalidSeek /\ rs_pos s' = rs_pos s /\ (z < 0 \/ Z.of_N (seek_max E) < z)%Z)
             \/ (y = EIo DeviceError /\ fails)
  | _ => False
  end.
Proof.
  unfold dev_seek. destruct (rd_seeks D (rs_calls s)) eqn:Sk.
  - destruct ((0 <=? z) && (z <=? Z.of_N (seek_max E)))%Z eqn:B; intros X; injection X as <- <-; cbn [rs_buf rs_at rs_pos];
      (split; [reflexivity|split; [reflexivity|]]).
    + repeat split; lia.
    + left. split; [reflexivity|]. split; [reflexivity|]. lia.
  - intros X; injection X as <- <-. split; [reflexivity|]. split; [reflexivity|]. right. split; [reflexivity|].
    intros [_ R]. rewrite R in Sk. discriminate.
Qed.

(** Every operation does what it should, or the device failed. *)
Lemma op_refines o s w x w' s' y :
  is_at s w -> pure_op E f o w = Some (x, w') -> dev_op E D cap f o s = (s', y) ->
  (y = x /\ is_at s' w') \/ (y = Err (EIo DeviceError) /\ fails).
Proof.
  intros A P O. assert (Fu : forall p, (length (dropN p f) < S (length f))%nat).
  { intros p. pose proof (lenN_dropN p f). unfold lenN in H. lia. }
  destruct o as [p|n| |p|d|n]; cbn [dev_op] in O.
  - (* RawSeek *) cbn [pure_op] in P. destruct (dev_seek_spec _ _ _ _ O) as [_ [_ Q]].
    destruct (p <=? seek_max E) eqn:B; apply (f_equal (fun r => match r with Some y => y | None => (x, w') end)) in P;
      cbv beta iota in P; injection P as <- <-; destruct y as [b|y|y|]; try contradiction.
    + left. destruct Q as [-> [_ [Q1 Q2]]]. split; [reflexivity|]. cbn [is_at]. lia.
    + destruct Q as [[-> [_ Q]]|[-> Q]]; [lia|right; split; [reflexivity|exact Q]].
    + destruct Q as [_ [_ [Q1 Q2]]]. lia.
    + destruct Q as [[-> Q]|[-> Q]]; [left; split; [reflexivity|exact Logic.I]|right; split; [reflexivity|exact Q]].
  - (* RawRead *) destruct w as [p|p|]; try discriminate. cbn [pure_op] in P.
    pose proof (exact_spec _ _ raw_delivers _ n [] s p s' y A (Fu p) O) as Q. unfold read_exact in P.
    destruct (n <=? lenN (dropN p f)) eqn:B; injection P as <- <-; destruct y as [b|y|y|]; try contradiction.
    + left. destruct Q as [_ [-> Q]]. split; [reflexivity|exact Q].
    + destruct Q as [[-> Q]|[-> Q]]; [lia|right; split; [reflexivity|exact Q]].
    + lia.
    + destruct Q as [[-> Q]|[-> Q]]; [left; split; [reflexivity|exact Logic.I]|right; split; [reflexivity|exact Q]].
  - (* NewBuf *) injection O as <- <-. left.
    destruct w as [p|p|]; cbn [pure_op] in P; injection P as <- <-; (split; [reflexivity|]); try exact Logic.I.
    destruct A as [A1 A2]. exact (holds_fresh s p A1 A2).
  - (* BufSeek *) destruct (dev_seek E D (Z.of_N p) s) as [s1 z] eqn:Sk.
    destruct (dev_seek_spec _ _ _ _ Sk) as [_ [_ Q]].
    assert (P' : (if p <=? seek_max E then (Ok [], AtBuf p) else (Err (EIo InvalidSeek), Lost)) = (x, w'))
      by (destruct w; cbn [pure_op] in P; [discriminate|injection P as P; exact P..]).
    destruct (p <=? seek_max E) eqn:B; injection P' as <- <-; destruct z as [b|z|z|]; try contradiction; injection O as <- <-.
    + left. destruct Q as [-> [_ [Q1 Q2]]]. split; [reflexivity|]. apply holds_fresh; lia.
    + destruct Q as [[-> [_ Q]]|[-> Q]]; [lia|right; split; [reflexivity|exact Q]].
    + destruct Q as [_ [_ [Q1 Q2]]]. lia.
    + destruct Q as [[-> Q]|[-> Q]]; [left; split; [reflexivity|exact Logic.I]|right; split; [reflexivity|exact Q]].
  - (* BufRel *) destruct w as [p|p|]; try discriminate. cbn [pure_op] in P.
    destruct (holds_unread s p A) as [U1 [U2 M]]. destruct A as [st [D1 [Ps [At [Ep _]]]]].
    assert (Bf : lenN (rs_buf s) = 0 \/ rs_pos s <= lenN f).
    { pose proof (lenN_dropN st f) as L. rewrite D1, lenN_app, lenN_dropN in L. lia. }
    unfold buf_rel in O. destruct ((0 <=? Z.of_N (rs_at s) + d) && (Z.of_N (rs_at s) + d <=? Z.of_N (lenN (rs_buf s))))%Z eqn:In_.
    + injection O as <- <-. left.
      assert (Sr : seek_rel E p d = Ok (st + Z.to_N (Z.of_N (rs_at s) + d))).
      { unfold seek_rel. replace (Z.of_N p + d <? 0)%Z with false by lia.
        replace (Z.to_N (Z.of_N p + d) <=? seek_max E) with true by lia. f_equal. lia. }
      rewrite Sr in P. injection P as <- <-. split; [reflexivity|]. exists st. cbn [rs_buf rs_pos rs_at].
      repeat split; try assumption; lia.
    + assert (Sr : seek_rel E p d = if ((0 <=? Z.of_N p + d) && (Z.of_N p + d <=? Z.of_N (seek_max E)))%Z
                                    then Ok (Z.to_N (Z.of_N p + d)) else Err (EIo InvalidSeek)).
      { unfold seek_rel. destruct (Z.of_N p + d <? 0)%Z eqn:Z1.
        - replace (0 <=? Z.of_N p + d)%Z with false by lia. reflexivity.
        - replace (0 <=? Z.of_N p + d)%Z with true by lia. cbn [andb].
          destruct (Z.to_N (Z.of_N p + d) <=? seek_max E) eqn:Z2.
          + replace (Z.of_N p + d <=? Z.of_N (seek_max E))%Z with true by lia. reflexivity.
          + replace (Z.of_N p + d <=? Z.of_N (seek_max E))%Z with false by lia. reflexivity. }
      rewrite Sr in P. clear Sr. unfold buf_seek_current in O. cbv zeta in O.
      destruct (- 2 ^ 63 <=? d - Z.of_N (lenN (unread s)))%Z.
      * destruct (dev_seek E D _ s) as [s1 z] eqn:Sk. destruct (dev_seek_spec _ _ _ _ Sk) as [_ [_ Q]].
        destruct ((0 <=? Z.of_N p + d) && (Z.of_N p + d <=? Z.of_N (seek_max E)))%Z eqn:Rng; injection P as <- <-;
          destruct z as [b|z|z|]; try contradiction; injection O as <- <-.
        -- left. destruct Q as [-> [_ [Q1 Q2]]]. split; [reflexivity|]. apply holds_fresh; lia.
        -- destruct Q as [[-> [_ Q]]|[-> Q]]; [lia|right; split; [reflexivity|exact Q]].
        -- destruct Q as [_ [Q0 [Q1 Q2]]]. lia.
        -- destruct Q as [[-> Q]|[-> Q]]; [left; split; [reflexivity|exact Logic.I]|right; split; [reflexivity|exact Q]].
      * destruct (dev_seek E D _ s) as [s1 z] eqn:Sk. destruct (dev_seek_spec _ _ _ _ Sk) as [_ [_ Q]].
        destruct z as [b|z|z|]; try contradiction.
        -- destruct Q as [-> [Q0 [Q1 Q2]]]. destruct (dev_seek_spec _ _ _ _ O) as [B1 [B2 R]].
           cbn [discard rs_pos rs_buf rs_at] in B1, B2, R.
           destruct ((0 <=? Z.of_N p + d) && (Z.of_N p + d <=? Z.of_N (seek_max E)))%Z eqn:Rng; injection P as <- <-;
             destruct y as [b|y|y|]; try contradiction.
           ++ left. destruct R as [-> [R0 [R1 R2]]]. split; [reflexivity|].
              exists (rs_pos s'). rewrite B1, B2, lenN_nil. repeat split; lia.
           ++ destruct R as [[-> [_ R]]|[-> R]]; [lia|right; split; [reflexivity|exact R]].
           ++ destruct R as [_ [R0 [R1 R2]]]. lia.
           ++ destruct R as [[-> R]|[-> R]]; [left; split; [reflexivity|exact Logic.I]|right; split; [reflexivity|exact R]].
        -- injection O as <- <-. destruct Q as [[-> [_ Q]]|[-> Q]]; [lia|right; split; [reflexivity|exact Q]].
  - (* BufRead *) destruct w as [p|p|]; try discriminate. cbn [pure_op] in P.
    destruct (holds_unread s p A) as [U1 [U2 M]]. unfold buf_exact in O.
    destruct (n <=? lenN (unread s)) eqn:En.
    + injection O as <- <-. left. unfold read_exact in P.
      assert (L : lenN (dropN p f) = lenN (unread s) + lenN (dropN (rs_pos s) f)) by (rewrite U1 at 1; apply lenN_app).
      replace (n <=? lenN (dropN p f)) with true in P by lia. injection P as <- <-. split.
      * f_equal. rewrite U1, firstn_app. replace (N.to_nat n - length (unread s))%nat with 0%nat by (unfold lenN in En; lia).
        cbn [firstn]. symmetry. apply app_nil_r.
      * destruct A as [st [D1 [Ps [At [Ep _]]]]]. exists st. unfold consume. cbn [rs_buf rs_pos rs_at].
        unfold unread in En. rewrite lenN_skipn in En. repeat split; try assumption; lia.
    + pose proof (exact_spec _ _ buf_delivers _ n [] s p s' y A (Fu p) O) as Q. unfold read_exact in P.
      destruct (n <=? lenN (dropN p f)) eqn:B; injection P as <- <-; destruct y as [b|y|y|]; try contradiction.
      * left. destruct Q as [_ [-> Q]]. split; [reflexivity|exact Q].
      * destruct Q as [[-> Q]|[-> Q]]; [lia|right; split; [reflexivity|exact Q]].
      * lia.
      * destruct Q as [[-> Q]|[-> Q]]; [left; split; [reflexivity|exact Logic.I]|right; split; [reflexivity|exact Q]].
Qed.

(** A whole program. *)
Lemma prog_refines T (p : prog T) : forall s w a w' s' xs b,
  is_at s w -> run_pure E f p w = Some (a, w') -> run_prog E D cap f p s = (s', xs, b) ->
  (b = a /\ is_at s' w') \/ (device_failed xs /\ fails).
Proof.
  induction p as [a0|o k IH]; intros s w a w' s' xs b A P R; cbn [run_pure run_prog] in *.
  - injection P as <- <-. injection R as <- _ <-. left. split; [reflexivity|exact A].
  - destruct (pure_op E f o w) as [[x w1]|] eqn:Po; [|discriminate].
    destruct (dev_op E D cap f o s) as [s1 y] eqn:Do_. destruct (run_prog E D cap f (k y) s1) as [[s2 ys] c] eqn:Rk.
    injection R as <- <- <-. destruct (op_refines o s w x w1 s1 y A Po Do_) as [[-> A1]|[-> F]].
    + destruct (IH x s1 w1 a w' s2 ys c A1 P Rk) as [G|[G F]]; [left; exact G|right; split; [right; exact G|exact F]].
    + right. split; [left; reflexivity|exact F].
Qed.
End Device.

(** ** What a device failure leads to *)

(** The program gives up at the first failure of the device, with a result that
    is [bad].  ([NewBuf] cannot fail.) *)
Inductive stops {A} (bad : A -> Prop) : prog A -> Prop :=
| stops_ret a : stops bad (Ret a)
| stops_new k : (forall x, stops bad (k x)) -> stops bad (Do NewBuf k)
| stops_do o k : (exists a, k (Err (EIo DeviceError)) = Ret a /\ bad a) -> (forall x, stops bad (k x)) -> stops bad (Do o k).

(** The result when some operation fails because of the device. *)
Inductive cut {A} (E : env) (f : list byte) : prog A -> place -> A -> Prop :=
| cut_now o k w a : o <> NewBuf -> k (Err (EIo DeviceError)) = Ret a -> cut E f (Do o k) w a
| cut_later o k w x w' a : pure_op E f o w = Some (x, w') -> cut E f (k x) w' a -> cut E f (Do o k) w a.

Lemma stops_bind A B bad bad' (p : prog A) (q : A -> prog B) :
  stops bad p -> (forall a, bad a -> exists b, q a = Ret b /\ bad' b) -> (forall a, stops bad' (q a)) ->
  stops bad' (pbind p q).
Proof.
  intros P H Q. induction P as [a|k P IH|o k [a [Z Ba]] P IH]; cbn [pbind].
  - apply Q.
  - apply stops_new. exact IH.
  - apply stops_do; [|exact IH]. rewrite Z. cbn [pbind]. exact (H a Ba).
Qed.
Lemma bind_ret A B (p : prog A) (q : A -> prog B) b : pbind p q = Ret b -> exists a, p = Ret a /\ q a = Ret b.
Proof. destruct p as [a|o k]; cbn [pbind]; [|discriminate]. intros H. exists a. split; [reflexivity|exact H]. Qed.
Lemma cut_bind A B E f (p : prog A) (q : A -> prog B) : forall w b, cut E f (pbind p q) w b ->
  (exists a, cut E f p w a /\ q a = Ret b) \/ (exists a w', run_pure E f p w = Some (a, w') /\ cut E f (q a) w' b).
Proof.
  induction p as [a|o k IH]; cbn [pbind run_pure]; intros w b H.
  - right. exists a, w. split; [reflexivity|exact H].
  - inversion H as [o' k' w1 a Hn Z|o' k' w1 x w' a P C]; subst.
    + destruct (bind_ret _ _ _ _ _ Z) as [a [Z1 Z2]]. left. exists a. split; [exact (cut_now E f o k w a Hn Z1)|exact Z2].
    + destruct (IH x w' b C) as [[a [C1 C2]]|[a [w2 [C1 C2]]]].
      * left. exists a. split; [exact (cut_later E f o k w x w' a P C1)|exact C2].
      * right. exists a, w2. rewrite P. split; [exact C1|exact C2].
Qed.
Lemma cut_ret A E f (a : A) w b : ~ cut E f (Ret a) w b.
Proof. intros H. inversion H. Qed.
Lemma stops_cut A E f bad (p : prog A) : stops bad p -> forall w b, cut E f p w b -> bad b.
Proof.
  induction 1 as [a|k P IH|o k [a [Z Ba]] P IH]; intros w b C.
  - destruct (cut_ret _ _ _ _ _ _ C).
  - inversion C as [o' k' w1 a Hn Z|o' k' w1 x w' a Po C1]; subst; [congruence|exact (IH x w' b C1)].
  - inversion C as [o' k' w1 a' Hn Z'|o' k' w1 x w' a' Po C1]; subst; [|exact (IH x w' b C1)].
    rewrite Z in Z'. injection Z' as <-. exact Ba.
Qed.

Lemma pure_op_no_device E f o w x w' : pure_op E f o w = Some (x, w') -> x <> Err (EIo DeviceError).
Proof.
  destruct o, w; cbn [pure_op]; try discriminate; try (intros Z; injection Z as <- _; discriminate).
  all: try (destruct (_ <=? _); intros Z; injection Z as <- _; discriminate).
  all: try (unfold read_exact; destruct (_ <=? _); intros Z; injection Z as <- _; discriminate).
  unfold seek_rel. destruct (_ <? 0)%Z; [|destruct (_ <=? _)]; intros Z; injection Z as <- _; discriminate.
Qed.

Lemma prog_stops A E D cap f bad (p : prog A) : lenN f <= seek_max E -> stops bad p ->
  forall s w a w' s' xs b, is_at E f s w -> run_pure E f p w = Some (a, w') -> run_prog E D cap f p s = (s', xs, b) ->
  (b = a /\ is_at E f s' w' /\ ~ device_failed xs) \/ (device_failed xs /\ fails D /\ cut E f p w b).
Proof.
  intros Fits. induction 1 as [a0|k P IH|o k [a0 [Z Ba]] P IH]; intros s w a w' s' xs b Hat Pu R; cbn [run_pure run_prog] in *.
  - injection Pu as <- <-. injection R as <- <- <-. left. split; [reflexivity|]. split; [exact Hat|intros []].
  - destruct (pure_op E f NewBuf w) as [[x w1]|] eqn:Po; [|discriminate].
    destruct (dev_op E D cap f NewBuf s) as [s1 y] eqn:Do_. destruct (run_prog E D cap f (k y) s1) as [[s2 ys] c] eqn:Rk.
    injection R as <- <- <-. destruct (op_refines E D cap f Fits NewBuf s w x w1 s1 y Hat Po Do_) as [[-> A1]|[-> F]].
    + destruct (IH x s1 w1 a w' s2 ys c A1 Pu Rk) as [(G1 & G2 & G3)|(G & F & C)].
      * left. split; [exact G1|]. split; [exact G2|]. intros [V|V]; [exact (pure_op_no_device _ _ _ _ _ _ Po V)|exact (G3 V)].
      * right. split; [right; exact G|]. split; [exact F|exact (cut_later _ _ _ _ _ _ _ _ Po C)].
    + discriminate Do_.
  - destruct (pure_op E f o w) as [[x w1]|] eqn:Po; [|discriminate].
    destruct (dev_op E D cap f o s) as [s1 y] eqn:Do_. destruct (run_prog E D cap f (k y) s1) as [[s2 ys] c] eqn:Rk.
    injection R as <- <- <-. destruct (op_refines E D cap f Fits o s w x w1 s1 y Hat Po Do_) as [[-> A1]|[-> F]].
    + destruct (IH x s1 w1 a w' s2 ys c A1 Pu Rk) as [(G1 & G2 & G3)|(G & F & C)].
      * left. split; [exact G1|]. split; [exact G2|]. intros [V|V]; [exact (pure_op_no_device _ _ _ _ _ _ Po V)|exact (G3 V)].
      * right. split; [right; exact G|]. split; [exact F|exact (cut_later _ _ _ _ _ _ _ _ Po C)].
    + right. split; [left; reflexivity|]. split; [exact F|]. rewrite Z in Rk. cbn [run_prog] in Rk. injection Rk as _ _ <-.
      apply cut_now; [|exact Z]. intros ->. discriminate Do_.
Qed.

(** ** The programs read what the functions on lists of bytes read *)
Section Pure.
Context (E : env) (f : list byte).

Definition reads {A} (P : parser A) (Q : prog (res A)) : Prop :=
  forall p, match P (dropN p f) with
            | Ok (a, r) => exists q, run_pure E f Q (AtBuf p) = Some (Ok a, AtBuf q)
                                     /\ r = dropN q f /\ q = p + (lenN (dropN p f) - lenN r) /\ p <= q
            | Diverge => True
            | Err x => exists w, run_pure E f Q (AtBuf p) = Some (Err x, w)
            | Panic x => exists w, run_pure E f Q (AtBuf p) = Some (Panic x, w)
            end.

Lemma reads_ret A (a : A) : reads (fun bs => Ok (a, bs)) (Ret (Ok a)).
Proof. intros p. exists p. repeat split; lia. Qed.
Lemma reads_err A x : reads (fun _ => @Err (A * list byte) x) (Ret (Err x)).
Proof. intros p. exists (AtBuf p). reflexivity. Qed.
Lemma reads_ext A (P P' : parser A) Q : (forall bs, P bs = P' bs) -> reads P' Q -> reads P Q.
Proof. intros X R p. rewrite X. exact (R p). Qed.
Lemma reads_ask n : reads (read_exact n) (ask n).
Proof.
  intros p. unfold ask. cbn [run_pure pure_op]. unfold read_exact. destruct (n <=? lenN (dropN p f)) eqn:L.
  - exists (p + n). cbn [run_pure]. split; [reflexivity|].
    assert (R : skipn (N.to_nat n) (dropN p f) = dropN (p + n) f) by (rewrite <- dropN_skipn; apply dropN_dropN).
    split; [exact R|]. rewrite R, lenN_dropN, lenN_dropN in *. lia.
  - exists Lost. reflexivity.
Qed.
Lemma reads_bind A B (P : parser A) Q (P' : A -> parser B) Q' :
  reads P Q -> (forall a, reads (P' a) (Q' a)) ->
  reads (fun bs => '(a, r) <- P bs ;; P' a r) (rbind Q Q').
Proof.
  intros R R' p. specialize (R p). unfold rbind. rewrite run_pure_bind. destruct (P (dropN p f)) as [[a r]|x|x|]; cbn [bind].
  - destruct R as [q [-> [-> [Eq Lq]]]]. specialize (R' a q). destruct (P' a (dropN q f)) as [[b r]|x|x|]; try exact R'.
    destruct R' as [q' [-> [-> [Eq' Lq']]]]. exists q'. rewrite lenN_dropN in *. rewrite lenN_dropN in *. repeat split; lia.
  - destruct R as [w ->]. exists w. reflexivity.
  - destruct R as [w ->]. exists w. reflexivity.
  - exact Logic.I.
Qed.
Lemma reads_map A B (P : parser A) Q (g : A -> res B) : reads P Q ->
  reads (fun bs => '(a, r) <- P bs ;; match g a with Ok b => Ok (b, r) | Err x => Err x | Panic x => Panic x | Diverge => Diverge end)
        (rbind Q (fun a => Ret (g a))).
Proof.
  intros R. apply reads_bind; [exact R|]. intros a p. cbn [run_pure]. destruct (g a); try exact Logic.I; try (eexists; reflexivity).
  exists p. repeat split; lia.
Qed.

Lemma reads_uint e w : reads (dec_uint e w) (dec_uint_p e w).
Proof.
  unfold dec_uint, dec_uint_p. apply (reads_ext _ _ _ _ (fun bs => eq_refl)).
  apply reads_bind; [apply reads_ask|]. intros a. apply reads_ret.
Qed.
Lemma reads_sint e w : reads (dec_sint e w) (dec_sint_p e w).
Proof. unfold dec_sint, dec_sint_p. apply reads_bind; [apply reads_uint|]. intros a. apply reads_ret. Qed.
Lemma reads_bool : reads dec_bool dec_bool_p.
Proof. unfold dec_bool, dec_bool_p. apply reads_bind; [apply reads_ask|]. intros a. apply reads_ret. Qed.
Lemma reads_ext_ e : reads (dec_ext e) (dec_ext_p e).
Proof. unfold dec_ext, dec_ext_p. apply reads_bind; [apply reads_ask|]. intros a. apply reads_ret. Qed.
Lemma reads_str e : reads (dec_str E e) (dec_str_p E e).
Proof.
  unfold dec_str, dec_str_p. apply reads_bind; [apply reads_uint|]. intros len.
  destruct (alloc_ok E AString len); [|apply reads_err]. apply reads_bind; [apply reads_ask|]. intros b.
  destruct (utf8_valid b); [apply reads_ret|apply reads_err].
Qed.
Lemma reads_complex e w : reads (dec_complex e w) (dec_complex_p e w).
Proof.
  unfold dec_complex, dec_complex_p. apply reads_bind; [apply reads_uint|]. intros a.
  apply reads_bind; [apply reads_uint|]. intros b. apply reads_ret.
Qed.
Lemma reads_dec e t : reads (dec E e t) (dec_p E e t).
Proof. destruct t; first [apply reads_sint|apply reads_uint|apply reads_bool|apply reads_ext_|apply reads_str|apply reads_complex]. Qed.
Lemma reads_dtype e : reads (read_dtype e) (read_dtype_p e).
Proof.
  unfold read_dtype, read_dtype_p. apply reads_bind; [apply reads_uint|]. intros c.
  destruct (dtype_of_code c); [apply reads_ret|apply reads_err].
Qed.
Lemma reads_as A (P : parser A) Q c : reads P Q -> reads (read_as P c) (read_as_p Q c).
Proof. intros R. unfold read_as, read_as_p. apply reads_bind; [exact R|]. intros a. apply reads_ret. Qed.
Lemma reads_pval e : reads (read_pval E e) (read_pval_p E e).
Proof.
  unfold read_pval, read_pval_p. apply reads_bind; [apply reads_dtype|]. intros t.
  destruct t; first [apply reads_ret|apply reads_err|apply reads_as, reads_dec].
Qed.
Lemma reads_rawidx e : reads (read_rawidx e) (read_rawidx_p e).
Proof.
  unfold read_rawidx, read_rawidx_p. apply reads_bind; [apply reads_uint|]. intros i.
  destruct (i =? 0); [apply reads_ret|]. destruct (i =? 4294967295); [apply reads_ret|].
  destruct ((1762787328 <=? i) && (i <=? 1762852863)); [apply reads_err|].
  destruct ((1762852864 <=? i) && (i <=? 1762918399)); [apply reads_err|].
  apply reads_bind; [apply reads_dtype|]. intros t. apply reads_bind; [apply reads_uint|]. intros d.
  apply reads_bind; [apply reads_uint|]. intros n. apply reads_ret.
Qed.
Lemma reads_props e : forall fuel count, reads (read_props E e fuel count) (read_props_p E e (N.to_nat count)).
Proof.
  induction fuel as [|fuel IH]; intros count; cbn [read_props]; destruct (count =? 0) eqn:Z.
  - replace count with 0 by lia. apply reads_ret.
  - intros p. exact Logic.I.
  - replace count with 0 by lia. apply reads_ret.
  - replace (N.to_nat count) with (S (N.to_nat (N.pred count))) by lia. cbn [read_props_p].
    apply reads_bind; [apply (reads_dec e SStr)|]. intros name. apply reads_bind; [apply reads_pval|]. intros v.
    apply reads_bind; [apply IH|]. intros rest. apply reads_ret.
Qed.
(** The loops of the model get fuel from the bytes left; the fuel never runs
    out, but here it only matters that the choice may depend on the bytes. *)
Lemma reads_fuel A (P : nat -> parser A) Q : (forall n, reads (P n) Q) -> reads (fun bs => P (S (length bs)) bs) Q.
Proof. intros R p. exact (R (S (length (dropN p f))) p). Qed.
Lemma reads_obj e : reads (read_obj E e) (read_obj_p E e).
Proof.
  unfold read_obj, read_obj_p. apply reads_bind; [apply (reads_dec e SStr)|]. intros path.
  apply reads_bind; [apply reads_rawidx|]. intros idx. apply reads_bind; [apply reads_uint|]. intros count.
  destruct (alloc_ok E AProps count); [|apply reads_err].
  apply (reads_bind _ _ (fun r3 => read_props E e (S (length r3)) count r3)); [|intros props; apply reads_ret].
  apply (reads_fuel _ (fun n => read_props E e n count)). intros n. apply reads_props.
Qed.
Lemma reads_objs e : forall fuel count, reads (read_objs E e fuel count) (read_objs_p E e (N.to_nat count)).
Proof.
  induction fuel as [|fuel IH]; intros count; cbn [read_objs]; destruct (count =? 0) eqn:Z.
  - replace count with 0 by lia. apply reads_ret.
  - intros p. exact Logic.I.
  - replace count with 0 by lia. apply reads_ret.
  - replace (N.to_nat count) with (S (N.to_nat (N.pred count))) by lia. cbn [read_objs_p].
    apply reads_bind; [apply reads_obj|]. intros o. apply reads_bind; [apply IH|]. intros rest. apply reads_ret.
Qed.
Lemma reads_metadata e : reads (read_metadata E e) (read_metadata_p E e).
Proof.
  unfold read_metadata, read_metadata_p. apply reads_bind; [apply reads_uint|]. intros count.
  destruct (alloc_ok E AObjects count); [|apply reads_err].
  apply (reads_fuel _ (fun n => read_objs E e n count)). intros n. apply reads_objs.
Qed.
Lemma reads_segment t : reads (read_segment E t) (read_segment_p E t).
Proof.
  unfold read_segment, read_segment_p. cbv zeta. apply reads_bind; [apply reads_uint|]. intros v.
  apply reads_bind; [apply reads_uint|]. intros next. apply reads_bind; [apply reads_uint|]. intros raw.
  apply reads_bind; [apply reads_metadata|]. intros m. apply reads_ret.
Qed.

(** *** Opening *)
Lemma exact_rest n p a r : read_exact n (dropN p f) = Ok (a, r) -> r = dropN (p + n) f.
Proof.
  unfold read_exact. destruct (n <=? lenN (dropN p f)); [|discriminate]. intros Z. injection Z as _ <-.
  rewrite <- dropN_skipn. apply dropN_dropN.
Qed.
Lemma segment_read_pure p : segment_read E f p <> Diverge ->
  exists w, run_pure E f (segment_read_p E) (AtRaw p) = Some (segment_read E f p, w).
Proof.
  unfold segment_read, segment_read_p. cbv zeta. cbn [run_pure pure_op]. intros Nd.
  destruct (read_exact 4 (dropN p f)) as [[tag r1]|x|x|] eqn:R1.
  - destruct (str_eqb tag TDSm); [|eexists; reflexivity]. cbn [run_pure pure_op].
    pose proof (exact_rest _ _ _ _ R1) as E1.
    subst r1. destruct (read_exact 4 (dropN (p + 4) f)) as [[tocb r2]|x|x|] eqn:R2; cbn [bind recast] in *.
    + pose proof (exact_rest _ _ _ _ R2) as E2.
      subst r2. cbn [run_pure pure_op].
      pose proof (reads_segment (toc_of_u32 (le_val tocb)) (p + 4 + 4)) as R.
      destruct (read_segment E _ _) as [[sg r]|x|x|]; cbn [bind] in *.
      * destruct R as [q [R _]]. eexists. exact R.
      * destruct R as [w R]. exists w. exact R.
      * destruct R as [w R]. exists w. exact R.
      * congruence.
    + eexists. reflexivity.
    + eexists. reflexivity.
    + congruence.
  - unfold read_exact in R1. destruct (4 <=? _); [discriminate|]. injection R1 as <-. cbn [recast run_pure]. eexists. reflexivity.
  - unfold read_exact in R1. destruct (4 <=? _); discriminate.
  - congruence.
Qed.
Lemma build_loop_pure : forall fuel ix p, p <= seek_max E -> build_loop E f fuel ix p <> Diverge ->
  exists w, run_pure E f (build_loop_p E fuel ix) (AtRaw p) = Some (build_loop E f fuel ix p, w).
Proof.
  induction fuel as [|fuel IH]; intros ix p Hp Nd; cbn [build_loop build_loop_p] in *; [congruence|].
  rewrite run_pure_bind.
  destruct (segment_read_pure p) as [w Sr]; [intros Z; rewrite Z in Nd; congruence|]. rewrite Sr.
  destruct (segment_read E f p) as [s|x|x|].
  - destruct (add_segment E ix s) as [ix' r]. destruct r as [next|x|x|]; cbn [bind recast] in *; try (eexists; reflexivity).
    cbn [run_pure pure_op]. unfold seek_to in *. destruct (next <=? seek_max E) eqn:L.
    + apply IH; [lia|exact Nd].
    + eexists. reflexivity.
  - destruct x; eexists; reflexivity.
  - eexists. reflexivity.
  - congruence.
Qed.
Lemma build_index_pure w : build_index E f <> Diverge ->
  exists w', run_pure E f (build_index_p E (S (length f))) w = Some (build_index E f, w').
Proof.
  intros Nd. unfold build_index, build_index_p in *. cbn [run_pure pure_op].
  replace (0 <=? seek_max E) with true by lia. apply build_loop_pure; [lia|exact Nd].
Qed.
End Pure.

(** *** Reading channels *)
Section Blocks.
Context (E : env) (f : list byte) (t : sty) (e : endian).
Local Notation V := (carrier t).

(** The program, started in a buffered reader at a position, ends as the
    function on lists says: same outputs, same result, same position. *)
Definition lands {A B} (m : A * res (B * N)) (o : option ((A * res B) * place)) : Prop :=
  match m with
  | (a, Ok (b, q)) => o = Some ((a, Ok b), AtBuf q)
  | (a, r) => exists w, o = Some ((a, recast r), w)
  end.
(** The same when the position at the end does not matter. *)
Definition ends {A B} (m : A * res B) (o : option ((A * res B) * place)) : Prop :=
  exists w, o = Some (m, w).

Lemma dec_pure pos :
  match read_at E f t e pos with
  | Ok (v, q) => run_pure E f (dec_p E e t) (AtBuf pos) = Some (Ok v, AtBuf q)
  | r => exists w, run_pure E f (dec_p E e t) (AtBuf pos) = Some (recast r, w)
  end.
Proof.
  pose proof (reads_dec E f e t pos) as R. pose proof (calm_read_at E f t e pos) as C. unfold read_at in *.
  destruct (dec E e t (dropN pos f)) as [[v r]|x|x|]; cbn [bind recast] in *.
  - destruct R as [q [R1 [_ [R2 _]]]]. rewrite R1, R2. reflexivity.
  - exact R.
  - exact R.
  - contradiction.
Qed.
Lemma move_pure d pos :
  match seek_rel E pos d with
  | Ok q => run_pure E f (move_p d) (AtBuf pos) = Some (Ok tt, AtBuf q)
  | r => exists w, run_pure E f (move_p d) (AtBuf pos) = Some (recast r, w)
  end.
Proof.
  unfold move_p. cbn [run_pure pure_op]. destruct (seek_rel E pos d); cbn [recast bind]; [reflexivity|..]; eexists; reflexivity.
Qed.

Lemma vals_pure : forall n pos,
  lands (let '(vs, r) := read_vals E f t e n pos in (vs, q <- r ;; Ok (tt, q)))
        (run_pure E f (read_vals_p E t e n) (AtBuf pos)).
Proof.
  induction n as [|n IH]; intros pos; cbn [read_vals read_vals_p].
  - reflexivity.
  - rewrite run_pure_bind. pose proof (dec_pure pos) as R. destruct (read_at E f t e pos) as [[v q]|x|x|]; cbn [recast bind] in *.
    2-4: destruct R as [w ->]; cbn [run_pure recast lands]; eexists; reflexivity.
    rewrite R, run_pure_bind. specialize (IH q). destruct (read_vals E f t e n q) as [vs r].
    destruct r as [q'|x|x|]; cbn [bind lands recast] in *.
    + rewrite IH. reflexivity.
    + destruct IH as [w ->]. eexists. reflexivity.
    + destruct IH as [w ->]. eexists. reflexivity.
    + destruct IH as [w ->]. eexists. reflexivity.
Qed.
Lemma seq_pure room samples pos :
  lands (read_seq E f t e room samples pos) (run_pure E f (read_seq_p E t e room samples) (AtBuf pos)).
Proof.
  unfold read_seq, read_seq_p. cbv zeta. rewrite run_pure_bind. set (k := N.min (N.of_nat room) samples).
  pose proof (vals_pure (N.to_nat k) pos) as R. destruct (read_vals E f t e (N.to_nat k) pos) as [vs r].
  destruct r as [q|x|x|]; cbn [bind lands recast] in *.
  2-4: destruct R as [w ->]; eexists; reflexivity.
  rewrite R. destruct (0 <? samples - k); [|reflexivity].
  destruct (imul E (as_i64 (samples - k)) (as_i64 (size_bytes t))) as [off|x|x|]; cbn [bind lands recast].
  2-4: eexists; reflexivity.
  rewrite run_pure_bind. pose proof (move_pure off q) as M. destruct (seek_rel E q off) as [q'|x|x|]; cbn [bind lands recast] in *.
  - rewrite M. reflexivity.
  - destruct M as [w ->]. eexists; reflexivity.
  - destruct M as [w ->]. eexists; reflexivity.
  - destruct M as [w ->]. eexists; reflexivity.
Qed.
Lemma entry_pure x pos :
  lands (read_entry E f t e x pos) (run_pure E f (read_entry_p E t e x) (AtBuf pos)).
Proof.
  unfold read_entry, read_entry_p. destruct (en_plan x) as [b|oid got room skip]; cbv zeta.
  - destruct (imul E b (as_i64 (en_len x))) as [off|y|y|]; cbn [bind lands recast].
    2-4: eexists; reflexivity.
    rewrite run_pure_bind. pose proof (move_pure off pos) as M. destruct (seek_rel E pos off) as [q|y|y|]; cbn [bind lands recast] in *.
    2-4: destruct M as [w ->]; eexists; reflexivity.
    rewrite M. reflexivity.
  - rewrite run_pure_bind. set (sk := N.min skip (en_len x)).
    assert (M : match (if 0 <? sk then off <- imul E (as_i64 sk) (as_i64 (size_bytes t)) ;; seek_rel E pos off else Ok pos) with
                | Ok q => run_pure E f (if 0 <? sk then match imul E (as_i64 sk) (as_i64 (size_bytes t)) with
                                                        | Ok off => move_p off | q => Ret (recast q) end
                                        else Ret (Ok tt)) (AtBuf pos) = Some (Ok tt, AtBuf q)
                | r => exists w, run_pure E f (if 0 <? sk then match imul E (as_i64 sk) (as_i64 (size_bytes t)) with
                                                        | Ok off => move_p off | q => Ret (recast q) end
                                        else Ret (Ok tt)) (AtBuf pos) = Some (recast r, w)
                end).
    { destruct (0 <? sk); [|reflexivity]. destruct (imul E _ _) as [off|y|y|]; cbn [bind recast].
      - apply move_pure.
      - eexists; reflexivity.
      - eexists; reflexivity.
      - eexists; reflexivity. }
    destruct (if 0 <? sk then _ else _) as [q|y|y|]; cbn [recast] in *.
    2-4: destruct M as [w ->]; eexists; reflexivity.
    rewrite M, run_pure_bind. pose proof (seq_pure room (en_len x - sk) q) as R.
    destruct (read_seq E f t e room (en_len x - sk) q) as [vs r].
    destruct r as [[l q']|y|y|]; cbn [bind lands recast] in *.
    2-4: destruct R as [w ->]; eexists; reflexivity.
    rewrite R. reflexivity.
Qed.
Lemma sub_pure : forall es len pos,
  lands (read_sub_block E f t e es len pos) (run_pure E f (read_sub_block_p E t e es len) (AtBuf pos)).
Proof.
  induction es as [|x r IH]; intros len pos; cbn [read_sub_block read_sub_block_p]; [reflexivity|].
  rewrite run_pure_bind. pose proof (entry_pure x pos) as R. destruct (read_entry E f t e x pos) as [x' y].
  destruct y as [[l q]|y|y|]; cbn [lands recast] in *.
  2-4: destruct R as [w ->]; eexists; reflexivity.
  rewrite R, run_pure_bind. specialize (IH (match l with Some l => l | None => len end) q).
  destruct (read_sub_block E f t e r _ q) as [r' y]. destruct y as [[l' q']|y|y|]; cbn [lands recast] in *.
  2-4: destruct IH as [w ->]; eexists; reflexivity.
  rewrite IH. reflexivity.
Qed.
Lemma loop_pure step : forall n idx es len pos,
  ends (contig_loop E f t e step n idx es len pos) (run_pure E f (contig_loop_p E t e step n idx es len) (AtBuf pos)).
Proof.
  induction n as [|n IH]; intros idx es len pos; cbn [contig_loop contig_loop_p]; [eexists; reflexivity|].
  destruct (step idx es) as [es1|].
  - rewrite run_pure_bind. pose proof (sub_pure es1 0 pos) as R. destruct (read_sub_block E f t e es1 0 pos) as [es2 y].
    destruct y as [[l q]|y|y|]; cbn [lands recast] in *.
    2-4: destruct R as [w ->]; eexists; reflexivity.
    rewrite R. apply IH.
  - destruct (block_size E t es) as [bs|y|y|]; cbn [bind recast].
    2-4: eexists; reflexivity.
    rewrite run_pure_bind. pose proof (move_pure (as_i64 bs) pos) as M.
    destruct (seek_rel E pos (as_i64 bs)) as [q|y|y|]; cbn [recast] in *.
    2-4: destruct M as [w ->]; eexists; reflexivity.
    rewrite M. apply IH.
Qed.
Lemma open_pure start w :
  match seek_to E start with
  | Ok q => run_pure E f (open_at_p start) w = Some (Ok tt, AtBuf q)
  | r => exists w', run_pure E f (open_at_p start) w = Some (recast r, w')
  end.
Proof.
  unfold open_at_p, seek_to. cbn [run_pure]. destruct w; cbn [pure_op run_pure];
    destruct (start <=? seek_max E); cbn [recast bind run_pure]; try reflexivity; eexists; reflexivity.
Qed.
Lemma contig_from_pure start blen es s w :
  ends (contig_read_from E f t e start blen es s) (run_pure E f (contig_read_from_p E t e start blen es s) w).
Proof.
  unfold contig_read_from, contig_read_from_p. rewrite run_pure_bind. pose proof (open_pure start w) as O.
  destruct (seek_to E start) as [q|y|y|]; cbn [bind recast] in *.
  2-4: destruct O as [w' ->]; eexists; reflexivity.
  rewrite O. destruct (block_size E t es) as [bs|y|y|]; cbn [bind recast].
  2-4: eexists; reflexivity.
  destruct (udiv blen bs) as [total|y|y|]; cbn [bind recast].
  2-4: eexists; reflexivity.
  destruct es as [|x es]; cbn [bind recast]; [eexists; reflexivity|].
  destruct (udiv s (en_len x)) as [d|y|y|]; cbn [bind recast].
  2-4: eexists; reflexivity.
  apply loop_pure.
Qed.
Lemma contig_skips_pure start blen es skips w :
  ends (contig_read_skips E f t e start blen es skips) (run_pure E f (contig_read_skips_p E t e start blen es skips) w).
Proof.
  unfold contig_read_skips, contig_read_skips_p. rewrite run_pure_bind. pose proof (open_pure start w) as O.
  destruct (seek_to E start) as [q|y|y|]; cbn [bind recast] in *.
  2-4: destruct O as [w' ->]; eexists; reflexivity.
  rewrite O. destruct (block_size E t es) as [bs|y|y|]; cbn [bind recast].
  2-4: eexists; reflexivity.
  destruct (udiv blen bs) as [total|y|y|]; cbn [bind recast].
  2-4: eexists; reflexivity.
  destruct es as [|x es]; cbn [bind recast]; [eexists; reflexivity|].
  destruct (div_skips (en_len x) skips) as [d|y|y|]; cbn [bind recast].
  2-4: eexists; reflexivity.
  apply loop_pure.
Qed.
Lemma row_pure row : forall es any pos,
  lands (inter_row E f t e row es any pos) (run_pure E f (inter_row_p E t e row es any) (AtBuf pos)).
Proof.
  assert (K : forall (x : entry V) m o, lands m o ->
    lands (let '(r', q) := m in (x :: r', q))
          (match o with Some (z, w) => run_pure E f (Ret (x :: fst z, snd z : res bool)) w | None => None end)).
  { intros x [r' q] o L. destruct q as [[b q]|y|y|]; cbn [lands recast] in *.
    - rewrite L. reflexivity.
    - destruct L as [w ->]. eexists; reflexivity.
    - destruct L as [w ->]. eexists; reflexivity.
    - destruct L as [w ->]. eexists; reflexivity. }
  induction es as [|x r IH]; intros any pos; cbn [inter_row inter_row_p]; [reflexivity|].
  destruct (en_plan x) as [b|oid got room skip]; rewrite run_pure_bind.
  - pose proof (move_pure b pos) as M. destruct (seek_rel E pos b) as [q|y|y|]; cbn [recast lands] in *.
    2-4: destruct M as [w ->]; eexists; reflexivity.
    rewrite M, run_pure_bind; apply K, IH.
  - pose proof (dec_pure pos) as R. destruct (read_at E f t e pos) as [[v q]|y|y|]; cbn [recast lands] in *.
    2-4: destruct R as [w ->]; eexists; reflexivity.
    rewrite R. destruct (skip <=? row).
    + destruct room as [|room]; rewrite run_pure_bind; apply K, IH.
    + rewrite run_pure_bind; apply K, IH.
Qed.
Lemma rows_pure : forall n row es read pos,
  ends (inter_rows E f t e n row es read pos) (run_pure E f (inter_rows_p E t e n row es read) (AtBuf pos)).
Proof.
  induction n as [|n IH]; intros row es read pos; cbn [inter_rows inter_rows_p]; [eexists; reflexivity|].
  rewrite run_pure_bind. pose proof (row_pure row es false pos) as R. destruct (inter_row E f t e row es false pos) as [es' y].
  destruct y as [[b q]|y|y|]; cbn [lands recast] in *.
  2-4: destruct R as [w ->]; eexists; reflexivity.
  rewrite R. destruct b; [apply IH|eexists; reflexivity].
Qed.
Lemma inter_pure start blen es w :
  ends (inter_read E f t e start blen es) (run_pure E f (inter_read_p E t e start blen es) w).
Proof.
  unfold inter_read, inter_read_p. cbv zeta. rewrite run_pure_bind. pose proof (open_pure start w) as O.
  destruct (seek_to E start) as [q|y|y|]; cbn [bind recast] in *.
  2-4: destruct O as [w' ->]; eexists; reflexivity.
  rewrite O. destruct (row_size E t es) as [rs|y|y|]; cbn [bind recast].
  2-4: eexists; reflexivity.
  destruct (udiv blen rs) as [total|y|y|]; cbn [bind recast].
  2-4: eexists; reflexivity.
  destruct (0 <? min_or_0 (block_skips es)).
  - destruct (imul E _ _) as [off|y|y|]; cbn [bind recast].
    2-4: eexists; reflexivity.
    rewrite run_pure_bind. pose proof (move_pure off q) as M. destruct (seek_rel E q off) as [q'|y|y|]; cbn [bind recast] in *.
    2-4: destruct M as [w' ->]; eexists; reflexivity.
    rewrite M. apply rows_pure.
  - cbn [bind]. rewrite run_pure_bind. cbn [run_pure]. apply rows_pure.
Qed.
End Blocks.

Section Files.
Context (E : env) (f : list byte).
Lemma ends_outputs t reqs m p w : ends m (run_pure E f p w) ->
  @ends (list (list (carrier t))) N (let '(es', r) := m in (outputs reqs es', r))
    (run_pure E f (pbind p (fun y => Ret (outputs reqs (fst y), snd y))) w).
Proof. intros [w' H]. rewrite run_pure_bind, H. destruct m as [es r]. exists w'. reflexivity. Qed.
Lemma block_pure t b reqs w : ends (block_read E f t b reqs) (run_pure E f (block_read_p E t b reqs) w).
Proof.
  unfold block_read, block_read_p. destruct (build_record_plan t (b_chans b) reqs) as [es|x|x|].
  2-4: eexists; reflexivity.
  destruct (b_layout b); apply ends_outputs; [apply inter_pure|apply contig_from_pure].
Qed.
Lemma block_skips_pure t b reqs w : ends (block_read_skips E f t b reqs) (run_pure E f (block_read_skips_p E t b reqs) w).
Proof.
  unfold block_read_skips, block_read_skips_p. cbv zeta. destruct (build_record_plan t (b_chans b) reqs) as [es|x|x|].
  2-4: eexists; reflexivity.
  destruct (b_layout b); apply ends_outputs; [apply inter_pure|apply contig_skips_pure].
Qed.
Lemma execute_pure t ix : forall plan prs outs w,
  ends (execute E f t ix plan prs outs) (run_pure E f (execute_p E t ix plan prs outs) w).
Proof.
  induction plan as [|br rest IH]; intros prs outs w; cbn [execute execute_p]; [eexists; reflexivity|].
  destruct (get_data_block ix (br_block br)) as [b|]; [|eexists; reflexivity]. cbv zeta. rewrite run_pure_bind.
  set (reqs := block_requests (br_chans br) prs).
  assert (B : ends (if any_skip (br_chans br) then block_read_skips E f t b reqs else block_read E f t b reqs)
                   (run_pure E f (if any_skip (br_chans br) then block_read_skips_p E t b reqs else block_read_p E t b reqs) w))
    by (destruct (any_skip (br_chans br)); [apply block_skips_pure|apply block_pure]).
  destruct B as [w' ->]. destruct (if any_skip (br_chans br) then _ else _) as [got r].
  destruct r as [n|x|x|]. 2-4: eexists; reflexivity.
  destruct (forallb complete (advance (br_chans br) n prs)); [eexists; reflexivity|apply IH].
Qed.
Lemma read_channels_pure t ix chans start outs w :
  ends (ix_read_channels_from E f t ix chans start outs) (run_pure E f (read_channels_from_p E t ix chans start outs) w).
Proof.
  unfold ix_read_channels_from, read_channels_from_p. destruct (bind _ _) as [plan|x|x|]. 2-4: eexists; reflexivity.
  apply execute_pure.
Qed.
Lemma read_channel_pure t ix chan start out w :
  ends (read_channel_from E (mkTF ix f) t chan start out) (run_pure E f (read_channel_from_p E t ix chan start out) w).
Proof.
  unfold read_channel_from, read_channel_from_p. cbn [tf_ix tf_bytes]. destruct (get_positions ix chan); [|eexists; reflexivity].
  destruct (read_plan _ _) as [plan|x|x|]. 2-4: eexists; reflexivity.
  destruct (execute_pure t ix plan (map (fun o => mkPr 0 (lenN o)) [out]) [out] w) as [w' Ex].
  unfold execute_read_plan, execute_read_plan_p. rewrite run_pure_bind, Ex.
  destruct (execute _ _ _ _ _ _ _) as [outs r]. exists w'. reflexivity.
Qed.
End Files.

(** ** The programs give up at the first failure of the device *)
Definition gave_up {A} (r : res A) : Prop := r = Err (EIo DeviceError).
Definition snd_gave_up {A B} (x : A * res B) : Prop := gave_up (snd x).

Lemma st_rbind A B (p : prog (res A)) (q : A -> prog (res B)) :
  stops gave_up p -> (forall a, stops gave_up (q a)) -> stops gave_up (rbind p q).
Proof.
  intros P Q. apply (stops_bind _ _ _ _ _ _ P).
  - intros a ->. eexists. split; reflexivity.
  - intros [a|x|x|]; [apply Q|apply stops_ret|apply stops_ret|apply stops_ret].
Qed.
Lemma st_ask n : stops gave_up (ask n).
Proof. unfold ask. apply stops_do; [eexists; split; reflexivity|]. intros x. apply stops_ret. Qed.
Section Stops.
Context (E : env).
Ltac st := intros; repeat first [apply stops_ret|apply st_ask|apply st_rbind; [|intros ?]
                        |match goal with |- stops _ (if ?b then _ else _) => destruct b end
                        |match goal with |- stops _ (match ?b with _ => _ end) => destruct b end].
Lemma st_uint e w : stops gave_up (dec_uint_p e w). Proof. unfold dec_uint_p. st. Qed.
Lemma st_sint e w : stops gave_up (dec_sint_p e w).
Proof. unfold dec_sint_p. apply st_rbind; [apply st_uint|]. st. Qed.
Lemma st_str e : stops gave_up (dec_str_p E e).
Proof. unfold dec_str_p. apply st_rbind; [apply st_uint|]. intros len. destruct (alloc_ok E AString len); st. Qed.
Lemma st_complex e w : stops gave_up (dec_complex_p e w).
Proof. unfold dec_complex_p. apply st_rbind; [apply st_uint|intros re]. apply st_rbind; [apply st_uint|]. st. Qed.
Lemma st_dec e t : stops gave_up (dec_p E e t).
Proof.
  destruct t; cbn [dec_p]; try apply st_sint; try apply st_uint; try apply st_str; try apply st_complex.
  - unfold dec_ext_p. apply st_rbind; [apply st_ask|]. intros b. apply stops_ret.
  - unfold dec_bool_p. st.
Qed.
Lemma st_dtype e : stops gave_up (read_dtype_p e).
Proof. unfold read_dtype_p. apply st_rbind; [apply st_uint|]. st. Qed.
Lemma st_pval e : stops gave_up (read_pval_p E e).
Proof.
  unfold read_pval_p. apply st_rbind; [apply st_dtype|]. intros t.
  destruct t; try apply stops_ret; (unfold read_as_p; apply st_rbind; [apply st_dec|]; intros v; apply stops_ret).
Qed.
Lemma st_rawidx e : stops gave_up (read_rawidx_p e).
Proof.
  unfold read_rawidx_p. apply st_rbind; [apply st_uint|]. intros i.
  destruct (i =? 0); [apply stops_ret|]. destruct (i =? 4294967295); [apply stops_ret|].
  destruct (_ && _); [apply stops_ret|]. destruct (_ && _); [apply stops_ret|].
  apply st_rbind; [apply st_dtype|intros t]. apply st_rbind; [apply st_uint|intros d].
  apply st_rbind; [apply st_uint|intros n]. apply stops_ret.
Qed.
Lemma st_props e : forall n, stops gave_up (read_props_p E e n).
Proof.
  induction n as [|n IH]; cbn [read_props_p]; [apply stops_ret|].
  apply st_rbind; [apply (st_dec e SStr)|intros name]. apply st_rbind; [apply st_pval|intros v].
  apply st_rbind; [exact IH|intros r]. apply stops_ret.
Qed.
Lemma st_obj e : stops gave_up (read_obj_p E e).
Proof.
  unfold read_obj_p. apply st_rbind; [apply (st_dec e SStr)|intros path]. apply st_rbind; [apply st_rawidx|intros i].
  apply st_rbind; [apply st_uint|intros c]. destruct (alloc_ok E AProps c); [|apply stops_ret].
  apply st_rbind; [apply st_props|intros p]. apply stops_ret.
Qed.
Lemma st_objs e : forall n, stops gave_up (read_objs_p E e n).
Proof.
  induction n as [|n IH]; cbn [read_objs_p]; [apply stops_ret|].
  apply st_rbind; [apply st_obj|intros o]. apply st_rbind; [exact IH|intros r]. apply stops_ret.
Qed.
Lemma st_segment t : stops gave_up (read_segment_p E t).
Proof.
  unfold read_segment_p. cbv zeta. apply st_rbind; [apply st_uint|intros v]. apply st_rbind; [apply st_uint|intros n].
  apply st_rbind; [apply st_uint|intros r]. apply st_rbind; [|intros m; apply stops_ret].
  unfold read_metadata_p. apply st_rbind; [apply st_uint|intros c]. destruct (alloc_ok E AObjects c); [apply st_objs|apply stops_ret].
Qed.
Lemma st_segment_read : stops gave_up (segment_read_p E).
Proof.
  unfold segment_read_p. apply stops_do; [eexists; split; reflexivity|]. intros x.
  destruct x as [tag|x|x|]; try apply stops_ret.
  - destruct (str_eqb tag TDSm); [|apply stops_ret]. apply stops_do; [eexists; split; reflexivity|]. intros y.
    destruct y; try apply stops_ret. apply stops_new. intros z. apply st_segment.
  - destruct x; try apply stops_ret. destruct k; apply stops_ret.
Qed.
(** Opening: a failed seek to the next segment is taken for the end of the file
    (file/mod.rs 66), everything else is reported. *)
Definition open_bad (r : res index) : Prop := gave_up r \/ exists ix, r = Ok ix.
Lemma st_loop : forall fuel ix, stops open_bad (build_loop_p E fuel ix).
Proof.
  induction fuel as [|fuel IH]; intros ix; cbn [build_loop_p]; [apply stops_ret|].
  apply (stops_bind _ _ gave_up); [exact st_segment_read| |].
  - intros x ->. eexists. split; [reflexivity|]. left. reflexivity.
  - intros [s|x|x|]; try apply stops_ret; [|destruct x; apply stops_ret].
    destruct (add_segment E ix s) as [ix' r]. destruct r; try apply stops_ret.
    apply stops_do; [eexists; split; [reflexivity|right; eexists; reflexivity]|].
    intros [y|y|y|]; [apply IH|apply stops_ret|apply stops_ret|apply stops_ret].
Qed.
Lemma st_build fuel : stops open_bad (build_index_p E fuel).
Proof.
  unfold build_index_p. apply stops_do; [eexists; split; [reflexivity|left; reflexivity]|].
  intros [x|x|x|]; try apply stops_ret. apply st_loop.
Qed.

Section Blocks.
Context (t : sty) (e : endian).
Local Notation V := (carrier t).
Lemma st_move d : stops gave_up (move_p d).
Proof. unfold move_p. apply stops_do; [eexists; split; reflexivity|]. intros x. apply stops_ret. Qed.
Lemma st_open start : stops gave_up (open_at_p start).
Proof.
  unfold open_at_p. apply stops_new. intros _. apply stops_do; [eexists; split; reflexivity|]. intros x. apply stops_ret.
Qed.
Lemma st_vals : forall n, stops snd_gave_up (read_vals_p E t e n).
Proof.
  induction n as [|n IH]; cbn [read_vals_p]; [apply stops_ret|].
  apply (stops_bind _ _ gave_up); [apply st_dec| |].
  - intros x ->. eexists. split; reflexivity.
  - intros [v|x|x|]; try apply stops_ret. apply (stops_bind _ _ snd_gave_up); [exact IH| |].
    + intros [vs r] G. eexists. split; [reflexivity|exact G].
    + intros y. apply stops_ret.
Qed.
Lemma st_seq room samples : stops snd_gave_up (read_seq_p E t e room samples).
Proof.
  unfold read_seq_p. cbv zeta. apply (stops_bind _ _ snd_gave_up); [apply st_vals| |].
  - intros [vs r] G. cbn [snd_gave_up snd] in G. unfold snd_gave_up, gave_up in G. cbn [snd] in G. subst r. eexists. split; reflexivity.
  - intros [vs r]. destruct r; try apply stops_ret. destruct (0 <? _); [|apply stops_ret].
    destruct (imul E _ _); try apply stops_ret. apply (stops_bind _ _ gave_up); [apply st_move| |].
    + intros x ->. eexists. split; reflexivity.
    + intros y. apply stops_ret.
Qed.
Lemma st_entry x : stops snd_gave_up (read_entry_p E t e x).
Proof.
  unfold read_entry_p. destruct (en_plan x) as [b|oid got room skip]; cbv zeta.
  - destruct (imul E b _); try apply stops_ret. apply (stops_bind _ _ gave_up); [apply st_move| |].
    + intros y ->. eexists. split; reflexivity.
    + intros y. apply stops_ret.
  - apply (stops_bind _ _ gave_up).
    + destruct (0 <? _); [|apply stops_ret]. destruct (imul E _ _); try apply stops_ret. apply st_move.
    + intros y ->. eexists. split; reflexivity.
    + intros [y|y|y|]; try apply stops_ret. apply (stops_bind _ _ snd_gave_up); [apply st_seq| |].
      * intros [vs r] G. unfold snd_gave_up, gave_up in G. cbn [snd] in G. subst r. eexists. split; reflexivity.
      * intros z. apply stops_ret.
Qed.
Lemma st_sub : forall es len, stops snd_gave_up (read_sub_block_p E t e es len).
Proof.
  induction es as [|x r IH]; intros len; cbn [read_sub_block_p]; [apply stops_ret|].
  apply (stops_bind _ _ snd_gave_up); [apply st_entry| |].
  - intros [x' y] G. unfold snd_gave_up, gave_up in G. cbn [snd] in G. subst y. eexists. split; reflexivity.
  - intros [x' [l|y|y|]]; try apply stops_ret. apply (stops_bind _ _ snd_gave_up); [apply IH| |].
    + intros [r' y] G. eexists. split; [reflexivity|exact G].
    + intros z. apply stops_ret.
Qed.
Lemma st_contig step : forall n idx es len, stops snd_gave_up (contig_loop_p E t e step n idx es len).
Proof.
  induction n as [|n IH]; intros idx es len; cbn [contig_loop_p]; [apply stops_ret|].
  destruct (step idx es) as [es1|].
  - apply (stops_bind _ _ snd_gave_up); [apply st_sub| |].
    + intros [es2 y] G. unfold snd_gave_up, gave_up in G. cbn [snd] in G. subst y. eexists. split; reflexivity.
    + intros [es2 [l|y|y|]]; try apply stops_ret. apply IH.
  - destruct (block_size E t es); try apply stops_ret. apply (stops_bind _ _ gave_up); [apply st_move| |].
    + intros y ->. eexists. split; reflexivity.
    + intros [y|y|y|]; try apply stops_ret. apply IH.
Qed.
Lemma st_from start blen es s : stops snd_gave_up (contig_read_from_p E t e start blen es s).
Proof.
  unfold contig_read_from_p. apply (stops_bind _ _ gave_up); [apply st_open| |].
  - intros x ->. eexists. split; reflexivity.
  - intros x. destruct (bind _ _) as [[[total q] rm]|y|y|]; try apply stops_ret. apply st_contig.
Qed.
Lemma st_skips start blen es skips : stops snd_gave_up (contig_read_skips_p E t e start blen es skips).
Proof.
  unfold contig_read_skips_p. apply (stops_bind _ _ gave_up); [apply st_open| |].
  - intros x ->. eexists. split; reflexivity.
  - intros x. destruct (bind _ _) as [[total l]|y|y|]; try apply stops_ret. apply st_contig.
Qed.
Lemma st_row row : forall es any, stops snd_gave_up (inter_row_p E t e row es any).
Proof.
  assert (K : forall p (x : entry V), stops snd_gave_up p ->
    stops snd_gave_up (pbind p (fun z : list (entry V) * res bool => Ret (x :: fst z, snd z)))).
  { intros p x P. apply (stops_bind _ _ snd_gave_up); [exact P| |].
    - intros [r y] G. eexists. split; [reflexivity|exact G].
    - intros z. apply stops_ret. }
  induction es as [|x r IH]; intros any; cbn [inter_row_p]; [apply stops_ret|].
  destruct (en_plan x) as [b|oid got room skip].
  - apply (stops_bind _ _ gave_up); [apply st_move| |].
    + intros y ->. eexists. split; reflexivity.
    + intros [y|y|y|]; try apply stops_ret. apply K, IH.
  - apply (stops_bind _ _ gave_up); [apply st_dec| |].
    + intros y ->. eexists. split; reflexivity.
    + intros [y|y|y|]; try apply stops_ret. destruct (skip <=? row); [destruct room|]; apply K, IH.
Qed.
Lemma st_rows : forall n row es read, stops snd_gave_up (inter_rows_p E t e n row es read).
Proof.
  induction n as [|n IH]; intros row es read; cbn [inter_rows_p]; [apply stops_ret|].
  apply (stops_bind _ _ snd_gave_up); [apply st_row| |].
  - intros [es' y] G. unfold snd_gave_up, gave_up in G. cbn [snd] in G. subst y. eexists. split; reflexivity.
  - intros [es' [[|]|y|y|]]; try apply stops_ret. apply IH.
Qed.
Lemma st_inter start blen es : stops snd_gave_up (inter_read_p E t e start blen es).
Proof.
  unfold inter_read_p. cbv zeta. apply (stops_bind _ _ gave_up); [apply st_open| |].
  - intros x ->. eexists. split; reflexivity.
  - intros x. destruct (bind _ _) as [[off total]|y|y|]; try apply stops_ret.
    apply (stops_bind _ _ gave_up).
    + destruct off; [apply st_move|apply stops_ret].
    + intros y ->. eexists. split; reflexivity.
    + intros [y|y|y|]; try apply stops_ret. apply st_rows.
Qed.
End Blocks.
Lemma st_outputs t reqs p : stops snd_gave_up p ->
  stops snd_gave_up (pbind p (fun y : list (entry (carrier t)) * res N => Ret (outputs reqs (fst y), snd y))).
Proof.
  intros P. apply (stops_bind _ _ snd_gave_up); [exact P| |].
  - intros [es y] G. eexists. split; [reflexivity|exact G].
  - intros z. apply stops_ret.
Qed.
Lemma st_block t b reqs : stops snd_gave_up (block_read_p E t b reqs).
Proof.
  unfold block_read_p. destruct (build_record_plan t (b_chans b) reqs); try apply stops_ret.
  apply st_outputs. destruct (b_layout b); [apply st_inter|apply st_from].
Qed.
Lemma st_block_skips t b reqs : stops snd_gave_up (block_read_skips_p E t b reqs).
Proof.
  unfold block_read_skips_p. cbv zeta. destruct (build_record_plan t (b_chans b) reqs); try apply stops_ret.
  apply st_outputs. destruct (b_layout b); [apply st_inter|apply st_skips].
Qed.
Lemma st_execute t ix : forall plan prs outs, stops snd_gave_up (execute_p E t ix plan prs outs).
Proof.
  induction plan as [|br rest IH]; intros prs outs; cbn [execute_p]; [apply stops_ret|].
  destruct (get_data_block ix (br_block br)) as [b|]; [|apply stops_ret]. cbv zeta.
  apply (stops_bind _ _ snd_gave_up).
  - destruct (any_skip (br_chans br)); [apply st_block_skips|apply st_block].
  - intros [got y] G. unfold snd_gave_up, gave_up in G. cbn [snd] in G. subst y. eexists. split; reflexivity.
  - intros [got [n|y|y|]]; try apply stops_ret. destruct (forallb _ _); [apply stops_ret|apply IH].
Qed.
Lemma st_channels t ix chans start outs : stops snd_gave_up (read_channels_from_p E t ix chans start outs).
Proof.
  unfold read_channels_from_p. destruct (bind _ _); try apply stops_ret. apply st_execute.
Qed.
Lemma st_channel t ix chan start out : stops snd_gave_up (read_channel_from_p E t ix chan start out).
Proof.
  unfold read_channel_from_p. destruct (get_positions ix chan); [|apply stops_ret].
  destruct (read_plan _ _); try apply stops_ret.
  apply (stops_bind _ _ snd_gave_up); [apply st_execute| |].
  - intros [outs y] G. eexists. split; [reflexivity|exact G].
  - intros z. apply stops_ret.
Qed.
End Stops.

(** ** Opening on a device that may fail *)
Lemma run_prog_bind A B E D cap f (p : prog A) (q : A -> prog B) : forall s,
  run_prog E D cap f (pbind p q) s =
  let '(s1, xs, a) := run_prog E D cap f p s in
  let '(s2, ys, b) := run_prog E D cap f (q a) s1 in (s2, xs ++ ys, b).
Proof.
  induction p as [a|o k IH]; intros s; cbn [pbind run_prog].
  - destruct (run_prog E D cap f (q a) s) as [[s2 ys] b]. reflexivity.
  - destruct (dev_op E D cap f o s) as [s1 x]. rewrite IH. destruct (run_prog E D cap f (k x) s1) as [[s2 xs] a].
    destruct (run_prog E D cap f (q a) s2) as [[s3 ys] b]. reflexivity.
Qed.
Section Opening.
Context (E : env) (D : rdevice) (cap : N) (f : list byte) (Fits : lenN f <= seek_max E).
Definition opened_as (xs : list (res (list byte))) (b pure : res index) : Prop :=
  (b = pure /\ ~ device_failed xs)
  \/ (device_failed xs
      /\ (b = Err (EIo DeviceError)
          \/ ((exists n, rd_seeks D n = false)
              /\ exists ix K, b = Ok ix /\ K <> [] /\ accepted E K ix /\ first_segments E f K))).
Lemma first_snoc K s : first_segments E f K -> segment_read E f (offset K) = Ok s -> first_segments E f (K ++ [s]).
Proof.
  intros F R i x Hi. destruct (Nat.lt_ge_cases i (length K)) as [Hlt|Hge].
  - rewrite nth_error_app1 in Hi by assumption. rewrite firstn_app.
    replace (i - length K)%nat with 0%nat by lia. cbn [firstn]. rewrite app_nil_r. exact (F i x Hi).
  - rewrite nth_error_app2 in Hi by assumption.
    destruct (i - length K)%nat as [|j] eqn:Hj; cbn [nth_error] in Hi; [|destruct j; discriminate].
    injection Hi as <-. replace i with (length K) by lia. rewrite firstn_app, firstn_all, Nat.sub_diag.
    cbn [firstn]. rewrite app_nil_r. exact R.
Qed.
Lemma loop_run : forall fuel ix K s s' xs b,
  accepted E K ix -> first_segments E f K -> is_at E f s (AtRaw (offset K)) -> build_loop E f fuel ix (offset K) <> Diverge ->
  run_prog E D cap f (build_loop_p E fuel ix) s = (s', xs, b) -> opened_as xs b (build_loop E f fuel ix (offset K)).
Proof.
  induction fuel as [|fuel IH]; intros ix K s s' xs b Ac Fs Hat Nd R; [cbn [build_loop] in Nd; congruence|].
  cbn [build_loop_p] in R. rewrite run_prog_bind in R.
  destruct (run_prog E D cap f (segment_read_p E) s) as [[s1 ys] a] eqn:R1.
  destruct (run_prog E D cap f _ s1) as [[s2 zs] b'] eqn:R2 in R. injection R as <- <- <-.
  cbn [build_loop] in *.
  destruct (segment_read_pure E f (offset K)) as [w Pu]; [intros Z; rewrite Z in Nd; congruence|].
  destruct (prog_stops _ E D cap f _ _ Fits (st_segment_read E) s _ _ _ _ _ _ Hat Pu R1) as [(-> & _ & Nf)|(Fl & _ & C)].
  2: { right. split; [apply in_or_app; left; exact Fl|]. left.
       pose proof (stops_cut _ _ _ _ _ (st_segment_read E) _ _ C) as G. unfold gave_up in G. subst a.
       cbn [run_prog recast] in R2. congruence. }
  assert (Fin : forall r, run_prog E D cap f (Ret r) s1 = (s2, zs, b') ->
                b' = r /\ ~ device_failed (ys ++ zs)).
  { intros r Z. cbn [run_prog] in Z. injection Z as _ <- <-. rewrite app_nil_r. split; [reflexivity|exact Nf]. }
  destruct (segment_read E f (offset K)) as [sg|x|x|] eqn:Sr.
  - destruct (add_segment E ix sg) as [ix' r] eqn:Ad. destruct r as [next|x|x|]; cbn [bind recast] in *;
      try (left; apply Fin; exact R2).
    pose proof (acc_snoc E K ix sg ix' next Ac Ad) as Ac'. pose proof (first_snoc K sg Fs Sr) as Fs'.
    assert (On : offset (K ++ [sg]) = next)
      by (destruct (accepted_described _ _ _ Ac') as [_ [<- _]]; exact (add_segment_next _ _ _ _ _ Ad)).
    cbn [run_prog] in R2. destruct (dev_op E D cap f (RawSeek next) s1) as [s3 y] eqn:Sk. cbn [dev_op] in Sk.
    unfold dev_seek in Sk. unfold seek_to in *. destruct (rd_seeks D (rs_calls s1)) eqn:Rs.
    + replace ((0 <=? Z.of_N next) && (Z.of_N next <=? Z.of_N (seek_max E)))%Z with (next <=? seek_max E) in Sk by lia.
      destruct (next <=? seek_max E) eqn:L; injection Sk as <- <-.
      * destruct (run_prog E D cap f (build_loop_p E fuel ix') _) as [[s4 us] c] eqn:R4. injection R2 as <- <- <-.
        assert (Hat' : is_at E f (mkRS (Z.to_N (Z.of_N next)) (S (rs_calls s1)) (rs_buf s1) (rs_at s1)) (AtRaw (offset (K ++ [sg])))).
        { cbn [is_at rs_pos]. rewrite On. lia. }
        rewrite <- On in Nd |- *.
        destruct (IH ix' (K ++ [sg]) _ _ _ _ Ac' Fs' Hat' Nd R4) as [[-> F]|[F Q]].
        -- left. split; [reflexivity|]. intros V. apply in_app_or in V. destruct V as [V|[V|V]]; [exact (Nf V)|discriminate V|exact (F V)].
        -- right. split; [apply in_or_app; right; right; exact F|exact Q].
      * cbn [run_prog] in R2. injection R2 as <- <- <-. left. split; [reflexivity|].
        intros V. apply in_app_or in V. destruct V as [V|[V|[]]]; [exact (Nf V)|discriminate V].
    + injection Sk as <- <-. cbn [run_prog] in R2. injection R2 as <- <- <-. right.
      split; [apply in_or_app; right; left; reflexivity|]. right. split; [exists (rs_calls s1); exact Rs|].
      exists ix', (K ++ [sg]). split; [reflexivity|]. split; [destruct K; discriminate|]. split; [exact Ac'|exact Fs'].
  - left. destruct x; apply Fin; exact R2.
  - left. apply Fin. exact R2.
  - congruence.
Qed.
Lemma open_run s s' xs b : build_index E f <> Diverge ->
  run_prog E D cap f (build_index_p E (S (length f))) s = (s', xs, b) -> opened_as xs b (build_index E f).
Proof.
  intros Nd R. unfold build_index_p in R. cbn [run_prog dev_op] in R. unfold dev_seek in R.
  destruct (rd_seeks D (rs_calls s)) eqn:Rs.
  - replace ((0 <=? Z.of_N 0) && (Z.of_N 0 <=? Z.of_N (seek_max E)))%Z with true in R by lia. cbv zeta iota beta in R.
    destruct (run_prog E D cap f (build_loop_p E (S (length f)) index_new) _) as [[s4 us] c] eqn:R4. injection R as <- <- <-.
    assert (Z0 : offset [] = 0) by reflexivity.
    unfold build_index in *. rewrite <- Z0 in Nd |- *.
    assert (Fs : first_segments E f []) by (intros i x Hi; destruct i; discriminate).
    assert (Hat : is_at E f (mkRS (Z.to_N (Z.of_N 0)) (S (rs_calls s)) (rs_buf s) (rs_at s)) (AtRaw (offset [])))
      by (cbn [is_at rs_pos]; rewrite Z0; lia).
    destruct (loop_run (S (length f)) index_new [] _ _ _ _ (acc_nil E) Fs Hat Nd R4) as [[-> F]|[F Q]].
    + left. split; [reflexivity|]. intros [V|V]; [discriminate V|exact (F V)].
    + right. split; [right; exact F|exact Q].
  - cbn [run_prog] in R. injection R as <- <- <-. right. split; [left; reflexivity|]. left. reflexivity.
Qed.
End Opening.
