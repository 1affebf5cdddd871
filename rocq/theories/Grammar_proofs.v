(** * Reading accepts exactly the grammar *)
From Verif Require Import Base Lib Utf8 DataTypes MetaData SpecCodec SpecGrammar
  Codec_proofs Segment_proofs Parse_proofs.

(** [p] accepts exactly the bytes in relation [R] with the value. *)
Definition exact {A} (p : parser A) (R : A -> list byte -> Prop) : Prop :=
  (forall bs x r, p bs = Ok (x, r) -> exists c, bs = c ++ r /\ R x c)
  /\ (forall x c r, R x c -> p (c ++ r) = Ok (x, r)).

Lemma exact_iff {A} (p : parser A) R R' : exact p R -> (forall x c, R x c <-> R' x c) -> exact p R'.
Proof.
  intros [H1 H2] Q. split.
  - intros bs x r P. destruct (H1 _ _ _ P) as [c [E C]]. exists c. split; [exact E|]. now apply Q.
  - intros x c r C. apply H2. now apply Q.
Qed.
Lemma exact_ext {A} (p q : parser A) R : (forall bs, p bs = q bs) -> exact p R -> exact q R.
Proof.
  intros X [H1 H2]. split.
  - intros bs x r P. rewrite <- X in P. eauto.
  - intros x c r C. rewrite <- X. auto.
Qed.
Lemma exact_ret {A} (x : A) : exact (fun bs => Ok (x, bs)) (fun y c => y = x /\ c = []).
Proof.
  split.
  - intros bs y r H. injection H as <- <-. exists []. auto.
  - intros y c r [-> ->]. reflexivity.
Qed.
Lemma exact_err {A} x : exact (fun _ => @Err (A * list byte) x) (fun _ _ => False).
Proof. split; [discriminate|intros ? ? ? []]. Qed.
Lemma exact_bind {A B} (p : parser A) (q : A -> parser B) R S :
  exact p R -> (forall a, exact (q a) (S a)) ->
  exact (fun bs => '(a, r) <- p bs ;; q a r)
        (fun y c => exists a c1 c2, c = c1 ++ c2 /\ R a c1 /\ S a y c2).
Proof.
  intros [P1 P2] Q. split.
  - intros bs y r H. apply bind_ok in H. destruct H as [[a r1] [Ha Hq]].
    destruct (P1 _ _ _ Ha) as [c1 [-> C1]]. destruct (Q a) as [Q1 _]. destruct (Q1 _ _ _ Hq) as [c2 [-> C2]].
    exists (c1 ++ c2). split; [now rewrite app_assoc|]. eauto 6.
  - intros y c r [a [c1 [c2 [-> [C1 C2]]]]]. rewrite <- app_assoc, (P2 _ _ _ C1). cbn [bind].
    now apply (proj2 (Q a)).
Qed.
Lemma exact_map {A B} (p : parser A) (g : A -> B) R : exact p R ->
  exact (fun bs => '(a, r) <- p bs ;; Ok (g a, r)) (fun y c => exists a, R a c /\ y = g a).
Proof.
  intros P. eapply exact_iff; [apply (exact_bind p (fun a r => Ok (g a, r)) R (fun a y c => y = g a /\ c = []) P); intros a; apply exact_ret|].
  intros y c. split.
  - intros [a [c1 [c2 [-> [C [-> ->]]]]]]. exists a. rewrite app_nil_r. auto.
  - intros [a [C ->]]. exists a, c, []. rewrite app_nil_r. auto.
Qed.
Lemma exact_if {A} (b : bool) (p q : parser A) R S : exact p R -> exact q S ->
  exact (fun bs => if b then p bs else q bs) (fun x c => if b then R x c else S x c).
Proof. destruct b; auto. Qed.

(** ** Numbers *)
Lemma horner_le bs : forall a, fold_left (fun a b => 256 * a + Byte.to_N b) (rev bs) a
  = a * 256 ^ lenN bs + le_val bs.
Proof.
  induction bs as [|b bs IH]; intros a; [cbn [rev fold_left le_val]; change (256 ^ lenN []) with 1; lia|].
  cbn [rev le_val]. rewrite fold_left_app. cbn [fold_left]. rewrite IH.
  replace (lenN (b :: bs)) with (N.succ (lenN bs)) by (unfold lenN; cbn [length]; lia).
  rewrite N.pow_succ_r'. lia.
Qed.
Lemma number_value e w n bs : number e w n bs <-> length bs = w /\ n = uint_val e bs.
Proof.
  unfold number, uint_val. destruct e.
  - assert (H : fold_left (fun a b => 256 * a + Byte.to_N b) bs 0 = le_val (rev bs)).
    { pose proof (horner_le (rev bs) 0) as H. rewrite rev_involutive in H. rewrite H. lia. }
    now rewrite H.
  - rewrite horner_le. split; intros [L ->]; (split; [exact L|lia]).
Qed.
Lemma exact_uint e w : exact (dec_uint e w) (number e w).
Proof.
  split.
  - intros bs n r H. unfold dec_uint in H. bind_inv. apply read_exact_ok in Hb. destruct Hb as [-> Hl].
    exists l. split; [reflexivity|]. apply number_value. split; [unfold lenN in Hl; lia|reflexivity].
  - intros n c r H. apply number_value in H. destruct H as [L ->]. unfold dec_uint.
    rewrite read_exact_app' by (unfold lenN; lia). reflexivity.
Qed.
Lemma uint_lt e w n bs : number e w n bs -> n < 256 ^ N.of_nat w.
Proof. intros H. apply number_value in H. destruct H as [<- ->]. apply uint_val_bound. Qed.
Lemma exact_sint e w : (0 < w)%nat -> exact (dec_sint e w) (signed e w).
Proof.
  intros Hw. unfold dec_sint. eapply exact_iff; [apply exact_map, exact_uint|].
  intros z c. unfold signed. split.
  - intros [n [Hn ->]]. exists n. split; [exact Hn|]. pose proof (uint_lt _ _ _ _ Hn) as B.
    apply number_value in Hn. clear Hn.
    unfold to_signed, in_signed.
    assert (P : (2 ^ (8 * Z.of_nat w) = 2 * 2 ^ (8 * Z.of_nat w - 1))%Z).
    { replace (8 * Z.of_nat w)%Z with (Z.succ (8 * Z.of_nat w - 1)) at 1 by lia. rewrite Z.pow_succ_r by lia. reflexivity. }
    assert (B' : (Z.of_N n < 2 ^ (8 * Z.of_nat w))%Z).
    { apply N2Z.inj_lt in B. rewrite N2Z.inj_pow in B. replace (Z.of_N (N.of_nat w)) with (Z.of_nat w) in B by lia.
      change (Z.of_N 256) with (2 ^ 8)%Z in B. rewrite <- Z.pow_mul_r in B by lia. exact B. }
    assert (C : n <? 2 ^ (8 * N.of_nat w - 1) = (Z.of_N n <? 2 ^ (8 * Z.of_nat w - 1))%Z).
    { assert (X : Z.of_N (2 ^ (8 * N.of_nat w - 1)) = (2 ^ (8 * Z.of_nat w - 1))%Z).
      { rewrite N2Z.inj_pow. f_equal. lia. }
      rewrite <- X. destruct (n <? 2 ^ (8 * N.of_nat w - 1)) eqn:Q; symmetry; [apply Z.ltb_lt|apply Z.ltb_ge]; lia. }
    rewrite C. destruct (Z.of_N n <? 2 ^ (8 * Z.of_nat w - 1))%Z eqn:D.
    + apply Z.ltb_lt in D. split; [lia|]. rewrite Z.mod_small by lia. reflexivity.
    + apply Z.ltb_ge in D. split; [lia|]. replace (Z.of_N n - 2 ^ (8 * Z.of_nat w))%Z
        with (Z.of_N n + (-1) * 2 ^ (8 * Z.of_nat w))%Z by lia.
      rewrite Z.mod_add by lia. rewrite Z.mod_small by lia. reflexivity.
  - intros [n [Hn [B M]]]. exists n. split; [exact Hn|].
    rewrite <- (proj1 (to_of_signed w z Hw B)) at 1. unfold of_signed. rewrite M. now rewrite N2Z.id.
Qed.
Lemma exact_ext_float e : exact (dec_ext e) (number e 10).
Proof.
  assert (Z : forall b, le_val (b ++ repeat x00 6) = le_val b).
  { induction b as [|x b IH]; [reflexivity|]. cbn [app le_val]. now rewrite IH. }
  assert (Y : forall b, le_val (rev (repeat x00 6 ++ b)) = le_val (rev b)).
  { intros b. rewrite rev_app_distr. apply Z. }
  split.
  - intros bs n r H. unfold dec_ext in H. bind_inv. apply read_exact_ok in Hb. destruct Hb as [-> Hl].
    exists l. split; [reflexivity|]. apply number_value. split; [unfold lenN in Hl; lia|].
    destruct e; unfold uint_val; [apply Y|apply Z].
  - intros n c r H. apply number_value in H. destruct H as [L ->]. unfold dec_ext.
    rewrite read_exact_app' by (unfold lenN; lia). cbn [bind]. do 2 f_equal.
    destruct e; unfold uint_val; [apply Y|apply Z].
Qed.
Lemma exact_bool : exact dec_bool (fun v c => exists b, c = [b] /\ (v = true <-> b <> x00)).
Proof.
  assert (Q : forall b, negb (le_val [b] =? 0) = true <-> b <> x00).
  { intros b. cbn [le_val]. destruct b; vm_compute; split; congruence. }
  split.
  - intros bs v r H. unfold dec_bool in H. bind_inv. apply read_exact_ok in Hb. destruct Hb as [-> Hl].
    destruct l as [|b [|c l]]; unfold lenN in Hl; cbn [length] in Hl; try lia. exists [b]. split; [reflexivity|].
    exists b. split; [reflexivity|]. apply Q.
  - intros v c r [b [-> V]]. unfold dec_bool. rewrite (read_exact_app' 1 [b] r) by reflexivity.
    cbn [bind]. do 2 f_equal. destruct v, (negb (le_val [b] =? 0)) eqn:K; try reflexivity.
    + exfalso. assert (X : b <> x00) by now apply V. apply Q in X. congruence.
    + exfalso. assert (X : b <> x00) by now apply Q. apply V in X. congruence.
Qed.
Lemma exact_complex e w : exact (dec_complex e w)
  (fun v c => exists a b, c = a ++ b /\ number e w (fst v) a /\ number e w (snd v) b).
Proof.
  unfold dec_complex. eapply exact_iff.
  - apply (exact_bind (dec_uint e w) (fun re r => '(im, r') <- dec_uint e w r ;; Ok ((re, im), r'))); [apply exact_uint|].
    intros re. apply (exact_map (dec_uint e w) (fun im => (re, im))). apply exact_uint.
  - intros [re im] c. cbn [fst snd]. split.
    + intros [a [c1 [c2 [-> [H1 [i [H2 X]]]]]]]. injection X as -> ->. eauto.
    + intros [a [b [-> [H1 H2]]]]. exists re, a, b. eauto.
Qed.
Lemma exact_text E e : exact (dec E e SStr) (text E e).
Proof.
  assert (Nm : forall l n, number e 4 n l <-> n < 2 ^ 32 /\ l = enc_uint e 4 n).
  { intros l n. split.
    - intros H. pose proof (uint_lt _ _ _ _ H) as B. apply number_value in H. destruct H as [L ->].
      split; [exact B|]. unfold enc_uint. rewrite <- L. symmetry. apply uint_bytes_val.
    - intros [B ->]. destruct (exact_uint e 4) as [X _].
      destruct (X _ _ [] (dec_uint_app e 4 n [] B)) as [c [Q C]]. rewrite !app_nil_r in Q. now subst c. }
  split.
  - intros bs s r H. apply dec_str_iff in H. destruct H as [L [-> [A U]]].
    exists (enc_uint e 4 (lenN s) ++ s). split; [now rewrite <- app_assoc|].
    exists (enc_uint e 4 (lenN s)). split; [reflexivity|]. split; [|auto]. apply Nm. auto.
  - intros s c r [l [-> [Hn [U A]]]]. apply Nm in Hn. destruct Hn as [L ->]. rewrite <- app_assoc.
    apply dec_str_iff. auto.
Qed.

(** ** Types and properties *)
Lemma exact_dtype e : exact (read_dtype e) (type_code e).
Proof.
  unfold read_dtype, type_code.
  eapply exact_iff.
  - apply (exact_bind (dec_uint e 4) (fun c r => match dtype_of_code c with Some t => Ok (t, r) | None => Err (EUnknownPropertyType c) end)
             (number e 4) (fun c t d => dtype_of_code c = Some t /\ d = [])); [apply exact_uint|].
    intros c. destruct (dtype_of_code c) as [t|].
    + eapply exact_iff; [apply exact_ret|]. intros y d. split; intros [X ->]; split; congruence || reflexivity.
    + eapply exact_iff; [apply exact_err|]. intros y d. split; [intros []|intros [X _]; discriminate].
  - intros t c. split.
    + intros [n [c1 [c2 [-> [H [D ->]]]]]]. rewrite app_nil_r. apply dtype_to_of in D. now rewrite D.
    + intros H. exists (dtype_code t), c, []. rewrite app_nil_r. repeat split; try apply H. apply dtype_of_to.
Qed.

Lemma exact_as {A} (p : parser A) (g : A -> pval) R : exact p R ->
  exact (read_as p g) (fun v c => exists a, R a c /\ v = g a).
Proof. intros H. unfold read_as. now apply exact_map. Qed.

(** A value, given its type. *)
Lemma exact_value E e t : exact (fun r =>
  match t with
  | Void => Ok (PVoid, r)
  | Boolean => read_as (dec E e SBool) PBoolean r
  | I8 => read_as (dec E e SI8) PI8 r
  | I16 => read_as (dec E e SI16) PI16 r
  | I32 => read_as (dec E e SI32) PI32 r
  | I64 => read_as (dec E e SI64) PI64 r
  | U8 => read_as (dec E e SU8) PU8 r
  | U16 => read_as (dec E e SU16) PU16 r
  | U32 => read_as (dec E e SU32) PU32 r
  | U64 => read_as (dec E e SU64) PU64 r
  | SingleFloat | SingleFloatWithUnit => read_as (dec E e SF32) PSingle r
  | DoubleFloat | DoubleFloatWithUnit => read_as (dec E e SF64) PDouble r
  | ExtendedFloat | ExtendedFloatWithUnit => read_as (dec E e SExt) PExtended r
  | ComplexSingleFloat => read_as (dec E e SC32) PComplexSingle r
  | ComplexDoubleFloat => read_as (dec E e SC64) PComplexDouble r
  | TdmsString => read_as (dec E e SStr) PString r
  | Timestamp => read_as (dec E e STime) PTimestamp r
  | FixedPoint | DAQmxRawData => Err (EUnsupportedType t)
  end) (fun v c => has_type v t /\ value_bytes E e v c).
Proof.
  destruct t;
  match goal with
  | |- exact (fun r => Ok (PVoid, r)) _ =>
      eapply exact_iff; [apply exact_ret|]; intros v c; split;
        [intros [-> ->]; split; reflexivity
        |destruct v; cbn [has_type pval_dtype value_bytes]; intros [X Y]; try discriminate; try (destruct X as [X|X]; try discriminate); auto]
  | |- exact (fun r => Err _) _ =>
      eapply exact_iff; [apply exact_err|]; intros v c; split;
        [intros []|destruct v; cbn [has_type pval_dtype]; intros [X Y]; try discriminate; destruct X; discriminate]
  | |- exact (fun r => read_as ?p ?g r) _ =>
      eapply exact_iff;
        [apply (exact_as p g); cbn [dec];
         first [apply exact_bool|apply (exact_text E e)|apply exact_ext_float|apply exact_complex
               |apply exact_sint; apply Nat.lt_0_succ|apply exact_uint]
        |intros v c; split;
          [intros [a [X ->]]; cbn [has_type value_bytes pval_dtype]; split; [auto|];
           try (destruct a); exact X
          |destruct v; cbn [has_type pval_dtype value_bytes]; intros [X Y]; try discriminate; try (destruct X as [X|X]; try discriminate);
           eexists; (split; [|reflexivity]); try match goal with q : (N * N)%type |- _ => destruct q end; exact Y]]
  end.
Qed.

Lemma exact_pval E e : exact (read_pval E e)
  (fun v c => exists t c1 c2, c = c1 ++ c2 /\ type_code e t c1 /\ has_type v t /\ value_bytes E e v c2).
Proof.
  unfold read_pval. apply (exact_bind (read_dtype e)); [apply exact_dtype|]. intros t. apply exact_value.
Qed.

Lemma exact_property E e : exact (fun bs =>
  '(name, r1) <- dec E e SStr bs ;; '(v, r2) <- read_pval E e r1 ;; Ok ((name, v), r2)) (property E e).
Proof.
  eapply exact_iff.
  - apply (exact_bind (dec E e SStr) (fun name r1 => '(v, r2) <- read_pval E e r1 ;; Ok ((name, v), r2))); [apply exact_text|].
    intros name. apply (exact_map (read_pval E e) (fun v => (name, v))). apply exact_pval.
  - intros [name v] c. unfold property. cbn [fst snd]. split.
    + intros [a [n [c2 [-> [Hn [v' [[t [c3 [d [-> [Ht [Hh Hv]]]]]] X]]]]]]]. injection X as -> ->.
      exists n, c3, d, t. auto.
    + intros [n [c3 [d [t [-> [Hn [Ht [Hh Hv]]]]]]]]. exists name, n, (c3 ++ d). split; [reflexivity|]. split; [exact Hn|].
      exists v. split; [|reflexivity]. exists t, c3, d. auto.
Qed.

(** ** The raw data index *)
Lemma exact_rawidx e : exact (read_rawidx e) (raw_index e).
Proof.
  unfold read_rawidx. eapply exact_iff.
  - apply (exact_bind (dec_uint e 4)
      (fun i r => if i =? 0 then Ok (RIMatch, r)
        else if i =? 4294967295 then Ok (RINone, r)
        else if (1762787328 <=? i) && (i <=? 1762852863) then Err EDaqmxChannelsNotSupported
        else if (1762852864 <=? i) && (i <=? 1762918399) then Err EDaqmxChannelsNotSupported
        else '(t, r1) <- read_dtype e r ;; '(_, r2) <- dec_uint e 4 r1 ;; '(n, r3) <- dec_uint e 8 r2 ;;
             Ok (RIRaw (mkRaw t n None), r3)) (number e 4)
      (fun i x c => if i =? 0 then x = RIMatch /\ c = []
        else if i =? 4294967295 then x = RINone /\ c = []
        else if (1762787328 <=? i) && (i <=? 1762852863) then False
        else if (1762852864 <=? i) && (i <=? 1762918399) then False
        else exists t c1 c2, c = c1 ++ c2 /\ type_code e t c1 /\
             exists z d n, c2 = d ++ n /\ number e 4 z d /\ exists k, number e 8 k n /\ x = RIRaw (mkRaw t k None))); [apply exact_uint|].
    intros i. destruct (i =? 0); [apply exact_ret|]. destruct (i =? 4294967295); [apply exact_ret|].
    destruct ((1762787328 <=? i) && (i <=? 1762852863)); [apply exact_err|].
    destruct ((1762852864 <=? i) && (i <=? 1762918399)); [apply exact_err|].
    apply (exact_bind (read_dtype e) (fun t r1 => '(_, r2) <- dec_uint e 4 r1 ;; '(n, r3) <- dec_uint e 8 r2 ;;
             Ok (RIRaw (mkRaw t n None), r3))); [apply exact_dtype|]. intros t.
    apply (exact_bind (dec_uint e 4) (fun _ r2 => '(n, r3) <- dec_uint e 8 r2 ;; Ok (RIRaw (mkRaw t n None), r3))); [apply exact_uint|].
    intros _. apply (exact_map (dec_uint e 8) (fun n => RIRaw (mkRaw t n None))). apply exact_uint.
  - intros x c. change (2 ^ 32 - 1) with 4294967295. split.
    + intros [i [c1 [c2 [-> [Hi Q]]]]]. destruct (i =? 0) eqn:K0.
      { destruct Q as [-> ->]. rewrite app_nil_r. replace i with 0 in Hi by lia. exact Hi. }
      destruct (i =? 4294967295) eqn:K1.
      { destruct Q as [-> ->]. rewrite app_nil_r. replace i with 4294967295 in Hi by lia. exact Hi. }
      destruct ((1762787328 <=? i) && (i <=? 1762852863)) eqn:K2; [contradiction|].
      destruct ((1762852864 <=? i) && (i <=? 1762918399)) eqn:K3; [contradiction|].
      destruct Q as [t [d1 [d2 [-> [Ht [z [d [n [-> [Hz [k [Hk ->]]]]]]]]]]]].
      cbn [raw_index rm_type rm_n rm_total]. exists i, c1, d1, d, n.
      change (2 ^ 32 - 1) with 4294967295. change (2 ^ 16) with 65536.
      pose proof (N.div_mod i 65536). pose proof (N.mod_lt i 65536).
      apply number_value in Hz. destruct Hz as [Hz _].
      split; [reflexivity|]. split; [exact Hi|]. split; [lia|]. split; [lia|]. split; [lia|]. split; [lia|].
      split; [exact Ht|]. auto.
    + destruct x as [| |m]; cbn [raw_index].
      * intros H. exists 4294967295, c, []. rewrite app_nil_r. change (2 ^ 32 - 1) with 4294967295 in H.
        split; [reflexivity|]. split; [exact H|]. split; reflexivity.
      * intros H. exists 0, c, []. rewrite app_nil_r.
        split; [reflexivity|]. split; [exact H|]. split; reflexivity.
      * intros [k [l [c1 [d [n [-> [Hk [K0 [K1 [K2 [K3 [Ht [Hd [Hn Ho]]]]]]]]]]]]]].
        change (2 ^ 32 - 1) with 4294967295 in K1. change (2 ^ 16) with 65536 in *.
        pose proof (N.div_mod k 65536). pose proof (N.mod_lt k 65536).
        exists k, l, (c1 ++ d ++ n). split; [reflexivity|]. split; [exact Hk|].
        replace (k =? 0) with false by lia. replace (k =? 4294967295) with false by lia.
        replace ((1762787328 <=? k) && (k <=? 1762852863)) with false by lia.
        replace ((1762852864 <=? k) && (k <=? 1762918399)) with false by lia.
        exists (rm_type m), c1, (d ++ n). split; [reflexivity|]. split; [exact Ht|].
        exists (uint_val e d), d, n. split; [reflexivity|]. split; [apply number_value; auto|].
        exists (rm_n m). split; [exact Hn|]. destruct m as [mt mn mo]. cbn [rm_total rm_type rm_n] in *. now subst.
Qed.

(** ** Lists *)
Lemma exact_loop {A} (item : parser A) k R : 0 < k -> good k item -> exact item R -> forall count,
  exact (fun bs => loop item (S (length bs)) count bs) (fun xs c => lenN xs = count /\ items R xs c).
Proof.
  intros Hk G X. apply N.peano_ind.
  - apply (exact_ext (fun bs => Ok ([], bs))); [reflexivity|].
    eapply exact_iff; [apply exact_ret|]. intros xs c. split.
    + intros [-> ->]. split; [reflexivity|]. exists []. split; [reflexivity|constructor].
    + intros [L [ps [-> F]]]. destruct xs; [|unfold lenN in L; cbn [length] in L; lia]. inversion F. auto.
  - intros n IH.
    apply (exact_ext (fun bs => '(x, r1) <- item bs ;; '(rest, r2) <- loop item (S (length r1)) n r1 ;; Ok (x :: rest, r2))).
    + intros bs. cbn [loop]. replace (N.succ n =? 0) with false by lia. rewrite N.pred_succ.
      destruct (item bs) as [[x r]| | |] eqn:P; cbn [bind]; try reflexivity.
      pose proof (good_shorter _ _ _ _ _ G P) as Hl. unfold lenN in Hl.
      rewrite (loop_fuel item k Hk G (length bs) (S (length r)) n r) by lia. reflexivity.
    + eapply exact_iff.
      * apply (exact_bind item (fun x r1 => '(rest, r2) <- loop item (S (length r1)) n r1 ;; Ok (x :: rest, r2))); [exact X|].
        intros x. apply (exact_map (fun r1 => loop item (S (length r1)) n r1) (fun rest => x :: rest)). exact IH.
      * intros xs c. split.
        -- intros [x [c1 [c2 [-> [H1 [rest [[L [ps [-> F]]] ->]]]]]]]. split.
           ++ unfold lenN in *. cbn [length]. lia.
           ++ exists (c1 :: ps). split; [reflexivity|]. now constructor.
        -- intros [L [ps [-> F]]]. destruct F as [|x c1 xs ps H1 F]; [unfold lenN in L; cbn [length] in L; lia|].
           exists x, c1, (concat ps). split; [reflexivity|]. split; [exact H1|]. exists xs. split; [|reflexivity].
           split; [unfold lenN in *; cbn [length] in L; lia|]. exists ps. auto.
Qed.

Lemma exact_object E e : exact (read_obj E e) (object_bytes E e).
Proof.
  unfold read_obj. eapply exact_iff.
  - apply (exact_bind (dec E e SStr) (fun path r1 => '(idx, r2) <- read_rawidx e r1 ;; '(count, r3) <- dec_uint e 4 r2 ;;
      if alloc_ok E AProps count then '(props, r4) <- read_props E e (S (length r3)) count r3 ;; Ok (mkObj path props idx, r4)
      else Err EPropertyTableAllocationFailed)); [apply exact_text|]. intros path.
    apply (exact_bind (read_rawidx e) (fun idx r2 => '(count, r3) <- dec_uint e 4 r2 ;;
      if alloc_ok E AProps count then '(props, r4) <- read_props E e (S (length r3)) count r3 ;; Ok (mkObj path props idx, r4)
      else Err EPropertyTableAllocationFailed)); [apply exact_rawidx|]. intros idx.
    apply (exact_bind (dec_uint e 4) (fun count r3 =>
      if alloc_ok E AProps count then '(props, r4) <- read_props E e (S (length r3)) count r3 ;; Ok (mkObj path props idx, r4)
      else Err EPropertyTableAllocationFailed)); [apply exact_uint|]. intros count.
    apply (exact_if (alloc_ok E AProps count) (fun r3 => '(props, r4) <- read_props E e (S (length r3)) count r3 ;; Ok (mkObj path props idx, r4))
      (fun _ => Err EPropertyTableAllocationFailed)); [|apply exact_err].
    apply (exact_map (fun r3 => read_props E e (S (length r3)) count r3) (fun props => mkObj path props idx)).
    eapply exact_ext; [intros bs; symmetry; apply read_props_loop|].
    eapply exact_loop; [|apply good_read_prop|apply exact_property]. lia.
  - intros [path props idx] c. unfold object_bytes. cbn [om_path om_props om_idx]. split.
    + intros [p0 [p [c1 [-> [Hp [i0 [i [c2 [-> [Hi [k [n [q [-> [Hn Q]]]]]]]]]]]]]]].
      destruct (alloc_ok E AProps k) eqn:Al; [|contradiction]. destruct Q as [pr [[L It] X]]. injection X as -> -> ->.
      exists p, i, n, q. rewrite L. auto 8.
    + intros [p [i [n [q [-> [Hp [Hi [Hn [Al It]]]]]]]]]. exists path, p, (i ++ n ++ q). split; [reflexivity|]. split; [exact Hp|].
      exists idx, i, (n ++ q). split; [reflexivity|]. split; [exact Hi|].
      exists (lenN props), n, q. split; [reflexivity|]. split; [exact Hn|]. rewrite Al. exists props. auto.
Qed.

Lemma exact_metadata E e : exact (read_metadata E e) (metadata_bytes E e).
Proof.
  unfold read_metadata. eapply exact_iff.
  - apply (exact_bind (dec_uint e 4) (fun count r => if alloc_ok E AObjects count then read_objs E e (S (length r)) count r
      else Err EVecAllocationFailed)); [apply exact_uint|]. intros count.
    apply (exact_if (alloc_ok E AObjects count) (fun r => read_objs E e (S (length r)) count r) (fun _ => Err EVecAllocationFailed));
      [|apply exact_err].
    eapply exact_ext; [intros bs; symmetry; apply read_objs_loop|].
    eapply exact_loop; [|apply good_read_obj|apply exact_object]. lia.
  - intros os c. unfold metadata_bytes. split.
    + intros [k [n [q [-> [Hn Q]]]]]. destruct (alloc_ok E AObjects k) eqn:Al; [|contradiction]. destruct Q as [L It].
      exists n, q. rewrite L. auto.
    + intros [n [q [-> [Hn [Al It]]]]]. exists (lenN os), n, q. rewrite Al. auto 6.
Qed.

(** ** Segments *)
Lemma flags_eq w : toc_of_u32 w = flags w.
Proof. unfold toc_of_u32, flags. now rewrite !mask_bit_testbit. Qed.

Lemma exact_segment E t : exact (read_segment E t) (fun s c =>
  let e := if toc_big t then BigE else LittleE in
  exists v n r m os, c = v ++ n ++ r ++ m /\ length v = 4%nat /\ number e 8 (sg_next s) n /\ number e 8 (sg_raw s) r
    /\ s = mkSeg t (sg_next s) (sg_raw s) (Some os) /\ metadata_bytes E e os m).
Proof.
  unfold read_segment. fold (toc_endian t). eapply exact_iff.
  - apply (exact_bind (dec_uint (toc_endian t) 4) (fun _ r1 => '(next, r2) <- dec_uint (toc_endian t) 8 r1 ;;
      '(raw, r3) <- dec_uint (toc_endian t) 8 r2 ;; '(m, r4) <- read_metadata E (toc_endian t) r3 ;;
      Ok (mkSeg t next raw (Some m), r4))); [apply exact_uint|]. intros z.
    apply (exact_bind (dec_uint (toc_endian t) 8) (fun next r2 =>
      '(raw, r3) <- dec_uint (toc_endian t) 8 r2 ;; '(m, r4) <- read_metadata E (toc_endian t) r3 ;;
      Ok (mkSeg t next raw (Some m), r4))); [apply exact_uint|]. intros next.
    apply (exact_bind (dec_uint (toc_endian t) 8) (fun raw r3 => '(m, r4) <- read_metadata E (toc_endian t) r3 ;;
      Ok (mkSeg t next raw (Some m), r4))); [apply exact_uint|]. intros raw.
    apply (exact_map (read_metadata E (toc_endian t)) (fun m => mkSeg t next raw (Some m))). apply exact_metadata.
  - intros s c. cbv zeta. unfold toc_endian. split.
    + intros [z [v [c1 [-> [Hv [next [n [c2 [-> [Hn [raw [r [m [-> [Hr [os [Hm ->]]]]]]]]]]]]]]]]].
      apply number_value in Hv. destruct Hv as [Hv _]. exists v, n, r, m, os. cbn [sg_next sg_raw]. auto 8.
    + intros [v [n [r [m [os [-> [Hv [Hn [Hr [Hs Hm]]]]]]]]]].
      exists (uint_val (if toc_big t then BigE else LittleE) v), v, (n ++ r ++ m). split; [reflexivity|].
      split; [apply number_value; auto|]. exists (sg_next s), n, (r ++ m). split; [reflexivity|]. split; [exact Hn|].
      exists (sg_raw s), r, m. split; [reflexivity|]. split; [exact Hr|]. exists os. auto.
Qed.

Lemma exact_tagless E : exact (after_tag E) (fun s c => segment_bytes E s (TDSm ++ c)).
Proof.
  assert (X : exact (read_exact 4) (fun v c => v = c /\ length c = 4%nat)).
  { split.
    - intros bs v r H. apply read_exact_ok in H. destruct H as [-> L]. exists v. unfold lenN in L. split; [reflexivity|]. split; [reflexivity|lia].
    - intros v c r [-> L]. apply read_exact_app'. unfold lenN. lia. }
  unfold after_tag. eapply exact_iff.
  - apply (exact_bind (read_exact 4) (fun tocb r2 => read_segment E (toc_of_u32 (le_val tocb)) r2)); [exact X|].
    intros tocb. apply exact_segment.
  - intros s c. unfold segment_bytes. change [x54; x44; x53; x6d] with TDSm. cbv zeta. split.
    + intros [a [t [c1 [-> [[-> L] [v [n [r [m [os [-> [Hv [Hn [Hr [Hs Hm]]]]]]]]]]]]]]].
      assert (T : sg_toc s = toc_of_u32 (le_val t)) by (rewrite Hs; reflexivity).
      rewrite T. exists (le_val t), t, v, n, r, m, os. split; [reflexivity|].
      split; [apply number_value; split; [exact L|reflexivity]|]. split; [apply flags_eq|]. split; [exact Hv|].
      split; [exact Hn|]. split; [exact Hr|]. split; [rewrite Hs; reflexivity|exact Hm].
    + intros [w [t [v [n [r [m [os [Ec [Hw [T [Hv [Hn [Hr [Ho Hm]]]]]]]]]]]]]]. apply app_inv_head in Ec. subst c.
      apply number_value in Hw. destruct Hw as [L ->]. exists t, t, (v ++ n ++ r ++ m). split; [reflexivity|].
      split; [auto|]. exists v, n, r, m, os.
      assert (T' : toc_of_u32 (le_val t) = sg_toc s) by (rewrite T; apply flags_eq).
      rewrite T'. split; [reflexivity|]. split; [exact Hv|]. split; [exact Hn|]. split; [exact Hr|]. split; [|exact Hm].
      destruct s as [st sn sr sm]. cbn [sg_toc sg_next sg_raw sg_meta] in *. now subst sm.
Qed.

Theorem segment_grammar E f pos s : segment_read E f pos = Ok s <->
  exists pre bs rest, f = pre ++ bs ++ rest /\ lenN pre = pos /\ segment_bytes E s bs.
Proof.
  destruct (exact_tagless E) as [X1 X2]. split.
  - intros H. pose proof (segment_read_ok _ _ _ _ H) as [c [D [K [L [A _]]]]].
    destruct (X1 _ _ _ (A [])) as [c' [Q C]]. rewrite !app_nil_r in Q. subst c'.
    exists (firstn (N.to_nat pos) f), (TDSm ++ c), (dropN (pos + 4 + lenN c) f). split; [|split; [|exact C]].
    + rewrite <- app_assoc, <- D. rewrite dropN_skipn. symmetry. apply firstn_skipn.
    + unfold lenN in *. rewrite firstn_length. lia.
  - intros [pre [bs [rest [-> [<- C]]]]].
    assert (S0 : exists c, bs = TDSm ++ c) by (destruct C as [w [t [v [n [r [m [os [-> _]]]]]]]]; eexists; reflexivity).
    destruct S0 as [c ->]. rewrite segment_read_eq, dropN_app_exact, <- app_assoc. change 4 with (lenN TDSm).
    rewrite read_exact_app, str_eqb_refl, (X2 s c rest C). reflexivity.
Qed.

(** Cut anywhere after the tag, the bytes end too early. *)
Theorem segment_cut E s pre b1 b2 : segment_bytes E s (b1 ++ b2) -> b2 <> [] ->
  segment_read E (pre ++ b1) (lenN pre)
  = if lenN b1 <? 4 then Err EEndOfFile else Err (EIo UnexpectedEof).
Proof.
  intros C Hb. destruct (lenN b1 <? 4) eqn:K.
  - apply segment_read_eof. rewrite lenN_app. lia.
  - assert (S0 : exists c, b1 = TDSm ++ c).
    { destruct C as [w [t [v [n [r [m [os [Q _]]]]]]]]. unfold lenN in K.
      destruct b1 as [|y1 [|y2 [|y3 [|y4 b1]]]]; cbn [length] in K; try lia.
      exists b1. cbn [app] in Q. now injection Q as -> -> -> -> _. }
    destruct S0 as [c ->]. rewrite segment_read_eq, dropN_app_exact. change 4 with (lenN TDSm).
    rewrite read_exact_app, str_eqb_refl.
    destruct (exact_tagless E) as [_ X2]. rewrite <- app_assoc in C.
    pose proof (X2 s (c ++ b2) [] C) as A. rewrite app_nil_r in A.
    destruct (good_after_tag E (c ++ b2)) as [_ G].
    destruct (G _ _ A) as [c' [Q [_ [_ T]]]]. rewrite app_nil_r in Q. subst c'.
    rewrite (T c b2 eq_refl Hb). reflexivity.
Qed.
