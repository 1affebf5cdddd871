(** * Parsers never panic or diverge, consume a definite prefix, do not look
      beyond it, and report end of file on any strict prefix of it *)
From Verif Require Import Base Lib Utf8 DataTypes MetaData Codec_proofs.

(** Neither a panic nor fuel exhaustion. *)
Definition fine {A} (r : res A) : Prop :=
  match r with Ok _ | Err _ => True | _ => False end.

(** Neither of these, and not the error that ends the scan of a file. *)
Definition sound {A} (r : res A) : Prop :=
  match r with Ok _ => True | Err e => e <> EEndOfFile | _ => False end.

Definition EOF {A} : res A := Err (EIo UnexpectedEof).

(** [k]: least number of bytes consumed. *)
Definition good {A} (k : N) (p : parser A) : Prop := forall bs,
  sound (p bs) /\
  forall x r, p bs = Ok (x, r) ->
    exists c, bs = c ++ r /\ k <= lenN c /\ (forall t, p (c ++ t) = Ok (x, t))
      /\ (forall c' c'', c = c' ++ c'' -> c'' <> [] -> p c' = EOF).

Lemma good_weaken {A} k k' (p : parser A) : k' <= k -> good k p -> good k' p.
Proof.
  intros Hk H bs. destruct (H bs) as [H1 H2]. split; [exact H1|].
  intros x r Hp. destruct (H2 x r Hp) as [c [Ha [Hb Hc]]]. exists c. repeat split; auto; try apply Hc. lia.
Qed.

Lemma good_ret {A} (x : A) : good 0 (fun bs => Ok (x, bs)).
Proof.
  intros bs. split; [exact I|]. intros y r H. injection H as <- <-. exists [].
  split; [reflexivity|]. split; [lia|]. split; [reflexivity|].
  intros c' c'' H Hn. symmetry in H. apply app_eq_nil in H. destruct H; contradiction.
Qed.

Lemma good_err {A} k e : e <> EEndOfFile -> good k (fun _ => @Err (A * list byte) e).
Proof. intros He bs. split; [exact He|]. intros y r H. discriminate. Qed.

Lemma good_bind {A B} k k' (p : parser A) (q : A -> parser B) :
  good k p -> (forall x, good k' (q x)) ->
  good (k + k') (fun bs => bind (p bs) (fun y => match y with (x, r) => q x r end)).
Proof.
  intros Hp Hq bs. destruct (Hp bs) as [H1 H2].
  destruct (p bs) as [[x r]| | |] eqn:P; try contradiction; cbn [bind].
  2: { split; [exact H1|discriminate]. }
  destruct (Hq x r) as [H3 H4]. split; [exact H3|].
  intros y r' Hy. destruct (H2 x r eq_refl) as [c [-> [Hk [Ha Hb]]]].
  destruct (H4 y r' Hy) as [d [-> [Hk' [Hc Hd]]]].
  exists (c ++ d). split; [now rewrite app_assoc|]. split; [rewrite lenN_app; lia|].
  split.
  - intros t. rewrite <- app_assoc, Ha. cbn [bind]. apply Hc.
  - intros c' c'' Heq Hn. apply app_eq_app in Heq. destruct Heq as [l [[-> ->]|[-> ->]]].
    + destruct l as [|b l].
      * cbn [app] in Hn. pose proof (Ha []) as Ha'. rewrite <- app_assoc in Ha'. cbn [app] in Ha'.
        rewrite app_nil_r in Ha'. rewrite Ha'. cbn [bind]. now apply (Hd [] d).
      * rewrite (Hb c' (b :: l)) by (reflexivity || discriminate). reflexivity.
    + rewrite Ha. cbn [bind]. now apply (Hd l c'').
Qed.

Lemma good_ext {A} k (p q : parser A) : (forall bs, p bs = q bs) -> good k p -> good k q.
Proof.
  intros E H bs. destruct (H bs) as [H1 H2]. split; [now rewrite <- E|].
  intros x r Hq. rewrite <- E in Hq. destruct (H2 x r Hq) as [c [Ha [Hb [Hc Hd]]]].
  exists c. repeat split; auto; [intros t; rewrite <- E; auto|].
  intros. rewrite <- E. eapply Hd; eauto.
Qed.

Lemma good_read_exact n : good n (read_exact n).
Proof.
  intros bs. split.
  - unfold read_exact. destruct (n <=? lenN bs); [exact I|discriminate].
  - intros x r H. apply read_exact_ok in H. destruct H as [-> <-].
    exists x. split; [reflexivity|]. split; [lia|]. split; [intros; apply read_exact_app|].
    intros c' c'' -> Hn. apply read_exact_err. rewrite lenN_app.
    destruct c''; [contradiction|]. rewrite lenN_cons. lia.
Qed.

(** A pure function of a parsed value. *)
Lemma good_map {A B} k (p : parser A) (g : A -> B) : good k p ->
  good k (fun bs => '(x, r) <- p bs ;; Ok (g x, r)).
Proof.
  intros H. replace k with (k + 0) by lia.
  apply (good_bind k 0 p (fun x bs => Ok (g x, bs))); [exact H|]. intros x. apply good_ret.
Qed.

Lemma good_dec_uint e w : good (N.of_nat w) (dec_uint e w).
Proof. apply (good_map _ _ (uint_val e)). apply good_read_exact. Qed.

Lemma good_dec_sint e w : good (N.of_nat w) (dec_sint e w).
Proof.
  apply (good_map _ (dec_uint e w) (to_signed w)). apply good_dec_uint.
Qed.

Lemma good_if {A} (b : bool) k (p q : parser A) : good k p -> good k q ->
  good k (fun bs => if b then p bs else q bs).
Proof. destruct b; auto. Qed.

Lemma good_dec_str E e : good 4 (dec_str E e).
Proof.
  apply (good_bind 4 0 (dec_uint e 4) (fun len bs =>
    if alloc_ok E AString len then
      '(b, r') <- read_exact len bs ;; if utf8_valid b then Ok (b, r') else Err EStringFormat
    else Err EStringAllocationFailed)).
  - apply good_dec_uint.
  - intros len. apply good_if; [|(apply good_err; discriminate)].
    apply (good_weaken (len + 0)); [lia|].
    apply (good_bind len 0 (read_exact len) (fun b bs =>
      if utf8_valid b then Ok (b, bs) else Err EStringFormat)); [apply good_read_exact|].
    intros b. apply good_if; [apply good_ret|(apply good_err; discriminate)].
Qed.

Lemma good_dec_complex e w : good (N.of_nat w + N.of_nat w) (dec_complex e w).
Proof.
  apply (good_bind _ _ (dec_uint e w) (fun re bs => '(im, r') <- dec_uint e w bs ;; Ok ((re, im), r'))).
  - apply good_dec_uint.
  - intros re. apply (good_map _ (dec_uint e w) (fun im => (re, im))). apply good_dec_uint.
Qed.

(** Bytes consumed by one value of each type, at least. *)
Definition min_size (t : sty) : N :=
  match t with SExt => 10 | SStr => 4 | _ => size_bytes t end.

Lemma good_dec E e t : good (min_size t) (dec E e t).
Proof.
  destruct t; cbn [dec min_size size_bytes];
    try apply (good_dec_uint e 1); try apply (good_dec_uint e 2); try apply (good_dec_uint e 4);
    try apply (good_dec_uint e 8); try apply (good_dec_uint e 16);
    try apply (good_dec_sint e 1); try apply (good_dec_sint e 2);
    try apply (good_dec_sint e 4); try apply (good_dec_sint e 8).
  - apply (good_map 1 (read_exact 1) (fun b => negb (le_val b =? 0))). apply good_read_exact.
  - apply (good_map 10 (read_exact 10) (fun b => match e with
      | LittleE => le_val (b ++ repeat x00 6)
      | BigE => le_val (rev (repeat x00 6 ++ b)) end)). apply good_read_exact.
  - apply good_dec_str.
  - apply (good_dec_complex e 4).
  - apply (good_dec_complex e 8).
Qed.

Lemma good_read_dtype e : good 4 (read_dtype e).
Proof.
  apply (good_bind 4 0 (dec_uint e 4) (fun c bs =>
    match dtype_of_code c with Some t => Ok (t, bs) | None => Err (EUnknownPropertyType c) end)).
  - apply good_dec_uint.
  - intros c. destruct (dtype_of_code c); [apply good_ret|(apply good_err; discriminate)].
Qed.

Lemma good_read_as {A} k (p : parser A) c : good k p -> good 0 (read_as p c).
Proof. intros H. apply (good_weaken k); [lia|]. now apply (good_map k p c). Qed.

Lemma good_read_pval E e : good 4 (read_pval E e).
Proof.
  apply (good_bind 4 0 (read_dtype e) (fun t r =>
  match t with
  | Void => Ok (PVoid, r)
  | Boolean => read_as (dec E e SBool) PBoolean r
  | I8 => read_as (dec E e SI8) PI8 r
  | I16 => read_as (dec E e SI16) PI16 r
  | I32 => read_as (dec E e SI32) PI32 r
  | I64 => read_as (dec E e SI64) PI64 r
  | U8 => read_as (dec E e SU8) PU8 r
  | U16 => read_as (dec E e SU16) PU16 r
  | U32 => read_as (dec E e SU32) PU32 r
  | U64 => read_as (dec E e SU64) PU64 r
  | SingleFloat | SingleFloatWithUnit => read_as (dec E e SF32) PSingle r
  | DoubleFloat | DoubleFloatWithUnit => read_as (dec E e SF64) PDouble r
  | ExtendedFloat | ExtendedFloatWithUnit => read_as (dec E e SExt) PExtended r
  | ComplexSingleFloat => read_as (dec E e SC32) PComplexSingle r
  | ComplexDoubleFloat => read_as (dec E e SC64) PComplexDouble r
  | TdmsString => read_as (dec E e SStr) PString r
  | Timestamp => read_as (dec E e STime) PTimestamp r
  | FixedPoint | DAQmxRawData => Err (EUnsupportedType t)
  end)); [apply good_read_dtype|].
  intros t; destruct t; try apply good_ret; try (apply good_err; discriminate);
    (eapply good_read_as; apply good_dec).
Qed.

Lemma good_read_rawidx e : good 4 (read_rawidx e).
Proof.
  apply (good_bind 4 0 (dec_uint e 4) (fun i r =>
    if i =? 0 then Ok (RIMatch, r)
    else if i =? 4294967295 then Ok (RINone, r)
    else if (1762787328 <=? i) && (i <=? 1762852863)
    then Err EDaqmxChannelsNotSupported
    else if (1762852864 <=? i) && (i <=? 1762918399)
    then Err EDaqmxChannelsNotSupported
    else
      '(t, r1) <- read_dtype e r ;;
      '(_, r2) <- dec_uint e 4 r1 ;;
      '(n, r3) <- dec_uint e 8 r2 ;;
      Ok (RIRaw (mkRaw t n None), r3))); [apply good_dec_uint|].
  intros i. apply good_if; [apply good_ret|]. apply good_if; [apply good_ret|].
  apply good_if; [(apply good_err; discriminate)|]. apply good_if; [(apply good_err; discriminate)|].
  apply (good_weaken (4 + (4 + 8))); [lia|].
  apply (good_bind 4 (4 + 8) (read_dtype e) (fun t r1 =>
      '(_, r2) <- dec_uint e 4 r1 ;; '(n, r3) <- dec_uint e 8 r2 ;;
      Ok (RIRaw (mkRaw t n None), r3))); [apply good_read_dtype|].
  intros t.
  apply (good_bind 4 8 (dec_uint e 4) (fun _ r2 =>
      '(n, r3) <- dec_uint e 8 r2 ;; Ok (RIRaw (mkRaw t n None), r3))); [apply (good_dec_uint e 4)|].
  intros _. apply (good_map 8 (dec_uint e 8) (fun n => RIRaw (mkRaw t n None))).
  apply (good_dec_uint e 8).
Qed.

(** The result of a good parser leaves fewer bytes. *)
Lemma good_shorter {A} k (p : parser A) bs x r :
  good k p -> p bs = Ok (x, r) -> lenN r + k <= lenN bs.
Proof.
  intros H Hp. destruct (H bs) as [_ H2]. destruct (H2 x r Hp) as [c [-> [Hk _]]].
  rewrite lenN_app. lia.
Qed.

(** ** Counted loops *)
Section Loop.
Context {A : Type} (item : parser A) (k : N) (Hk : 0 < k) (Hitem : good k item).

Fixpoint loop (fuel : nat) (count : N) : parser (list A) := fun bs =>
  if count =? 0 then Ok ([], bs)
  else match fuel with
  | O => Diverge
  | S fuel' =>
    '(x, r1) <- item bs ;;
    '(rest, r2) <- loop fuel' (N.pred count) r1 ;;
    Ok (x :: rest, r2)
  end.

Lemma loop_fuel : forall n m count bs, (length bs < n)%nat -> (length bs < m)%nat ->
  loop n count bs = loop m count bs.
Proof.
  induction n as [|n IH]; intros m count bs H1 H2; [lia|].
  destruct m as [|m]; [lia|]. cbn [loop]. destruct (count =? 0); [reflexivity|].
  destruct (item bs) as [[x r]| | |] eqn:P; cbn [bind]; try reflexivity.
  pose proof (good_shorter _ _ _ _ _ Hitem P) as Hl. unfold lenN in Hl.
  rewrite (IH m); [reflexivity|lia|lia].
Qed.

Lemma good_loop : forall count, good 0 (fun bs => loop (S (length bs)) count bs).
Proof.
  apply N.peano_ind.
  - apply (good_ext 0 (fun bs => Ok ([], bs))); [reflexivity|apply good_ret].
  - intros n IH.
    apply (good_ext 0 (fun bs =>
      '(x, r1) <- item bs ;;
      '(rest, r2) <- loop (S (length r1)) n r1 ;; Ok (x :: rest, r2))).
    + intros bs. cbn [loop]. replace (N.succ n =? 0) with false by lia.
      rewrite N.pred_succ.
      destruct (item bs) as [[x r]| | |] eqn:P; cbn [bind]; try reflexivity.
      pose proof (good_shorter _ _ _ _ _ Hitem P) as Hl. unfold lenN in Hl.
      rewrite (loop_fuel (length bs) (S (length r)) n r) by lia. reflexivity.
    + apply (good_weaken (k + 0)); [lia|].
      apply (good_bind k 0 item (fun x r1 =>
         '(rest, r2) <- loop (S (length r1)) n r1 ;; Ok (x :: rest, r2))); [exact Hitem|].
      intros x. apply (good_map 0 (fun r1 => loop (S (length r1)) n r1) (fun rest => x :: rest)).
      exact IH.
Qed.
End Loop.

Lemma good_read_prop E e : good 8 (fun bs =>
  '(name, r1) <- dec E e SStr bs ;; '(v, r2) <- read_pval E e r1 ;; Ok ((name, v), r2)).
Proof.
  apply (good_bind 4 4 (dec E e SStr) (fun name r1 =>
    '(v, r2) <- read_pval E e r1 ;; Ok ((name, v), r2))); [apply good_dec_str|].
  intros name. apply (good_map 4 (read_pval E e) (fun v => (name, v))). apply good_read_pval.
Qed.

Lemma read_props_loop E e : forall fuel count bs, read_props E e fuel count bs =
  loop (fun bs => '(name, r1) <- dec E e SStr bs ;; '(v, r2) <- read_pval E e r1 ;; Ok ((name, v), r2))
       fuel count bs.
Proof.
  induction fuel as [|n IH]; intros count bs; cbn [read_props loop];
    destruct (count =? 0); try reflexivity.
  destruct (dec E e SStr bs) as [[name r]| | |]; cbn [bind]; try reflexivity.
  destruct (read_pval E e r) as [[v r1]| | |]; cbn [bind]; try reflexivity.
  rewrite IH. reflexivity.
Qed.

Lemma good_read_obj E e : good 12 (read_obj E e).
Proof.
  apply (good_bind 4 8 (dec E e SStr) (fun path r1 =>
    '(idx, r2) <- read_rawidx e r1 ;;
    '(count, r3) <- dec_uint e 4 r2 ;;
    if alloc_ok E AProps count then
      '(props, r4) <- read_props E e (S (length r3)) count r3 ;;
      Ok (mkObj path props idx, r4)
    else Err EPropertyTableAllocationFailed)); [apply good_dec_str|].
  intros path.
  apply (good_bind 4 4 (read_rawidx e) (fun idx r2 =>
    '(count, r3) <- dec_uint e 4 r2 ;;
    if alloc_ok E AProps count then
      '(props, r4) <- read_props E e (S (length r3)) count r3 ;;
      Ok (mkObj path props idx, r4)
    else Err EPropertyTableAllocationFailed)); [apply good_read_rawidx|].
  intros idx.
  apply (good_bind 4 0 (dec_uint e 4) (fun count r3 =>
    if alloc_ok E AProps count then
      '(props, r4) <- read_props E e (S (length r3)) count r3 ;;
      Ok (mkObj path props idx, r4)
    else Err EPropertyTableAllocationFailed)); [apply (good_dec_uint e 4)|].
  intros count. apply good_if; [|(apply good_err; discriminate)].
  apply (good_map 0 (fun r3 => read_props E e (S (length r3)) count r3)
           (fun props => mkObj path props idx)).
  eapply good_ext; [intros bs; symmetry; apply read_props_loop|].
  eapply good_loop; [|apply good_read_prop]. lia.
Qed.

Lemma read_objs_loop E e : forall fuel count bs,
  read_objs E e fuel count bs = loop (read_obj E e) fuel count bs.
Proof.
  induction fuel as [|n IH]; intros count bs; cbn [read_objs loop];
    destruct (count =? 0); try reflexivity.
  destruct (read_obj E e bs) as [[o r]| | |]; cbn [bind]; try reflexivity.
  rewrite IH. reflexivity.
Qed.

Lemma good_read_metadata E e : good 4 (read_metadata E e).
Proof.
  apply (good_bind 4 0 (dec_uint e 4) (fun count r =>
    if alloc_ok E AObjects count then read_objs E e (S (length r)) count r
    else Err EVecAllocationFailed)); [apply (good_dec_uint e 4)|].
  intros count. apply good_if; [|(apply good_err; discriminate)].
  eapply good_ext; [intros bs; symmetry; apply read_objs_loop|].
  eapply good_loop; [|apply good_read_obj]. lia.
Qed.

Lemma good_read_segment E t : good 24 (read_segment E t).
Proof.
  apply (good_bind 4 20 (dec_uint (toc_endian t) 4) (fun _ r1 =>
    '(next, r2) <- dec_uint (toc_endian t) 8 r1 ;;
    '(raw, r3) <- dec_uint (toc_endian t) 8 r2 ;;
    '(m, r4) <- read_metadata E (toc_endian t) r3 ;;
    Ok (mkSeg t next raw (Some m), r4))); [apply (good_dec_uint _ 4)|].
  intros _.
  apply (good_bind 8 12 (dec_uint (toc_endian t) 8) (fun next r2 =>
    '(raw, r3) <- dec_uint (toc_endian t) 8 r2 ;;
    '(m, r4) <- read_metadata E (toc_endian t) r3 ;;
    Ok (mkSeg t next raw (Some m), r4))); [apply (good_dec_uint _ 8)|].
  intros next.
  apply (good_bind 8 4 (dec_uint (toc_endian t) 8) (fun raw r3 =>
    '(m, r4) <- read_metadata E (toc_endian t) r3 ;;
    Ok (mkSeg t next raw (Some m), r4))); [apply (good_dec_uint _ 8)|].
  intros raw. apply (good_map 4 (read_metadata E (toc_endian t)) (fun m => mkSeg t next raw (Some m))).
  apply good_read_metadata.
Qed.

(** ** Whole segments *)
(** The part of [segment_read] after the tag. *)
Definition after_tag (E : env) : parser segment := fun r1 =>
  '(tocb, r2) <- read_exact 4 r1 ;; read_segment E (toc_of_u32 (le_val tocb)) r2.

Lemma good_after_tag E : good 28 (after_tag E).
Proof.
  apply (good_bind 4 24 (read_exact 4) (fun tocb => read_segment E (toc_of_u32 (le_val tocb))));
    [apply good_read_exact|]. intros tocb. apply good_read_segment.
Qed.

Lemma segment_read_eq E f pos :
  segment_read E f pos =
  match read_exact 4 (dropN pos f) with
  | Ok (tag, r1) => if str_eqb tag TDSm then '(s, _) <- after_tag E r1 ;; Ok s
                    else Err (EHeaderPattern tag)
  | _ => Err EEndOfFile
  end.
Proof.
  unfold segment_read, after_tag.
  pose proof (good_read_exact 4 (dropN pos f)) as [Hf _].
  destruct (read_exact 4 (dropN pos f)) as [[tag r1]| | |]; try contradiction; [|reflexivity].
  destruct (str_eqb tag TDSm); [|reflexivity].
  destruct (read_exact 4 r1) as [[tocb r2]| | |]; reflexivity.
Qed.

Lemma segment_read_fine E f pos : fine (segment_read E f pos).
Proof.
  rewrite segment_read_eq. destruct (read_exact 4 (dropN pos f)) as [[tag r1]| | |]; try exact I.
  destruct (str_eqb tag TDSm); [|exact I].
  destruct (good_after_tag E r1) as [Hf _].
  destruct (after_tag E r1) as [[s r]| | |]; try contradiction; exact I.
Qed.

(** A segment read successfully is a definite piece of the file: tag, then at
    least 28 bytes. *)
Lemma segment_read_ok E f pos s : segment_read E f pos = Ok s ->
  exists c, dropN pos f = TDSm ++ c ++ dropN (pos + 4 + lenN c) f /\ 28 <= lenN c
    /\ pos + 4 + lenN c <= lenN f
    /\ (forall t, after_tag E (c ++ t) = Ok (s, t))
    /\ (forall c' c'', c = c' ++ c'' -> c'' <> [] -> after_tag E c' = EOF).
Proof.
  rewrite segment_read_eq.
  destruct (read_exact 4 (dropN pos f)) as [[tag r1]| | |] eqn:R; try discriminate.
  destruct (str_eqb tag TDSm) eqn:K; [|discriminate]. intros H. bind_inv.
  apply str_eqb_eq in K. subst tag. apply read_exact_ok in R. destruct R as [Hd _].
  destruct (good_after_tag E r1) as [_ Hg]. destruct (Hg _ _ Hb) as [c [-> [Hk [Hs Ht]]]].
  exists c.
  assert (Hl : lenN (dropN pos f) = 4 + (lenN c + lenN l)).
  { rewrite Hd, !lenN_app. reflexivity. }
  rewrite lenN_dropN in Hl. rewrite Hd.
  replace (dropN (pos + 4 + lenN c) f) with l. 2:{
    rewrite <- N.add_assoc, <- dropN_dropN, Hd, app_assoc.
    replace (4 + lenN c) with (lenN (TDSm ++ c)) by (rewrite lenN_app; reflexivity).
    now rewrite dropN_app_exact. }
  repeat split; auto. lia.
Qed.

(** Appending bytes does not change segments already there. *)
Lemma segment_read_extend E f t pos s : segment_read E f pos = Ok s ->
  segment_read E (f ++ t) pos = Ok s.
Proof.
  intros H. apply segment_read_ok in H. destruct H as [c [Hd [Hk [Hl [Hs _]]]]].
  assert (Hd' : dropN pos (f ++ t) = TDSm ++ c ++ dropN (pos + 4 + lenN c) f ++ t).
  { rewrite !dropN_skipn in *. rewrite skipn_app. rewrite Hd. rewrite <- !app_assoc.
    replace (N.to_nat pos - length f)%nat with 0%nat by (unfold lenN in Hl; lia). reflexivity. }
  rewrite segment_read_eq, Hd'. change 4 with (lenN TDSm). rewrite read_exact_app.
  rewrite str_eqb_refl, Hs. reflexivity.
Qed.

(** The scan ends only where fewer than four bytes are left. *)
Lemma segment_read_eof E f pos : segment_read E f pos = Err EEndOfFile <-> lenN f < pos + 4.
Proof.
  rewrite segment_read_eq. unfold read_exact. rewrite lenN_dropN.
  destruct (4 <=? lenN f - pos) eqn:C; [|split; [lia|reflexivity]].
  split; [|lia]. destruct (str_eqb _ TDSm); [|discriminate].
  match goal with |- context [after_tag E ?r] => destruct (good_after_tag E r) as [Hf _];
    destruct (after_tag E r) as [[s r']|e| |] end; cbn [bind]; try discriminate.
  intros H. injection H as ->. now destruct Hf.
Qed.
