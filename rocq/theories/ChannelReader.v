(** * Planning and executing channel reads: src/file/channel_reader.rs *)
From Verif Require Import Base DataTypes MetaData DataBlock Index RawData.

(** [BlockRead], channel_reader.rs 11-21: the block and, per requested channel,
    the channel index in the block and the samples to skip
    ([ChannelReadPlan], 5-9). *)
Record blockread := mkBR { br_block : nat; br_chans : list (option (nat * N)) }.

(** State of one channel in [read_plan], channel_reader.rs 267-269: the locations not yet visited (the
    suffix at [next_location]) and the samples still to skip. *)
Definition chst := (list loc * N)%type.

(** The minimum of channel_reader.rs 274-279. *)
Fixpoint min_block (st : list chst) : option nat :=
  match st with
  | [] => None
  | (l :: _, _) :: r =>
    match min_block r with
    | Some m => Some (Nat.min (l_block l) m)
    | None => Some (l_block l)
    end
  | ([], _) :: r => min_block r
  end.

(** The loop over channels, channel_reader.rs 289-317, for one channel. *)
Definition plan_chan (b : nat) (c : chst) : option (nat * N) * chst :=
  match c with
  | (l :: ls, skip) =>
    if Nat.eqb (l_block l) b then
      ((if l_n l <=? skip then None else Some (l_chan l, skip)), (ls, skip - l_n l))
    else (None, c)
  | ([], _) => (None, c)
  end.

(** [read_plan], channel_reader.rs 266-328.  Each iteration visits at least one
    location, so the fuel (number of locations plus one) suffices (theorem
    C31). *)
Fixpoint read_plan_loop (fuel : nat) (st : list chst) : res (list blockread) :=
  match fuel with
  | O => Diverge
  | S fuel' =>
    match min_block st with
    | None => Ok []
    | Some b =>
      let step := map (plan_chan b) st in
      let plans := map fst step in
      rest <- read_plan_loop fuel' (map snd step) ;;
      Ok (if existsb (fun p => match p with Some _ => true | None => false end) plans
          then mkBR b plans :: rest else rest)
    end
  end.
(** Number of locations of all channels (the fuel of the loop below; there is no
    counterpart in channel_reader.rs 272-327, whose loop is unbounded). *)
Definition total_locs (st : list chst) : nat :=
  fold_right (fun c n => (length (fst c) + n)%nat) 0%nat st.
(** [read_plan], channel_reader.rs 266-328, with the initial state of 267-270. *)
Definition read_plan (locs : list (list loc)) (starts : list N) : res (list blockread) :=
  let st := combine locs starts in
  read_plan_loop (S (total_locs st)) st.

(** [ChannelProgress], channel_reader.rs 24-44: samples read and target (usize
    counters; unbounded here). *)
Record progress := mkPr { pr_read : N; pr_target : N }.
(** [is_complete], channel_reader.rs 37-39. *)
Definition complete (p : progress) : bool := pr_target p <=? pr_read p.

(** [get_block_read_data] and [get_block_read_data_with_skip],
    channel_reader.rs 204-251: the requests, in channel order. *)
Fixpoint block_requests (plans : list (option (nat * N))) (prs : list progress) : list req :=
  match plans, prs with
  | p :: plans', pr :: prs' =>
    match p with
    | Some (i, s) =>
      if complete pr then block_requests plans' prs'
      else mkReq i (N.to_nat (pr_target pr - pr_read pr)) s :: block_requests plans' prs'
    | None => block_requests plans' prs'
    end
  | _, _ => []
  end.

(** Store values in a buffer from an offset on (the sub-slice
    [&mut output[progress.samples_read..]], 219 and 245). *)
Definition splice {A} (buf : list A) (off : N) (vs : list A) : list A :=
  firstn (N.to_nat off) buf ++ vs ++ skipn (N.to_nat off + length vs) buf.

(** The effect of a block read on the output buffers: the requested channels
    receive their values (same traversal as [block_requests]). *)
Fixpoint store {A} (plans : list (option (nat * N))) (prs : list progress)
         (outs : list (list A)) (got : list (list A)) : list (list A) :=
  match plans, prs, outs with
  | p :: plans', pr :: prs', o :: outs' =>
    match p with
    | Some _ =>
      if complete pr then o :: store plans' prs' outs' got
      else match got with
           | g :: got' => splice o (pr_read pr) g :: store plans' prs' outs' got'
           | [] => outs
           end
    | None => o :: store plans' prs' outs' got
    end
  | _, _, _ => outs
  end.

(** Progress update, channel_reader.rs 184-192. *)
Fixpoint advance (plans : list (option (nat * N))) (n : N) (prs : list progress)
  : list progress :=
  match plans, prs with
  | p :: plans', pr :: prs' =>
    (match p with Some _ => mkPr (pr_read pr + n) (pr_target pr) | None => pr end)
    :: advance plans' n prs'
  | _, _ => prs
  end.

(** [any_skip_needed], channel_reader.rs 157-160. *)
Definition any_skip (plans : list (option (nat * N))) : bool :=
  existsb (fun p => match p with Some (_, s) => 0 <? s | None => false end) plans.

(** The loop of [execute_read_plan], channel_reader.rs 155-197. *)
Fixpoint execute (E : env) (f : list byte) (t : sty) (ix : index)
         (plan : list blockread) (prs : list progress) (outs : list (list (carrier t)))
  : list (list (carrier t)) * res unit :=
  match plan with
  | [] => (outs, Ok tt)
  | br :: rest =>
    match get_data_block ix (br_block br) with
    | None => (outs, Err (EDataBlockNotFound (br_block br)))
    | Some b =>
      let reqs := block_requests (br_chans br) prs in
      let '(got, r) := if any_skip (br_chans br) then block_read_skips E f t b reqs
                       else block_read E f t b reqs in
      let outs' := store (br_chans br) prs outs got in
      match r with
      | Ok n =>
        let prs' := advance (br_chans br) n prs in
        if forallb complete prs' then (outs', Ok tt)
        else execute E f t ix rest prs' outs'
      | q => (outs', recast q)
      end
    end
  end.

(** [execute_read_plan], channel_reader.rs 145-200. *)
Definition execute_read_plan (E : env) (f : list byte) (t : sty) (ix : index)
           (plan : list blockread) (outs : list (list (carrier t)))
  : list (list (carrier t)) * res unit :=
  execute E f t ix plan (map (fun o => mkPr 0 (lenN o)) outs) outs.

(** The lookup of channel_reader.rs 126-133 (and 85-88). *)
Fixpoint lookup_positions (ix : index) (chans : list str) : res (list (list loc)) :=
  match chans with
  | [] => Ok []
  | c :: r =>
    match get_positions ix c with
    | None => Err (EMissingObject c)
    | Some l => ls <- lookup_positions ix r ;; Ok (l :: ls)
    end
  end.

(** [read_channels_from], channel_reader.rs 120-139: final contents of the
    output buffers and the outcome. *)
Definition ix_read_channels_from (E : env) (f : list byte) (t : sty) (ix : index)
           (chans : list str) (start : N) (outs : list (list (carrier t)))
  : list (list (carrier t)) * res unit :=
  match (locs <- lookup_positions ix chans ;;
         read_plan locs (repeat start (length chans))) with
  | Ok plan => execute_read_plan E f t ix plan outs
  | q => (outs, recast q)
  end.
