(** * Data blocks: src/raw_data/mod.rs 49-187 *)
From Verif Require Import Base DataTypes MetaData.

(** [ChunkSize], raw_data/mod.rs 53-56. *)
Inductive chunk := CFixed (n : N) | CVar (n : N).

(** [ChunkSize::combine], raw_data/mod.rs 64-94. *)
Definition chunk_combine (self rhs : chunk) : res chunk :=
  match rhs with
  | CFixed size =>
    match self with
    | CFixed ex => match checked_add ex size with
                  | Some n => Ok (CFixed n) | None => Err EChunkSizeOverflow end
    | CVar ex => match checked_add ex size with
                  | Some n => Ok (CVar n) | None => Err EChunkSizeOverflow end
    end
  | CVar size =>
    match self with
    | CFixed ex => match checked_add ex size with
                  | Some n => Ok (CVar n) | None => Err EChunkSizeOverflow end
    | CVar ex => match checked_add ex size with
                  | Some n => Ok (CVar n) | None => Err EChunkSizeOverflow end
    end
  end.

(** [DataBlock], raw_data/mod.rs 106-113. *)
Record dblock := mkBlock {
  b_start : N;
  b_len : N;                (* NonZeroU64 *)
  b_layout : layout;
  b_chans : list rawmeta;
  b_order : endian }.

(** [DataBlock::from_segment], raw_data/mod.rs 120-152.  The additions of line
    146 are unchecked: they panic or wrap depending on the profile. *)
Definition from_segment (E : env) (s : segment) (segment_start : N)
           (active : list rawmeta) : res dblock :=
  if sg_next s <? sg_raw s then Err EInvalidRawOffset
  else if sg_next s - sg_raw s =? 0 then Err EZeroLengthDataBlock
  else match active with
  | [] => Err ENoActiveChannelsInDataBlock
  | _ =>
    a <- uadd E (sg_raw s) LEAD_IN ;;
    st <- uadd E a segment_start ;;
    Ok (mkBlock st (sg_next s - sg_raw s)
          (if toc_inter (sg_toc s) then Interleaved else Contigious)
          active (toc_endian (sg_toc s)))
  end.

(** Loop of [DataBlock::chunk_size], raw_data/mod.rs 159-172. *)
Fixpoint chunk_size_from (size : chunk) (chans : list rawmeta) : res chunk :=
  match chans with
  | [] => Ok size
  | c :: r =>
    s' <- (match rm_total c with
           | Some t => chunk_combine size (CVar t)
           | None =>
             match checked_mul (rm_n c) (dtype_size (rm_type c)) with
             | Some v => chunk_combine size (CFixed v)
             | None => Err EChunkSizeOverflow
             end
           end) ;;
    chunk_size_from s' r
  end.

(** [DataBlock::chunk_size], raw_data/mod.rs 157-174. *)
Definition chunk_size (b : dblock) : res chunk := chunk_size_from (CFixed 0) (b_chans b).

(** [DataBlock::number_of_chunks], raw_data/mod.rs 178-187. *)
Definition number_of_chunks (b : dblock) : res N :=
  s <- chunk_size b ;;
  Ok (match s with
      | CFixed n => if n =? 0 then 0 else b_len b / n
      | CVar _ => 1
      end).
