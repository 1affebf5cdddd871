(** * Object paths: src/paths.rs *)
From Verif Require Import Base.

(** The character '/', paths.rs 27, 37, 121, 167. *)
Definition slash : byte := x2f.
(** The single quote, paths.rs 16, 53, 122. *)
Definition squote : byte := x27.
(** The double quote, paths.rs 16. *)
Definition dquote : byte := x22.

(** [escape_name], paths.rs 15-17. *)
Definition escape_name (s : str) : str :=
  map (fun b => if Byte.eqb b squote then dquote else b) s.

(** [str::split('/')] (std), used in paths.rs 37 and 121.  Always at least one
    part. *)
Fixpoint split_slash (s : str) : list str :=
  match s with
  | [] => [[]]
  | b :: r =>
    if Byte.eqb b slash then [] :: split_slash r
    else match split_slash r with
         | p :: ps => (b :: p) :: ps
         | [] => [[b]]
         end
  end.

(** [starts_with('\'')] and [ends_with('\'')], paths.rs 53 and 122. *)
Definition quoted (s : str) : bool :=
  match s with
  | [] => false
  | b :: _ => Byte.eqb b squote && Byte.eqb (last s x00) squote
  end.

(** [&name[1..name.len() - 1]], paths.rs 57 and 123.  For a one-byte name the
    range is 1..0 and slicing panics. *)
Definition strip (s : str) : res str :=
  if Nat.ltb (length s) 2 then Panic PSlice
  else Ok (removelast (tl s)).
Arguments strip : simpl never.

(** [parse_name], paths.rs 52-58. *)
Definition parse_name (s : str) : res (option str) :=
  if quoted s then x <- strip s ;; Ok (Some x) else Ok None.

(** One call of [parts.next()] on the lazy iterator of paths.rs 36-39, combined
    with [invert] (65-67): no more parts gives [Ok None], a bad part an error. *)
Definition next_part (path : str) (parts : list str) : res (option str * list str) :=
  match parts with
  | [] => Ok (None, [])
  | p :: ps =>
    x <- parse_name p ;;
    match x with
    | Some n => Ok (Some n, ps)
    | None => Err (EInvalidObjectPath path)
    end
  end.

(** [parse_path], paths.rs 25-49.  Line 43 evaluates the third part (which may
    panic) and rejects the path whatever it is. *)
Definition parse_path (path : str) : res (option str * option str) :=
  match path with
  | b :: rest =>
    if Byte.eqb b slash then
      match rest with
      | [] => Ok (None, None)
      | _ =>
        '(group, p1) <- next_part path (tl (split_slash path)) ;;
        '(channel, p2) <- next_part path p1 ;;
        match p2 with
        | [] => Ok (group, channel)
        | p :: _ => _x <- parse_name p ;; Err (EInvalidObjectPath path)
        end
      end
    else Err (EInvalidObjectPath path)
  | [] => Err (EInvalidObjectPath path)
  end.

(** [path_group_name], paths.rs 61-63. *)
Definition path_group_name (path : str) : res (option str) :=
  match parse_path path with
  | Ok (g, _) => Ok g
  | Err _ => Ok None
  | Panic p => Panic p
  | Diverge => Diverge
  end.

(** [PropertyPath] (paths.rs 90) is a wrapper around the path string, likewise
    [ChannelPath] (212); both are modelled by the string.
    [PropertyPath::file], 94-98. *)
Definition path_file : str := [slash].

(** [PropertyPath::group], 101-103. *)
Definition path_group (g : str) : str :=
  [slash; squote] ++ escape_name g ++ [squote].

(** [PropertyPath::channel], 106-112, and [ChannelPath::new], 223-225. *)
Definition path_channel (g c : str) : str :=
  [slash; squote] ++ escape_name g ++ [squote; slash; squote]
  ++ escape_name c ++ [squote].

(** [path_levels().nth(n)], 120-128: the lazy [filter_map] is evaluated only as
    far as needed. *)
Fixpoint levels_nth (n : nat) (parts : list str) : res (option str) :=
  match parts with
  | [] => Ok None
  | p :: ps =>
    if quoted p then
      x <- strip p ;;
      match n with
      | O => Ok (Some x)
      | S n' => levels_nth n' ps
      end
    else levels_nth n ps
  end.

(** [PropertyPath::group_name], 145-147. *)
Definition pp_group_name (path : str) : res (option str) :=
  levels_nth 0 (tl (split_slash path)).

(** [PropertyPath::channel_name], 162-164. *)
Definition pp_channel_name (path : str) : res (option str) :=
  levels_nth 1 (tl (split_slash path)).

(** [path_depth], 166-168. *)
Definition path_depth (path : str) : nat :=
  length (filter (fun b => Byte.eqb b slash) path).
(** [is_channel], 170-172. *)
Definition is_channel (path : str) : bool := Nat.eqb (path_depth path) 2.

(** [TryFrom<ObjectPath> for PropertyPath], 187-199. *)
Definition pp_try_from (s : str) : res str :=
  p <- parse_path s ;;
  match p with
  | (None, None) => Ok path_file
  | (Some g, None) => Ok (path_group g)
  | (Some g, Some c) => Ok (path_channel g c)
  | (None, Some _) => Panic PUnreachable
  end.

(** [TryFrom<PropertyPath> for ChannelPath], 271-279. *)
Definition cp_of_pp (path : str) : res str :=
  if is_channel path then Ok path else Err (EInvalidChannelPath path).

(** [TryFrom<ObjectPath> for ChannelPath], 262-269. *)
Definition cp_try_from (s : str) : res str :=
  p <- pp_try_from s ;; cp_of_pp p.

(** [Option::expect], used in 228-239. *)
Definition expect {A} (m : res (option A)) : res A :=
  x <- m ;; match x with Some a => Ok a | None => Panic PExpect end.

(** [ChannelPath::group_name], 228-232. *)
Definition cp_group_name (path : str) : res str := expect (pp_group_name path).
(** [ChannelPath::channel_name], 235-239. *)
Definition cp_channel_name (path : str) : res str := expect (pp_channel_name path).
