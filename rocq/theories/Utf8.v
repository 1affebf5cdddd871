(** * UTF-8 validation as performed by [String::from_utf8] (std, called from
      src/io/data_types/strings.rs 23). *)
From Verif Require Import Base.

(** A byte range of the table below (std, called from strings.rs 23). *)
Definition in_range (lo hi : N) (b : byte) : bool :=
  (lo <=? Byte.to_N b) && (Byte.to_N b <=? hi).

(** A continuation byte 10xxxxxx (std, called from strings.rs 23). *)
Definition cont (b : byte) : bool := in_range 128 191 b.

(** [core::str::run_utf8_validation]: accepts exactly the byte sequences of
    Unicode 3.9 table 3-7.  Called from src/io/data_types/strings.rs 23. *)
Fixpoint utf8_valid (s : str) : bool :=
  match s with
  | [] => true
  | b0 :: r =>
    if in_range 0 127 b0 then utf8_valid r
    else if in_range 194 223 b0 then
      match r with
      | b1 :: r1 => cont b1 && utf8_valid r1
      | _ => false
      end
    else if in_range 224 239 b0 then
      match r with
      | b1 :: b2 :: r2 =>
        (if Byte.to_N b0 =? 224 then in_range 160 191 b1
         else if Byte.to_N b0 =? 237 then in_range 128 159 b1
         else cont b1) && cont b2 && utf8_valid r2
      | _ => false
      end
    else if in_range 240 244 b0 then
      match r with
      | b1 :: b2 :: b3 :: r3 =>
        (if Byte.to_N b0 =? 240 then in_range 144 191 b1
         else if Byte.to_N b0 =? 244 then in_range 128 143 b1
         else cont b1) && cont b2 && cont b3 && utf8_valid r3
      | _ => false
      end
    else false
  end.
