(** Model of the parts of std's UTF-8 handling that mortal calls:
    [char::len_utf8], [str::from_utf8] (unix/terminal.rs:1347-1362,
    [utf8_prefix]), [str::chars().next()] (unix/terminal.rs:1238, buffer.rs:503)
    and [char_indices] (util.rs:109-122).  Transcribed from core::str::validations;
    bit masks are written as [mod]/[*] by powers of two. *)
From Verif Require Import Base.
Local Open Scope N_scope.

(** Unicode scalar values: the values of type [char]. *)
Definition is_scalar (c : N) : bool :=
  (c <? 0xD800) || ((0xE000 <=? c) && (c <? 0x110000)).

(** [char::len_utf8]. *)
Definition len_utf8 (c : N) : nat :=
  if c <? 0x80 then 1 else if c <? 0x800 then 2 else if c <? 0x10000 then 3 else 4.

(** [char::encode_utf8], the bytes of a character in a [&str]. *)
Definition utf8 (c : N) : bytes :=
  if c <? 0x80 then [c]
  else if c <? 0x800 then [0xC0 + c / 64; 0x80 + c mod 64]
  else if c <? 0x10000 then [0xE0 + c / 4096; 0x80 + (c / 64) mod 64; 0x80 + c mod 64]
  else [0xF0 + c / 262144; 0x80 + (c / 4096) mod 64; 0x80 + (c / 64) mod 64; 0x80 + c mod 64].

(** The bytes of a string given as its characters. *)
Definition utf8s (cs : list N) : bytes := flat_map utf8 cs.

(** [core::str::validations::utf8_char_width] for a first byte [>= 0x80]. *)
Definition utf8_char_width (b : N) : nat :=
  if (0xC2 <=? b) && (b <=? 0xDF) then 2
  else if (0xE0 <=? b) && (b <=? 0xEF) then 3
  else if (0xF0 <=? b) && (b <=? 0xF4) then 4
  else 0.

(** [b as i8 < -64]: a continuation byte. *)
Definition is_cont (b : N) : bool := (0x80 <=? b) && (b <=? 0xBF).

(** Allowed second bytes of 3- and 4-byte sequences. *)
Definition second3 (b0 b1 : N) : bool :=
  ((b0 =? 0xE0) && (0xA0 <=? b1) && (b1 <=? 0xBF)) ||
  ((0xE1 <=? b0) && (b0 <=? 0xEC) && (0x80 <=? b1) && (b1 <=? 0xBF)) ||
  ((b0 =? 0xED) && (0x80 <=? b1) && (b1 <=? 0x9F)) ||
  ((0xEE <=? b0) && (b0 <=? 0xEF) && (0x80 <=? b1) && (b1 <=? 0xBF)).

Definition second4 (b0 b1 : N) : bool :=
  ((b0 =? 0xF0) && (0x90 <=? b1) && (b1 <=? 0xBF)) ||
  ((0xF1 <=? b0) && (b0 <=? 0xF3) && (0x80 <=? b1) && (b1 <=? 0xBF)) ||
  ((b0 =? 0xF4) && (0x80 <=? b1) && (b1 <=? 0x8F)).

(** One round of [run_utf8_validation]'s loop, on the remaining non-empty input:
    the length of the character, or the [error_len] of the error. *)
Inductive vstep : Type :=
| VOk (n : nat)
| VErr (error_len : option nat).

Definition validate_step (v : bytes) : vstep :=
  match v with
  | [] => VErr None
  | b0 :: r =>
      if b0 <? 128 then VOk 1 else
      match utf8_char_width b0 with
      | 2%nat => match r with
             | [] => VErr None
             | b1 :: _ => if is_cont b1 then VOk 2 else VErr (Some 1%nat)
             end
      | 3%nat => match r with
             | [] => VErr None
             | b1 :: r1 =>
                 if second3 b0 b1 then
                   match r1 with
                   | [] => VErr None
                   | b2 :: _ => if is_cont b2 then VOk 3 else VErr (Some 2%nat)
                   end
                 else VErr (Some 1%nat)
             end
      | 4%nat => match r with
             | [] => VErr None
             | b1 :: r1 =>
                 if second4 b0 b1 then
                   match r1 with
                   | [] => VErr None
                   | b2 :: r2 =>
                       if is_cont b2 then
                         match r2 with
                         | [] => VErr None
                         | b3 :: _ => if is_cont b3 then VOk 4 else VErr (Some 3%nat)
                         end
                       else VErr (Some 2%nat)
                   end
                 else VErr (Some 1%nat)
             end
      | _ => VErr (Some 1%nat)
      end
  end.

(** [Result<&str, Utf8Error>] of [from_utf8]. *)
Inductive utf8_result : Type :=
| UOk
| UErr (valid_up_to : nat) (error_len : option nat).

(** [run_utf8_validation]: each round consumes at least one byte, so [fuel =
    length] is never exhausted on non-empty input. *)
Fixpoint validate (fuel : nat) (index : nat) (v : bytes) : utf8_result :=
  match v, fuel with
  | [], _ => UOk
  | _, O => UErr index None
  | _, S fuel' =>
      match validate_step v with
      | VOk n => validate fuel' (index + n) (skipn n v)
      | VErr e => UErr index e
      end
  end.

Definition from_utf8 (v : bytes) : utf8_result := validate (length v) 0 v.

(** [core::str::validations::next_code_point] on (valid) UTF-8: the first
    character and the number of bytes it occupies. *)
Definition next_char (v : bytes) : option (N * nat) :=
  match v with
  | [] => None
  | x :: r =>
      if x <? 128 then Some (x, 1%nat) else
      match r with
      | [] => None
      | y :: r1 =>
          if x <? 0xE0 then Some ((x mod 32) * 64 + y mod 64, 2%nat) else
          match r1 with
          | [] => None
          | z :: r2 =>
              if x <? 0xF0 then
                Some ((x mod 32) * 4096 + ((y mod 64) * 64 + z mod 64), 3%nat)
              else
                match r2 with
                | [] => None
                | w :: _ =>
                    Some ((x mod 8) * 262144 +
                          (((y mod 64) * 64 + z mod 64) * 64 + w mod 64), 4%nat)
                end
          end
      end
  end.

(** [str::char_indices] on valid UTF-8: byte offsets and characters. *)
Fixpoint char_indices_from (fuel off : nat) (v : bytes) : list (nat * N) :=
  match fuel with
  | O => []
  | S fuel' =>
      match next_char v with
      | None => []
      | Some (c, n) => (off, c) :: char_indices_from fuel' (off + n) (skipn n v)
      end
  end.

Definition char_indices (v : bytes) : list (nat * N) := char_indices_from (length v) 0 v.

(** [str::is_char_boundary]: offset 0, the end, or a non-continuation byte. *)
Definition is_char_boundary (v : bytes) (i : nat) : bool :=
  match i with
  | O => true
  | _ => match nth_error v i with
         | None => (i =? length v)%nat
         | Some b => negb (is_cont b)
         end
  end.
