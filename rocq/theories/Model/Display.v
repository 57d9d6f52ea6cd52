(** * The text of an ImageInfo: `impl Display for ImageInfo`, src/image/mod.rs:181-185 *)
From Coq Require Export String Ascii.
From Verif.Model Require Export Base Image.
Open Scope Z_scope.

(** one decimal digit
    core::fmt::num (the standard library): `b'0' + d` *)
Definition digit_char (d : Z) : ascii := ascii_of_nat (48 + Z.to_nat d).
(** `{}` of an unsigned integer: the digits from the last to the first, put in front of the text so far; [fuel] bounds
    the number of digits (the recursion stops by itself, see C88_decimal)
    core::fmt::num (the standard library): the loop of `fmt_u64`. *)
Fixpoint decimal_loop (fuel : nat) (n : Z) (text : string) : string :=
  match fuel with
  | O => text
  | S f => let text := String (digit_char (n mod 10)) text in if n <? 10 then text else decimal_loop f (n / 10) text
  end.
(** `{}` of a u32 or u8 (the standard library) *)
Definition fmt_uint (n : Z) : string := decimal_loop (S (Z.to_nat n)) n EmptyString.
(** `{}` of a bool (the standard library) *)
Definition fmt_bool (b : bool) : string := if b then "true"%string else "false"%string.
(** the newline of the format string *)
Definition newline : string := String (ascii_of_nat 10) EmptyString.
(** image/mod.rs:181-185 *)
Definition fmt_info (inf : info) : string :=
  ("width: " ++ fmt_uint (width inf) ++ newline ++ "height: " ++ fmt_uint (height inf) ++ newline
   ++ "channels: " ++ fmt_uint (channels inf) ++ newline ++ "alpha: " ++ fmt_bool (alpha inf))%string.
