(** * Specification: decimal numerals *)
From Coq Require Import ZArith String Ascii.
Open Scope Z_scope.

(** the digits '0'..'9' have the codes 48..57 *)
Definition is_digit (c : ascii) : Prop := 48 <= Z.of_nat (nat_of_ascii c) <= 57.
Definition digit_value (c : ascii) : Z := Z.of_nat (nat_of_ascii c) - 48.
Fixpoint all_digits (s : string) : Prop :=
  match s with EmptyString => True | String c s' => is_digit c /\ all_digits s' end.
(** the number read from left to right, after [before] *)
Fixpoint read_from (before : Z) (s : string) : Z :=
  match s with EmptyString => before | String c s' => read_from (10 * before + digit_value c) s' end.
(** [s] is the usual decimal numeral of n: digits only, at least one, no leading zero except in "0" *)
Definition numeral (n : Z) (s : string) : Prop :=
  s <> EmptyString /\ all_digits s /\ read_from 0 s = n
  /\ (forall rest, s = String "0" rest -> rest = EmptyString).
