(** * Specification: sorted windows and trimmed means *)
From Verif.Model Require Import Base Image.
From Verif.Spec Require Import ImageS SumS MedianS.
Open Scope Z_scope.

Definition sum_of (l : list Z) : Z := fold_right Z.add 0 l.

(** count s times the value s, for the values below bound, in increasing order *)
Definition in_order (count : Z -> Z) (bound : Z) : list Z :=
  flat_map (fun s => repeat s (Z.to_nat (count s))) (zrange 0 bound).

(** the bytes of the window around (x, y), sorted *)
Definition sorted_window (v : Z -> Z -> Z) (r x y : Z) : list Z :=
  in_order (fun s => window_count (fun t => t =? s) v r x y) 256.

(** the part [from, to) of a list *)
Definition part {A} (l : list A) (from to : Z) : list A :=
  firstn (Z.to_nat (to - from)) (skipn (Z.to_nat from) l).

(** s / n rounded to the nearest integer, halves up *)
Definition rounded_quotient (s n : Z) : Z := (2 * s + n) / (2 * n).

(** the documented result for the sorted window l: drop the alpha/2 smallest and largest values *)
Definition trimmed_mean (l : list Z) (alpha : Z) : Z :=
  rounded_quotient (sum_of (part l (alpha / 2) (len l - alpha / 2))) (len l - alpha).

(** What the filter drops at the upper end, for the first row: alpha/2 values too, but beginning
    with the first occurrence of the value at position len - alpha/2 of the sorted window
    (counted from 0), or at position alpha/2 if that is later. *)
Definition upper_cut (l : list Z) (alpha : Z) : Z :=
  let v := nth (Z.to_nat (len l - alpha / 2)) l 0 in
  Z.max (alpha / 2) (len (filter (fun s => s <? v) l)).
Definition first_row_mean (l : list Z) (alpha : Z) : Z :=
  let q := upper_cut l alpha in
  rounded_quotient (sum_of l - sum_of (part l 0 (alpha / 2)) - sum_of (part l q (q + alpha / 2))) (len l - alpha).
