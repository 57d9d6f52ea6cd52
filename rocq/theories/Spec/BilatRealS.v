(** * Specification: the bilateral filter over the reals *)
From Verif.Model Require Import Base Float Image.
From Verif.Spec Require Import ImageS FloatS FilterS BsplineS.
From Coq Require Import Reals.
Open Scope R_scope.

(** weight of a neighbour at distance (dx, dy) with value b, when the pixel itself has value a *)
Definition similarity (spatial range : R) (dx dy : Z) (a b : R) : R :=
  exp (- (IZR (dx ^ 2 + dy ^ 2) / (2 * spatial ^ 2))) * exp (- ((a - b) ^ 2 / (2 * range ^ 2))).

(** the other positions of the square window of side 2 h + 1 *)
Definition around (h : Z) : list (Z * Z) :=
  filter (fun '(dx, dy) => negb ((dx =? 0) && (dy =? 0))%Z)
    (flat_map (fun dy => map (fun dx => (dx, dy)) (zrange (- h) (h + 1))) (zrange (- h) (h + 1))).

(** mean of the neighbours (not of the pixel itself), weighted by similarity; v x y c: the samples *)
Definition mean_around (spatial range : R) (h : Z) (inf : info) (v : Z -> Z -> Z -> R) (x y c : Z) : R :=
  let val d := v (padded (width inf) x (fst d)) (padded (height inf) y (snd d)) c in
  let sim d := similarity spatial range (fst d) (snd d) (v x y c) (val d) in
  sum_over (around h) (fun d => sim d * val d) / sum_over (around h) sim.
