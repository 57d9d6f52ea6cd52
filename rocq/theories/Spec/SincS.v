(** * Specification: Lanczos resampling over the reals *)
From Verif.Model Require Import Base Float Image.
From Verif.Spec Require Import ImageS FloatS.
From Coq Require Import Reals.
Open Scope R_scope.

(** sin(pi x) / (pi x), continued by 1 at 0 *)
Definition sinc_r (x : R) : R := if Req_EM_T x 0 then 1 else sin (PI * x) / (PI * x).

(** the Lanczos kernel of size a *)
Definition lanczos_r (a x : R) : R := if Rlt_dec (Rabs x) a then sinc_r x * sinc_r (x / a) else 0.

(** the sine function is accurate to |r| / 2^22 for angles up to 1024 (an ulp of r, about; the
    error at 0 is 0, near 1 it is 2^-22) *)
Definition sin_ok (sn : f32 -> f32) : Prop :=
  forall (t : f32) (r : R), fin t r -> Rabs r <= 1024 ->
    exists q, fin (sn t) q /\ Rabs (q - sin r) <= Rabs r / 4194304.
