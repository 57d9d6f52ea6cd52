(** * IEEE-754 floats: the Rust types f32 and f64.

    f32 is used throughout /repo/src; f64 only by src/image/from_impl.rs:9-49.
    The operations are Flocq's, with one NaN (Rust leaves NaN payloads unspecified),
    rounding to nearest even, which is what Rust guarantees for + - * / sqrt and `as`. *)

From Verif.Model Require Export Base.
From Flocq Require Export Core BinarySingleNaN.
Open Scope Z_scope.

(** `f32` (IEEE binary32); no code of /repo *)
Definition f32 : Type := binary_float 24 128.
(** `f64` (IEEE binary64); no code of /repo *)
Definition f64 : Type := binary_float 53 1024.
#[global] Instance prec24 : Prec_gt_0 24. Proof. reflexivity. Defined.
#[global] Instance prec24_128 : Prec_lt_emax 24 128. Proof. reflexivity. Defined.
#[global] Instance prec53 : Prec_gt_0 53. Proof. reflexivity. Defined.
#[global] Instance prec53_1024 : Prec_lt_emax 53 1024. Proof. reflexivity. Defined.

(** integer `as f32` / `as f64` (rounds to nearest even)
    No code of /repo: Rust reference / std. *)
Definition f32_of_Z (z : Z) : f32 := binary_normalize 24 128 _ _ mode_NE z 0 false.
(** integer `as f64`, as in image/from_impl.rs:9-49 *)
Definition f64_of_Z (z : Z) : f64 := binary_normalize 53 1024 _ _ mode_NE z 0 false.

(** a decimal literal n / 10^k, correctly rounded: the quotient is computed to 256
    fractional bits with a sticky bit and then rounded once
    No code of /repo: Rust reference / std. *)
Definition f32_dec (n : Z) (k : Z) : f32 :=
  let a := Z.abs n * 2 ^ 256 in
  let d := 10 ^ k in
  let q := a / d in
  let m := 2 * q + (if a mod d =? 0 then 0 else 1) in
  binary_normalize 24 128 _ _ mode_NE (if n <? 0 then - m else m) (-257) false.

(** f32 `+`; no code of /repo (Rust reference) *)
Definition f32_add : f32 -> f32 -> f32 := Bplus mode_NE.
(** f32 `-`; no code of /repo (Rust reference) *)
Definition f32_sub : f32 -> f32 -> f32 := Bminus mode_NE.
(** f32 `*`; no code of /repo (Rust reference) *)
Definition f32_mul : f32 -> f32 -> f32 := Bmult mode_NE.
(** f32 `/`; no code of /repo (Rust reference) *)
Definition f32_div : f32 -> f32 -> f32 := Bdiv mode_NE.
(** f32 negation; no code of /repo (Rust reference) *)
Definition f32_neg : f32 -> f32 := Bopp.
(** `f32::abs`; no code of /repo (std) *)
Definition f32_abs : f32 -> f32 := Babs.
(** `f32::sqrt`, correctly rounded; no code of /repo (std) *)
Definition f32_sqrt : f32 -> f32 := Bsqrt mode_NE.

(** `round` (half away from zero), `floor`, `ceil`
    No code of /repo: Rust reference / std. *)
Definition f32_round : f32 -> f32 := Bnearbyint mode_NA.
(** `f32::floor`; no code of /repo (std) *)
Definition f32_floor : f32 -> f32 := Bnearbyint mode_DN.
(** `f32::ceil`; no code of /repo (std) *)
Definition f32_ceil : f32 -> f32 := Bnearbyint mode_UP.
(** `f64::round`, used by image/from_impl.rs:9-49 *)
Definition f64_round : f64 -> f64 := Bnearbyint mode_NA.

(** IEEE comparisons: false when an operand is NaN
    No code of /repo: Rust reference / std. *)
Definition f32_eqb (x y : f32) : bool := Beqb x y.
(** f32 `<`; no code of /repo (Rust reference) *)
Definition f32_ltb (x y : f32) : bool := Bltb x y.
(** f32 `<=`; no code of /repo (Rust reference) *)
Definition f32_leb (x y : f32) : bool := Bleb x y.
(** f32 `>`; no code of /repo (Rust reference) *)
Definition f32_gtb (x y : f32) : bool := Bltb y x.
(** f32 `>=`; no code of /repo (Rust reference) *)
Definition f32_geb (x y : f32) : bool := Bleb y x.
(** `!=` : true when an operand is NaN
    No code of /repo: Rust reference / std. *)
Definition f32_neb (x y : f32) : bool := negb (Beqb x y).

(** `%` : exact remainder with the sign of the dividend
    No code of /repo: Rust reference / std. *)
Definition float_rem {prec emax : Z} {Hp : Prec_gt_0 prec} {He : Prec_lt_emax prec emax}
    (x y : binary_float prec emax) : binary_float prec emax :=
  match x, y with
  | B754_nan, _ | _, B754_nan => B754_nan
  | B754_infinity _, _ => B754_nan
  | _, B754_zero _ => B754_nan
  | _, B754_infinity _ => x
  | B754_zero s, _ => x
  | B754_finite sx mx ex _, B754_finite _ my ey _ =>
      let e := Z.min ex ey in
      let r := (Z.pos mx * 2 ^ (ex - e)) mod (Z.pos my * 2 ^ (ey - e)) in
      binary_normalize prec emax _ _ mode_NE (if sx then - r else r) e sx
  end.
(** f32 `%`, used by error/messages.rs:53; the Rem of image/mod.rs:97 *)
Definition f32_rem : f32 -> f32 -> f32 := float_rem.

(** float `as` integer: truncates towards zero, saturates, NaN gives 0 (Rust >= 1.45)
    No code of /repo: Rust reference / std. *)
Definition float_to_int {prec emax : Z} (t : ity) (x : binary_float prec emax) : Z :=
  match x with
  | B754_nan => 0
  | B754_infinity s => if s then lo t else hi t
  | _ => let z := Btrunc x in if z <? lo t then lo t else if hi t <? z then hi t else z
  end.
(** f32 `as` an integer type; no code of /repo (Rust reference) *)
Definition f32_to_int (t : ity) (x : f32) : Z := float_to_int t x.

(** `f32::clamp` (asserts min <= max, which fails on NaN bounds too)
    No code of /repo: Rust reference / std. *)
Definition f32_clamp (x mn mx : f32) : outcome f32 :=
  if f32_leb mn mx
  then Ret (let x1 := if f32_ltb x mn then mn else x in
            if f32_gtb x1 mx then mx else x1)
  else Panic.

(** `as f64` from f32 (exact)
    image/from_impl.rs:45-49. *)
Definition f64_of_f32 (x : f32) : f64 :=
  match x with
  | B754_nan => B754_nan
  | B754_infinity s => B754_infinity s
  | B754_zero s => B754_zero s
  | B754_finite s m e _ =>
      binary_normalize 53 1024 _ _ mode_NE (if s then Z.neg m else Z.pos m) e s
  end.

(** the literal 0.0
    No code of /repo: Rust reference / std. *)
Definition f32_0 : f32 := B754_zero false.
(** the literal 1.0
    No code of /repo: Rust reference / std. *)
Definition f32_1 : f32 := f32_of_Z 1.
(** NaN (one value stands for all payloads)
    No code of /repo: Rust reference / std. *)
Definition f32_nan : f32 := B754_nan.
(** std::f32::EPSILON = 2^-23
    morphology.rs:38, 165. *)
Definition f32_epsilon : f32 := binary_normalize 24 128 _ _ mode_NE 1 (-23) false.
(** std::f32::consts::PI, E
    util/mod.rs:8, util/math.rs:5. *)
Definition f32_pi : f32 := f32_dec 314159265358979323846 20.
(** std::f32::consts::E, imported by util/mod.rs:8 and util/math.rs:5 *)
Definition f32_e : f32 := f32_dec 271828182845904523536 20.

(** f32 as a channel type (image/mod.rs:87-125) *)
Definition num_f32 : number f32 := {|
  n_of_u8 := f32_of_Z;
  n_add := fun _ a b => Ret (f32_add a b);
  n_sub := fun _ a b => Ret (f32_sub a b);
  n_mul := fun _ a b => Ret (f32_mul a b);
  n_div := fun _ a b => Ret (f32_div a b);
  n_rem := fun _ a b => Ret (f32_rem a b);
  n_eqb := f32_eqb;
  n_ltb := f32_ltb
|}.

(** f64 as a channel type (image/mod.rs:87-125) *)
Definition num_f64 : number f64 := {|
  n_of_u8 := f64_of_Z;
  n_add := fun _ a b => Ret (Bplus mode_NE a b);
  n_sub := fun _ a b => Ret (Bminus mode_NE a b);
  n_mul := fun _ a b => Ret (Bmult mode_NE a b);
  n_div := fun _ a b => Ret (Bdiv mode_NE a b);
  n_rem := fun _ a b => Ret (float_rem a b);
  n_eqb := fun a b => Beqb a b;
  n_ltb := fun a b => Bltb a b
|}.

(** The platform's libm: functions whose results Rust does not specify exactly.
    Every theorem quantifies over this record.
    No code of /repo: Rust reference / std. *)
Record libm : Type := Libm {
  powf : f32 -> f32 -> f32;
  sinf : f32 -> f32;
  cosf : f32 -> f32
}.

(** `f32::to_radians`: self * (PI / 180)
    transform.rs:212. *)
Definition f32_to_radians (x : f32) : f32 := f32_mul x (f32_div f32_pi (f32_of_Z 180)).
