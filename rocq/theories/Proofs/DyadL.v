(** * Exact arithmetic on dyadic rationals z / 2^j *)
From Coq Require Import Lra.
From Verif.Model Require Import Float.
From Verif.Proofs Require Import BaseL FloatL FloatL2.
Open Scope Z_scope.

(** the finite float x is exactly z / 2^j *)
Definition isD (x : f32) (z j : Z) : Prop := fin x (IZR z * bpow radix2 (- j)).

Lemma isZ_isD x z : isZ x z <-> isD x z 0.
Proof. unfold isZ, isD. cbn [Z.opp bpow]. rewrite Rmult_1_r. tauto. Qed.

Lemma fmt_D z j : Z.abs z <= 16777216 -> 0 <= j <= 149 ->
  generic_format radix2 (SpecFloat.fexp 24 128) (IZR z * bpow radix2 (- j)).
Proof.
  intros Hz Hj. destruct (Z.eq_dec (Z.abs z) 16777216) as [E|E].
  - assert (G : generic_format radix2 (SpecFloat.fexp 24 128) (bpow radix2 (24 - j))).
    { apply generic_format_bpow. unfold SpecFloat.fexp, SpecFloat.emin. lia. }
    assert (E2 : (bpow radix2 (24 - j) = IZR 16777216 * bpow radix2 (- j))%R).
    { replace (24 - j) with (24 + - j) by lia. rewrite bpow_plus. f_equal. }
    destruct (Z.abs_spec z) as [[_ A]|[_ A]].
    + replace z with 16777216 by lia. rewrite <- E2. exact G.
    + replace z with (- (16777216)) by lia. rewrite opp_IZR, Ropp_mult_distr_l_reverse, <- E2. apply generic_format_opp. exact G.
  - apply generic_format_FLT. exists (Float radix2 z (- j)).
    + reflexivity.
    + cbn [Fnum]. change (radix2 ^ 24) with 16777216. lia.
    + cbn. lia.
Qed.
Lemma small_D z j : Z.abs z <= 16777216 -> 0 <= j -> (Rabs (IZR z * bpow radix2 (- j)) <= bpow radix2 (128 - 1))%R.
Proof.
  intros Hz Hj. rewrite Rabs_mult, (Rabs_pos_eq (bpow _ _)) by apply bpow_ge_0.
  apply Rle_trans with (Rabs (IZR z) * 1)%R.
  - apply Rmult_le_compat_l; [apply Rabs_pos|]. change 1%R with (bpow radix2 0). apply bpow_le. lia.
  - rewrite Rmult_1_r. apply bigZ. exact Hz.
Qed.
Lemma isD_shift x z j i : isD x z j -> 0 <= i -> isD x (z * 2 ^ i) (j + i).
Proof.
  intros H Hi. unfold isD in *. replace (IZR (z * 2 ^ i) * bpow radix2 (- (j + i)))%R with (IZR z * bpow radix2 (- j))%R; [exact H|].
  rewrite mult_IZR, IZR_pow2 by exact Hi. rewrite Rmult_assoc, <- bpow_plus. do 2 f_equal. lia.
Qed.
Lemma isD_ext x z j z' : isD x z j -> z = z' -> isD x z' j.
Proof. intros H ->. exact H. Qed.
Lemma isZ_D x z j : isZ x z -> 0 <= j -> isD x (z * 2 ^ j) j.
Proof. intros H Hj. apply isZ_isD in H. apply (isD_shift x z 0 j H Hj). Qed.
Lemma isD_Z x z j : isD x (z * 2 ^ j) j -> 0 <= j -> isZ x z.
Proof.
  unfold isD, isZ. intros H Hj. rewrite mult_IZR, IZR_pow2 in H by exact Hj. rewrite Rmult_assoc, <- bpow_plus in H.
  replace (j + - j) with 0 in H by lia. cbn [bpow] in H. rewrite Rmult_1_r in H. exact H.
Qed.
Lemma add_D x y a b j : isD x a j -> isD y b j -> Z.abs (a + b) <= 16777216 -> 0 <= j <= 149 -> isD (f32_add x y) (a + b) j.
Proof.
  intros Hx Hy H Hj. unfold isD. rewrite <- (rnd_fmt (prec := 24) (emax := 128) _ (fmt_D (a + b) j H Hj)).
  rewrite plus_IZR, Rmult_plus_distr_r. apply add_fin; auto.
  rewrite <- Rmult_plus_distr_r, <- plus_IZR. apply small_D; lia.
Qed.
Lemma sub_D x y a b j : isD x a j -> isD y b j -> Z.abs (a - b) <= 16777216 -> 0 <= j <= 149 -> isD (f32_sub x y) (a - b) j.
Proof.
  intros Hx Hy H Hj. unfold isD. rewrite <- (rnd_fmt (prec := 24) (emax := 128) _ (fmt_D (a - b) j H Hj)).
  rewrite minus_IZR. unfold Rminus. rewrite Rmult_plus_distr_r, Ropp_mult_distr_l_reverse.
  apply sub_fin; auto. fold (Rminus (IZR a * bpow radix2 (- j)) (IZR b * bpow radix2 (- j))).
  replace (IZR a * bpow radix2 (- j) - IZR b * bpow radix2 (- j))%R with (IZR (a - b) * bpow radix2 (- j))%R
    by (rewrite minus_IZR; ring). apply small_D; lia.
Qed.
Lemma mul_D x y a b i j : isD x a i -> isD y b j -> Z.abs (a * b) <= 16777216 -> 0 <= i -> 0 <= j -> i + j <= 149 ->
  isD (f32_mul x y) (a * b) (i + j).
Proof.
  intros Hx Hy H Hi Hj Hij. unfold isD. rewrite <- (rnd_fmt (prec := 24) (emax := 128) _ (fmt_D (a * b) (i + j) H ltac:(lia))).
  assert (E : (IZR (a * b) * bpow radix2 (- (i + j)) = (IZR a * bpow radix2 (- i)) * (IZR b * bpow radix2 (- j)))%R).
  { rewrite mult_IZR. replace (- (i + j)) with (- i + - j) by lia. rewrite bpow_plus. ring. }
  rewrite E. apply mul_fin; auto. rewrite <- E. apply small_D; lia.
Qed.
Lemma div_pow2_D x y a k : isZ x a -> isZ y (2 ^ k) -> Z.abs a <= 16777216 -> 0 <= k <= 149 -> isD (f32_div x y) a k.
Proof.
  intros Hx Hy Ha Hk. unfold isD. rewrite <- (rnd_fmt (prec := 24) (emax := 128) _ (fmt_D a k Ha Hk)).
  assert (E : (IZR a * bpow radix2 (- k) = IZR a / IZR (2 ^ k))%R).
  { rewrite IZR_pow2 by lia. rewrite bpow_opp. reflexivity. }
  rewrite E. apply div_fin; auto.
  - rewrite IZR_pow2 by lia. pose proof (bpow_gt_0 radix2 k). lra.
  - rewrite <- E. apply small_D; lia.
Qed.
Lemma floor_D x a j : isD x a j -> 0 <= j -> isZ (f32_floor x) (a / 2 ^ j).
Proof.
  intros H Hj. pose proof (nearby_fin (prec := 24) (emax := 128) mode_DN x _ H) as E. cbn [round_mode] in E.
  replace (Zfloor (IZR a * bpow radix2 (- j))) with (a / 2 ^ j) in E; [exact E|].
  symmetry. rewrite bpow_opp, <- IZR_pow2 by exact Hj. apply Zfloor_div. pose proof (Z.pow_pos_nonneg 2 j). lia.
Qed.
Lemma ceil_D x a j : isD x a j -> 0 <= j -> isZ (f32_ceil x) (- (- a / 2 ^ j)).
Proof.
  intros H Hj. pose proof (nearby_fin (prec := 24) (emax := 128) mode_UP x _ H) as E. cbn [round_mode] in E.
  replace (Zceil (IZR a * bpow radix2 (- j))) with (- (- a / 2 ^ j)) in E; [exact E|].
  unfold Zceil. f_equal. symmetry. rewrite <- Ropp_mult_distr_l_reverse, <- opp_IZR, bpow_opp, <- IZR_pow2 by exact Hj.
  apply Zfloor_div. pose proof (Z.pow_pos_nonneg 2 j). lia.
Qed.
