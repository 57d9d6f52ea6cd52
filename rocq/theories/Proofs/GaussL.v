(** * The Gaussian in f32 *)
From Coq Require Import Lra.
From Verif.Model Require Import Base Float.
From Verif.Spec Require Import FloatS PowS GaussS.
From Verif.Proofs Require Import BaseL FloatL FloatL2 ApproxL PowL SrgbL ExpPiL.
From Flocq Require Import Core BinarySingleNaN.
Open Scope R_scope.

Definition tiny : R := bpow radix2 (-124).
Lemma tiny_pos : 0 < tiny. Proof. apply bpow_gt_0. Qed.

Lemma frel_round_w (X : f32) a x t t' : fin X (rnd32 a) -> rel a x t -> tiny <= x -> t <= / 64 ->
  t + 2.1 * uu <= t' -> frel X x t'.
Proof.
  intros F H Hx Ht Ht'. pose proof tiny_pos. exists (rnd32 a). split; [exact F|].
  pose proof (rel_bounds a x t ltac:(lra) H Ht) as B.
  assert (Ha : bpow radix2 (-126) <= Rabs a).
  { rewrite Rabs_pos_eq by lra. apply Rle_trans with (bpow radix2 (-1) * tiny).
    - unfold tiny. rewrite <- bpow_plus. apply bpow_le. lia.
    - change (bpow radix2 (-1)) with (/ 2). lra. }
  pose proof (rel_err a Ha) as E. rewrite two_uu, (Rabs_pos_eq a) in E by lra.
  unfold rel in *. replace (rnd32 a - x) with ((rnd32 a - a) + (a - x)) by ring. eapply Rle_trans; [apply Rabs_triang|].
  assert (2 * uu * a <= 2 * uu * (x + x / 64)) by (apply Rmult_le_compat_l; [unfold uu; lra|lra]).
  assert (0 <= uu * x) by (apply Rmult_le_pos; [unfold uu; lra|lra]).
  assert (t' * x >= (t + 2.1 * uu) * x) by (apply Rle_ge, Rmult_le_compat_r; lra). lra.
Qed.

Definition huge : R := bpow radix2 120.
Lemma huge_fit x : Rabs x <= 2 * huge -> Rabs x <= bpow radix2 (128 - 1).
Proof. intros H. eapply Rle_trans; [exact H|]. unfold huge. change 2 with (bpow radix2 1). rewrite <- bpow_plus. apply bpow_le. lia. Qed.

Lemma frel_mul_w X Y x y t1 t2 t' : frel X x t1 -> frel Y y t2 -> 0 < x -> 0 < y -> tiny <= x * y <= huge ->
  0 <= t1 <= / 256 -> 0 <= t2 <= / 256 -> 1.01 * (t1 + t2) + 2.1 * uu <= t' -> frel (f32_mul X Y) (x * y) t'.
Proof.
  intros [r [FX HX]] [s [FY HY]] Hx Hy Hxy Ht1 Ht2 Ht'.
  destruct (rel_factor r x t1 ltac:(lra) HX) as [d1 [-> H1]]. destruct (rel_factor s y t2 ltac:(lra) HY) as [d2 [-> H2]].
  pose proof (Rabs_bd _ _ H1) as B1. pose proof (Rabs_bd _ _ H2) as B2.
  assert (D : Rabs (d1 + d2 + d1 * d2) <= 1.01 * (t1 + t2)).
  { eapply Rle_trans; [apply Rabs_triang|]. eapply Rle_trans; [apply Rplus_le_compat_r, Rabs_triang|]. rewrite Rabs_mult.
    assert (Rabs d1 * Rabs d2 <= t1 * / 256) by (apply Rmult_le_compat; try apply Rabs_pos; lra). lra. }
  assert (R1 : rel (x * (1 + d1) * (y * (1 + d2))) (x * y) (1.01 * (t1 + t2))).
  { apply (factor_rel _ _ (d1 + d2 + d1 * d2)); [apply Rmult_lt_0_compat; lra|ring|exact D]. }
  apply (frel_round_w _ (x * (1 + d1) * (y * (1 + d2))) _ (1.01 * (t1 + t2))); try assumption; try lra.
  apply mul_fin; [exact FX|exact FY|]. apply huge_fit.
  pose proof tiny_pos as TP. assert (P0 : 0 < x * y) by lra. pose proof (rel_bounds _ _ _ P0 R1) as B. specialize (B ltac:(lra)). rewrite Rabs_pos_eq by lra. lra.
Qed.
Lemma frel_div_w X Y x y t1 t2 t' : frel X x t1 -> frel Y y t2 -> 0 < x -> 0 < y -> tiny <= x / y <= huge ->
  0 <= t1 <= / 256 -> 0 <= t2 <= / 256 -> 1.01 * (t1 + t2) + 2.1 * uu <= t' -> frel (f32_div X Y) (x / y) t'.
Proof.
  intros [r [FX HX]] [s [FY HY]] Hx Hy Hxy Ht1 Ht2 Ht'.
  destruct (rel_factor r x t1 ltac:(lra) HX) as [d1 [-> H1]]. destruct (rel_factor s y t2 ltac:(lra) HY) as [d2 [-> H2]].
  pose proof (Rabs_bd _ _ H1) as B1. pose proof (Rabs_bd _ _ H2) as B2.
  assert (R1 : rel (x * (1 + d1) / (y * (1 + d2))) (x / y) (1.01 * (t1 + t2))).
  { apply (factor_rel _ _ ((d1 - d2) / (1 + d2))); [pose proof tiny_pos; lra|field; lra|].
    unfold Rdiv. rewrite Rabs_mult, (Rabs_pos_eq (/ (1 + d2))) by (left; apply Rinv_0_lt_compat; lra).
    apply Rmult_le_reg_r with (1 + d2); [lra|]. rewrite Rmult_assoc, Rinv_l, Rmult_1_r by lra.
    assert (Rabs (d1 - d2) <= t1 + t2) by (unfold Rminus; eapply Rle_trans; [apply Rabs_triang|]; rewrite Rabs_Ropp; lra).
    assert ((t1 + t2) * (1.01 * (1 + d2)) >= (t1 + t2) * 1) by (apply Rle_ge, Rmult_le_compat_l; lra). lra. }
  apply (frel_round_w _ (x * (1 + d1) / (y * (1 + d2))) _ (1.01 * (t1 + t2))); try assumption; try lra.
  assert (Hs : y * (1 + d2) <> 0) by (apply Rmult_integral_contrapositive_currified; lra).
  apply div_fin; [exact FX|exact FY|exact Hs|]. apply huge_fit.
  pose proof tiny_pos as TP. assert (P0 : 0 < x / y) by lra. pose proof (rel_bounds _ _ _ P0 R1) as B. specialize (B ltac:(lra)). rewrite Rabs_pos_eq by lra. lra.
Qed.

(** the sign of a numerator *)
Lemma rnd_opp x : rnd32 (- x) = - rnd32 x.
Proof. unfold rnd32, rnd. apply round_NE_opp. Qed.

Lemma pi_frel : frel f32_pi PI uu.
Proof.
  assert (A : approx f32_pi 3.14159274101 (uu / 100)) by const_ap. pose proof pi_bounds as P.
  destruct A as [r [F H]]. exists r. split; [exact F|]. unfold rel. apply Rabs_bd in H. unfold uu in *. apply Rabs_le'; lra.
Qed.
(** the logarithm of the f32 constant e *)
Lemma e_log : exists r, fin f32_e r /\ 2 <= r <= 3 /\ Rabs (ln r - 1) <= 2 * uu.
Proof.
  assert (A : approx f32_e 2.7182817459 (uu / 100)) by const_ap. pose proof e_bounds as P.
  destruct A as [r [F H]]. exists r. split; [exact F|]. apply Rabs_bd in H. unfold uu in H. split; [lra|].
  set (q := r / exp 1). assert (Hq : r = q * exp 1) by (unfold q; field; lra).
  assert (Hq1 : 1 - 1.9 * uu <= q <= 1).
  { unfold q. split; (apply Rmult_le_reg_r with (exp 1); [lra|]); unfold Rdiv; rewrite Rmult_assoc, Rinv_l by lra; unfold uu; lra. }
  unfold uu in Hq1. assert (E : ln r = ln q + 1) by (rewrite Hq, ln_mult, ln_exp by lra; reflexivity). rewrite E.
  replace (ln q + 1 - 1) with (ln q) by ring.
  assert (Up : ln q <= 0) by (rewrite <- ln_1; destruct (Req_dec q 1) as [->|]; [lra|left; apply ln_increasing; lra]).
  assert (Lo : 1 - / q <= ln q).
  { assert (ln (/ q) <= / q - 1).
    { rewrite <- (ln_exp (/ q - 1)). pose proof (exp_ineq1_le (/ q - 1)). replace (1 + (/ q - 1)) with (/ q) in H0 by ring.
      assert (0 < / q) by (apply Rinv_0_lt_compat; lra). destruct (Req_dec (/ q) (exp (/ q - 1))) as [->|]; [rewrite !ln_exp; lra|].
      left. apply ln_increasing; lra. }
    rewrite ln_Rinv in H0 by lra. lra. }
  assert (/ q <= 1 + 2 * uu).
  { apply Rmult_le_reg_r with q; [lra|]. rewrite Rinv_l by lra. unfold uu. nra. }
  unfold uu in *. apply Rabs_le'; lra.
Qed.

(** e^(-z), for an exponent with a small relative error *)
Lemma exp_frel pow (Y : f32) s z t : gauss_pow_ok pow -> fin Y (- s) -> rel s z t -> 0 <= t <= 13 * uu -> 0 <= z <= 60 ->
  frel (pow f32_e Y) (exp (- z)) (1860 * uu).
Proof.
  intros HP FY Hs Ht Hz. destruct e_log as (re & Fe & Hre & Hln).
  unfold rel in Hs. assert (Htz : t * z <= 780 * uu) by (replace (780 * uu) with (13 * uu * 60) by ring; apply Rmult_le_compat; lra).
  assert (Hsz : - (780 * uu) <= s - z <= 780 * uu) by (apply Rabs_bd; lra).
  destruct (Rle_lt_dec 0 s) as [P|N].
  2:{ exfalso. destruct (Req_dec z 0) as [->|Hz0]; [rewrite Rmult_0_r in Hs; apply Rabs_bd in Hs; lra|].
      assert (z - t * z <= s) by (apply Rabs_bd in Hs; lra). assert (t * z <= / 2 * z) by (apply Rmult_le_compat_r; unfold uu in Ht; lra). lra. }
  destruct (HP f32_e Y re (- s) Fe FY) as [q [Fq Hq]]; [left; split; [lra|unfold uu in Hsz; lra]|].
  exists q. split; [exact Fq|].
  assert (E : Rpower re (- s) = exp (- z) * exp (- (s * ln re - z))) by (unfold Rpower; rewrite <- exp_plus; f_equal; ring).
  assert (Hu : Rabs (- (s * ln re - z)) <= 903 * uu).
  { rewrite Rabs_Ropp. replace (s * ln re - z) with (s * (ln re - 1) + (s - z)) by ring. eapply Rle_trans; [apply Rabs_triang|].
    rewrite Rabs_mult, (Rabs_pos_eq s P).
    assert (s * Rabs (ln re - 1) <= 61 * (2 * uu)) by (apply Rmult_le_compat; try apply Rabs_pos; try lra; unfold uu in Hsz; lra).
    assert (Rabs (s - z) <= 780 * uu) by (apply Rabs_le'; lra). unfold uu in *. lra. }
  set (w := - (s * ln re - z)) in *. pose proof (exp_near w ltac:(unfold uu in Hu; lra)) as Hw.
  rewrite E in Hq. pose proof (exp_pos (- z)) as Pz. set (ez := exp (- z)) in *.
  assert (Hw' : Rabs (exp w - 1) <= 1806 * uu) by lra. pose proof (Rabs_bd _ _ Hw') as B.
  unfold rel. replace (q - ez) with ((q - ez * exp w) + ez * (exp w - 1)) by ring. eapply Rle_trans; [apply Rabs_triang|].
  rewrite Rabs_mult, (Rabs_pos_eq ez) by lra.
  assert (ez * Rabs (exp w - 1) <= ez * (1806 * uu)) by (apply Rmult_le_compat_l; lra).
  assert (ez * exp w / 1048576 <= ez * (33 * uu)).
  { unfold Rdiv. rewrite Rmult_assoc. apply Rmult_le_compat_l; [lra|]. unfold uu in *. lra. }
  unfold uu in *. nra.
Qed.

Lemma tiny_small : tiny <= / 1152921504606846976.
Proof. unfold tiny. apply Rle_trans with (bpow radix2 (-60)); [apply bpow_le; lia|]. cbn. lra. Qed.
Lemma huge_big : 1152921504606846976 <= huge.
Proof. unfold huge. apply Rle_trans with (bpow radix2 60); [cbn; lra|apply bpow_le; lia]. Qed.
Lemma exp_low z : z <= 60 -> bpow radix2 (-87) <= exp (- z).
Proof.
  intros Hz. apply Rle_trans with (exp (- (60))).
  - rewrite exp_Ropp.
    assert (E : exp 60 = exp 1 ^ 60).
    { rewrite <- Rpower_pow by apply exp_pos. unfold Rpower. rewrite ln_exp. f_equal. rewrite INR_IZR_INZ. change (Z.of_nat 60) with 60%Z. lra. }
    change (-87)%Z with (- (87))%Z. rewrite bpow_opp. apply Rinv_le_contravar; [apply exp_pos|]. rewrite E.
    apply Rle_trans with ((27182819 / 10000000) ^ 60).
    + apply pow_incr. pose proof e_bounds. pose proof (exp_pos 1). lra.
    + unfold Rdiv. rewrite Rpow_mult_distr, pow_inv. rewrite !pow_IZR. change (bpow radix2 87) with (IZR (2 ^ 87)).
      assert (P : 0 < IZR (10000000 ^ Z.of_nat 60)) by (apply IZR_lt; vm_compute; reflexivity).
      apply Rmult_le_reg_r with (IZR (10000000 ^ Z.of_nat 60)); [exact P|]. rewrite Rmult_assoc, Rinv_l, Rmult_1_r by lra.
      rewrite <- mult_IZR. apply IZR_le. vm_compute. discriminate.
  - destruct (Req_dec z 60) as [->|]; [lra|]. left. apply exp_increasing. lra.
Qed.

Lemma neg_div (A Y : f32) a b : fin A a -> fin Y b -> b <> 0 -> Rabs (a / b) <= bpow radix2 (128 - 1) ->
  fin (f32_div (f32_neg A) Y) (- rnd32 (a / b)).
Proof.
  intros FA FY Hb H. rewrite <- rnd_opp. replace (- (a / b)) with (- a / b) by (field; exact Hb).
  apply div_fin; [apply opp_fin; exact FA|exact FY|exact Hb|]. replace (- a / b) with (- (a / b)) by (field; exact Hb). rewrite Rabs_Ropp. exact H.
Qed.
(** the exponent -x/y; x = 0 or not too small *)
Lemma frel_negdiv (A Y : f32) a y t1 t2 : frel A a t1 -> frel Y y t2 -> 0 < y -> a = 0 \/ 0 < a -> (0 < a -> tiny <= a / y) -> a / y <= huge ->
  0 <= t1 <= / 256 -> 0 <= t2 <= / 256 ->
  exists s, fin (f32_div (f32_neg A) Y) (- s) /\ rel s (a / y) (1.01 * (t1 + t2) + 2.1 * uu).
Proof.
  intros FA FY Hy Ha Hlo Hhi Ht1 Ht2. pose proof FA as [r [FA' HA]]. pose proof FY as [s [FY' HY]].
  pose proof (rel_bounds s y t2 Hy HY ltac:(lra)) as Bs.
  destruct Ha as [->|Ha].
  - assert (r = 0) as -> by (unfold rel in HA; rewrite Rmult_0_r in HA; apply Rabs_bd in HA; lra).
    exists 0. split.
    + replace (- 0) with (- rnd32 (0 / s)).
      * apply neg_div; [exact FA'|exact FY'|lra|]. unfold Rdiv. rewrite Rmult_0_l, Rabs_R0. apply bpow_ge_0.
      * f_equal. unfold Rdiv. rewrite Rmult_0_l. unfold rnd32. apply (rnd_Z 0). cbn. lia.
    + unfold rel. replace (0 / y) with 0 by (field; lra). rewrite Rmult_0_r, Rminus_0_r, Rabs_R0. lra.
  - specialize (Hlo Ha). pose proof (frel_div_w A Y a y t1 t2 _ FA FY Ha Hy (conj Hlo Hhi) Ht1 Ht2 (Rle_refl _)) as [q [Fq Hq]].
    pose proof (rel_bounds r a t1 Ha HA ltac:(lra)) as Br.
    assert (Hb : Rabs (r / s) <= bpow radix2 (128 - 1)).
    { apply huge_fit. rewrite Rabs_pos_eq by (apply Rmult_le_pos; [lra|left; apply Rinv_0_lt_compat; lra]).
      apply Rmult_le_reg_r with s; [lra|]. unfold Rdiv. rewrite Rmult_assoc, Rinv_l, Rmult_1_r by lra.
      assert (a <= huge * y). { apply Rmult_le_reg_r with (/ y); [apply Rinv_0_lt_compat; lra|]. rewrite Rmult_assoc, Rinv_r, Rmult_1_r by lra. exact Hhi. }
      assert (0 < huge) by apply bpow_gt_0. nra. }
    assert (q = rnd32 (r / s)) as ->.
    { assert (F2 : fin (f32_div A Y) (rnd32 (r / s))) by (apply div_fin; [exact FA'|exact FY'|lra|exact Hb]).
      destruct Fq as [_ <-]. apply F2. }
    exists (rnd32 (r / s)). split; [apply neg_div; [exact FA'|exact FY'|lra|exact Hb]|exact Hq].
Qed.

(** ** 1/(2 pi sigma^2) * e^(-z) *)
Section Gauss.
  Context (pow : f32 -> f32 -> f32) (HP : gauss_pow_ok pow) (sg : f32) (g : R) (Fg : fin sg g) (Hg : / 256 <= g <= 256).
  Lemma sg_frel : frel sg g 0.
  Proof. exists g. split; [exact Fg|]. unfold rel. rewrite Rminus_diag_eq, Rabs_R0 by reflexivity. lra. Qed.
  Lemma g2_range : / 65536 <= g * g <= 65536.
  Proof. split; [replace (/ 65536) with (/ 256 * / 256) by lra|replace 65536 with (256 * 256) by ring]; apply Rmult_le_compat; lra. Qed.
  Lemma two_frel : frel (f32_of_Z 2) 2 0. Proof. apply (frel_Z 2). lia. Qed.
  Lemma one_frel : frel (f32_of_Z 1) 1 0. Proof. apply (frel_Z 1). lia. Qed.

  Ltac rng := pose proof tiny_small as TS; pose proof huge_big as HB; pose proof pi_bounds as PB; pose proof g2_range as G2; unfold uu in *; cbn [Rmult] in *.

  (** common tail: coefficient D of value 1/(2 pi g^2), exponent -z *)
  Lemma gauss_tail D Y s z t : frel D (1 / (2 * PI * (g * g))) (14 * uu) -> fin Y (- s) -> rel s z t -> 0 <= t <= 13 * uu -> 0 <= z <= 60 ->
    frel (f32_mul D (pow f32_e Y)) (1 / (2 * PI * (g * g)) * exp (- z)) (1900 * uu).
  Proof.
    intros HD FY Hs Ht Hz. pose proof (exp_frel pow Y s z t HP FY Hs Ht Hz) as HE.
    assert (Hd : / 500000 <= 1 / (2 * PI * (g * g)) <= 65536).
    { rng. assert (Hx : / 65536 <= 2 * PI * (g * g) <= 500000).
      { split; [|replace 500000 with (500000 / 65536 * 65536) by lra; apply Rmult_le_compat; lra].
        replace (/ 65536) with (1 * / 65536) by lra. apply Rmult_le_compat; lra. }
      unfold Rdiv. rewrite Rmult_1_l. split; [apply Rinv_le_contravar; lra|].
      replace 65536 with (/ / 65536) by lra. apply Rinv_le_contravar; lra. }
    assert (He1 : exp (- z) <= 1) by (rewrite <- exp_0; destruct (Req_dec z 0) as [->|]; [rewrite Ropp_0; lra|left; apply exp_increasing; lra]).
    pose proof (exp_low z ltac:(lra)) as He0.
    apply (frel_mul_w _ _ _ _ (14 * uu) (1860 * uu)); try assumption; try (unfold uu; lra); try apply exp_pos.
    split.
    - apply Rle_trans with (/ 500000 * bpow radix2 (-87)); [|apply Rmult_le_compat; try lra; apply bpow_ge_0].
      apply Rle_trans with (bpow radix2 (-20) * bpow radix2 (-87)); [unfold tiny; rewrite <- bpow_plus; apply bpow_le; lia|].
      apply Rmult_le_compat_r; [apply bpow_ge_0|]. cbn. lra.
    - pose proof huge_big. pose proof (exp_pos (- z)). nra.
  Qed.

  Lemma two_gg_div x : x / (2 * (g * g)) = x / (2 * g * g). Proof. f_equal. ring. Qed.
  Lemma z_bounds (x : R) : 0 < x -> / 1048576 <= x -> x / (2 * g * g) <= 60 -> tiny <= x / (2 * g * g) <= huge.
  Proof.
    intros Hx Hx1 Hx2. rng. split; [|lra]. apply Rle_trans with (/ 1048576 / 131072); [lra|].
    apply Rmult_le_compat; try lra. apply Rinv_le_contravar; lra.
  Qed.

  (** generate_gaussian_kernel's expression *)
  Lemma kernel_value_frel d2 : (0 <= d2 <= 16777216)%Z -> IZR d2 / (2 * g * g) <= 60 ->
    frel (f32_mul (f32_div (f32_of_Z 1) (f32_mul (f32_mul (f32_mul (f32_of_Z 2) f32_pi) sg) sg))
            (pow f32_e (f32_div (f32_neg (f32_of_Z d2)) (f32_mul (f32_mul (f32_of_Z 2) sg) sg))))
      (1 / (2 * PI * (g * g)) * exp (- (IZR d2 / (2 * g * g)))) (1900 * uu).
  Proof.
    intros Hd Hz. pose proof sg_frel as SG. pose proof two_frel as TW. pose proof one_frel as ON. pose proof pi_frel as PF.
    pose proof g2_range as G2. pose proof pi_bounds as PB. pose proof tiny_small as TS. pose proof huge_big as HB.
    assert (A1 : frel (f32_mul (f32_of_Z 2) f32_pi) (2 * PI) (4 * uu)).
    { apply (frel_mul_w _ _ _ _ 0 uu); try assumption; unfold uu; lra. }
    assert (A2 : frel (f32_mul (f32_mul (f32_of_Z 2) f32_pi) sg) (2 * PI * g) (7 * uu)).
    { apply (frel_mul_w _ _ _ _ (4 * uu) 0); try assumption; try (unfold uu; lra). nra. }
    assert (A3 : frel (f32_mul (f32_mul (f32_mul (f32_of_Z 2) f32_pi) sg) sg) (2 * PI * g * g) (10 * uu)).
    { apply (frel_mul_w _ _ _ _ (7 * uu) 0); try assumption; try (unfold uu; lra); nra. }
    assert (P3 : 2 * PI * g * g = 2 * PI * (g * g)) by ring. rewrite P3 in A3.
    assert (R3 : / 65536 <= 2 * PI * (g * g) <= 500000).
    { split; [replace (/ 65536) with (1 * / 65536) by lra; apply Rmult_le_compat; lra|].
      replace 500000 with (500000 / 65536 * 65536) by lra. apply Rmult_le_compat; lra. }
    assert (A4 : frel (f32_div (f32_of_Z 1) (f32_mul (f32_mul (f32_mul (f32_of_Z 2) f32_pi) sg) sg)) (1 / (2 * PI * (g * g))) (14 * uu)).
    { apply (frel_div_w _ _ _ _ 0 (10 * uu)); try assumption; try (unfold uu; lra).
      unfold Rdiv. rewrite Rmult_1_l. split; [apply Rle_trans with (/ 500000); [lra|apply Rinv_le_contravar; lra]|].
      apply Rle_trans with (/ / 65536); [apply Rinv_le_contravar; lra|lra]. }
    assert (B1 : frel (f32_mul (f32_of_Z 2) sg) (2 * g) (3 * uu)).
    { apply (frel_mul_w _ _ _ _ 0 0); try assumption; unfold uu; lra. }
    assert (B2 : frel (f32_mul (f32_mul (f32_of_Z 2) sg) sg) (2 * g * g) (6 * uu)).
    { apply (frel_mul_w _ _ _ _ (3 * uu) 0); try assumption; try (unfold uu; lra). }
    assert (Hz0 : 0 <= IZR d2 / (2 * g * g)).
    { apply Rmult_le_pos; [apply IZR_le; lia|left; apply Rinv_0_lt_compat; lra]. }
    destruct (frel_negdiv (f32_of_Z d2) _ (IZR d2) (2 * g * g) 0 (6 * uu) (frel_Z d2 ltac:(lia)) B2) as [s [Fs Hs]].
    - lra.
    - destruct (Z.eq_dec d2 0) as [->|]; [left; reflexivity|right; apply IZR_lt; lia].
    - intros Hp. apply z_bounds; [exact Hp| |exact Hz]. apply lt_IZR in Hp. assert (1 <= IZR d2) by (apply IZR_le; lia). lra.
    - lra.
    - lra.
    - unfold uu; lra.
    - eapply gauss_tail; [exact A4|exact Fs|exact Hs|unfold uu; lra|lra].
  Qed.

  (** gaussian_fn's expression *)
  Lemma gaussian_of_frel (XX : f32) q : frel XX q (6.4 * uu) -> q = 0 \/ / 1048576 <= q -> q / (2 * g * g) <= 60 ->
    frel (f32_mul (f32_div (f32_of_Z 1) (f32_mul (f32_mul (f32_of_Z 2) f32_pi) (f32_mul sg sg)))
            (pow f32_e (f32_div (f32_neg XX) (f32_mul (f32_of_Z 2) (f32_mul sg sg)))))
      (1 / (2 * PI * (g * g)) * exp (- (q / (2 * g * g)))) (1900 * uu).
  Proof.
    intros X2 Hx Hz. pose proof sg_frel as SG. pose proof two_frel as TW. pose proof one_frel as ON. pose proof pi_frel as PF.
    pose proof g2_range as G2. pose proof pi_bounds as PB. pose proof tiny_small as TS. pose proof huge_big as HB.
    assert (A1 : frel (f32_mul (f32_of_Z 2) f32_pi) (2 * PI) (4 * uu)).
    { apply (frel_mul_w _ _ _ _ 0 uu); try assumption; unfold uu; lra. }
    assert (S2 : frel (f32_mul sg sg) (g * g) (2.1 * uu)).
    { apply (frel_mul_w _ _ _ _ 0 0); try assumption; unfold uu; lra. }
    assert (R3 : / 65536 <= 2 * PI * (g * g) <= 500000).
    { split; [replace (/ 65536) with (1 * / 65536) by lra; apply Rmult_le_compat; lra|].
      replace 500000 with (500000 / 65536 * 65536) by lra. apply Rmult_le_compat; lra. }
    assert (A3 : frel (f32_mul (f32_mul (f32_of_Z 2) f32_pi) (f32_mul sg sg)) (2 * PI * (g * g)) (9 * uu)).
    { apply (frel_mul_w _ _ _ _ (4 * uu) (2.1 * uu)); try assumption; try (unfold uu; lra). }
    assert (A4 : frel (f32_div (f32_of_Z 1) (f32_mul (f32_mul (f32_of_Z 2) f32_pi) (f32_mul sg sg))) (1 / (2 * PI * (g * g))) (14 * uu)).
    { apply (frel_div_w _ _ _ _ 0 (9 * uu)); try assumption; try (unfold uu; lra).
      unfold Rdiv. rewrite Rmult_1_l. split; [apply Rle_trans with (/ 500000); [lra|apply Rinv_le_contravar; lra]|].
      apply Rle_trans with (/ / 65536); [apply Rinv_le_contravar; lra|lra]. }
    assert (B2 : frel (f32_mul (f32_of_Z 2) (f32_mul sg sg)) (2 * (g * g)) (4.3 * uu)).
    { apply (frel_mul_w _ _ _ _ 0 (2.1 * uu)); try assumption; try (unfold uu; lra). }
    assert (Q0 : 0 <= q) by (destruct Hx; lra).
    assert (Hz0 : 0 <= q / (2 * g * g)). { apply Rmult_le_pos; [lra|left; apply Rinv_0_lt_compat; lra]. }
    destruct (frel_negdiv _ _ (q) (2 * (g * g)) (6.4 * uu) (4.3 * uu) X2 B2) as [s [Fs Hs]].
    - lra.
    - destruct Hx as [->|Hx]; [left; reflexivity|right; lra].
    - intros Hp. rewrite two_gg_div. apply z_bounds; [exact Hp| |exact Hz]. destruct Hx as [->|Hx]; lra.
    - rewrite two_gg_div. lra.
    - unfold uu; lra.
    - unfold uu; lra.
    - rewrite two_gg_div in Hs.
      assert (Ht : 1.01 * (6.4 * uu + 4.3 * uu) + 2.1 * uu <= 13 * uu) by (unfold uu; lra).
      eapply gauss_tail; [exact A4|exact Fs|exact Hs|unfold uu; lra|lra].
  Qed.
End Gauss.

(** ** -1/(pi sigma^4) * (1 + z) * e^(-z) *)
Definition mrel (X : f32) (x t : R) : Prop := exists r, fin X (- r) /\ rel r x t.

Lemma mrel_mul_w X Y x y t1 t2 t' : mrel X x t1 -> frel Y y t2 -> 0 < x -> 0 < y -> tiny <= x * y <= huge ->
  0 <= t1 <= / 256 -> 0 <= t2 <= / 256 -> 1.01 * (t1 + t2) + 2.1 * uu <= t' -> mrel (f32_mul X Y) (x * y) t'.
Proof.
  intros [r [FX HX]] [s [FY HY]] Hx Hy Hxy Ht1 Ht2 Ht'.
  assert (F1 : frel (f32_neg X) x t1).
  { exists r. split; [|exact HX]. rewrite <- (Ropp_involutive r). apply opp_fin. exact FX. }
  destruct (frel_mul_w (f32_neg X) Y x y t1 t2 t' F1 (ex_intro _ s (conj FY HY)) Hx Hy Hxy Ht1 Ht2 Ht') as [q [Fq Hq]].
  exists q. split; [|exact Hq].
  pose proof (rel_bounds r x t1 Hx HX ltac:(lra)) as Br. pose proof (rel_bounds s y t2 Hy HY ltac:(lra)) as Bs.
  assert (Hb : Rabs (r * s) <= bpow radix2 (128 - 1)).
  { apply huge_fit. rewrite Rabs_pos_eq by (apply Rmult_le_pos; lra).
    apply Rle_trans with ((x + x / 64) * (y + y / 64)); [apply Rmult_le_compat; lra|].
    replace ((x + x / 64) * (y + y / 64)) with (x * y * (65 / 64 * (65 / 64))) by field. pose proof tiny_pos. lra. }
  assert (F2 : fin (f32_mul (f32_neg X) Y) (rnd32 (r * s))).
  { apply mul_fin; [|exact FY|exact Hb]. rewrite <- (Ropp_involutive r). apply opp_fin. exact FX. }
  assert (q = rnd32 (r * s)) as -> by (destruct Fq as [_ <-]; apply F2).
  rewrite <- rnd_opp. replace (- (r * s)) with (- r * s) by ring. apply mul_fin; [exact FX|exact FY|].
  replace (- r * s) with (- (r * s)) by ring. rewrite Rabs_Ropp. exact Hb.
Qed.

Section Log.
  Context (pow : f32 -> f32 -> f32) (HP : gauss_pow_ok pow) (sg : f32) (g : R) (Fg : fin sg g) (Hg : / 256 <= g <= 256).
  Lemma log_value_mrel d2 : (0 <= d2 <= 16777216)%Z -> IZR d2 / (2 * g * g) <= 60 ->
    let X := f32_div (f32_neg (f32_of_Z d2)) (f32_mul (f32_mul (f32_of_Z 2) sg) sg) in
    mrel (f32_mul (f32_mul (f32_div (f32_of_Z (-1)) (f32_mul f32_pi (pow sg (f32_of_Z 4)))) (f32_sub (f32_of_Z 1) X)) (pow f32_e X))
      (1 / (PI * g ^ 4) * (1 + IZR d2 / (2 * g * g)) * exp (- (IZR d2 / (2 * g * g)))) (2000 * uu).
  Proof.
    intros Hd Hz X. pose proof (sg_frel sg g Fg) as SG. pose proof two_frel as TW. pose proof pi_frel as PF.
    pose proof (g2_range g Hg) as G2. pose proof pi_bounds as PB. pose proof tiny_small as TS. pose proof huge_big as HB.
    set (z := IZR d2 / (2 * g * g)) in *.
    assert (B1 : frel (f32_mul (f32_of_Z 2) sg) (2 * g) (3 * uu)).
    { apply (frel_mul_w _ _ _ _ 0 0); try assumption; unfold uu; lra. }
    assert (B2 : frel (f32_mul (f32_mul (f32_of_Z 2) sg) sg) (2 * g * g) (6 * uu)).
    { apply (frel_mul_w _ _ _ _ (3 * uu) 0); try assumption; try (unfold uu; lra). }
    assert (Hz0 : 0 <= z).
    { unfold z. apply Rmult_le_pos; [apply IZR_le; lia|left; apply Rinv_0_lt_compat; lra]. }
    destruct (frel_negdiv (f32_of_Z d2) _ (IZR d2) (2 * g * g) 0 (6 * uu) (frel_Z d2 ltac:(lia)) B2) as [s [Fs Hs]].
    { lra. }
    { destruct (Z.eq_dec d2 0) as [->|]; [left; reflexivity|right; apply IZR_lt; lia]. }
    { intros Hp. apply (z_bounds g Hg); [exact Hp| |exact Hz]. apply lt_IZR in Hp. assert (1 <= IZR d2) by (apply IZR_le; lia). lra. }
    { fold z. lra. }
    { lra. }
    { unfold uu; lra. }
    fold X in Fs. fold z in Hs.
    (* e^X *)
    assert (E : frel (pow f32_e X) (exp (- z)) (1860 * uu)) by (eapply exp_frel; [exact HP|exact Fs|exact Hs|unfold uu; lra|lra]).
    (* 1 - X *)
    assert (M : frel (f32_sub (f32_of_Z 1) X) (1 + z) (12 * uu)).
    { assert (Hsz : Rabs (s - z) <= 9 * uu * z) by (unfold rel in Hs; eapply Rle_trans; [exact Hs|]; apply Rmult_le_compat_r; unfold uu; lra).
      apply Rabs_bd in Hsz. assert (0 <= uu * z <= 60 * uu) by (split; [apply Rmult_le_pos; unfold uu; lra|rewrite Rmult_comm; apply Rmult_le_compat_r; unfold uu; lra]).
      apply (frel_round_w _ (1 - - s) _ (9 * uu)).
      - apply sub_fin; [apply (of_Z_isZ 1); lia|exact Fs|]. apply big. apply Rabs_le'; unfold uu in *; lra.
      - unfold rel. apply Rabs_le'; unfold uu in *; lra.
      - lra.
      - unfold uu; lra.
      - unfold uu; lra. }
    (* -1 / (pi sigma^4) *)
    assert (G4 : / 4294967296 <= g ^ 4 <= 4294967296).
    { replace (g ^ 4) with ((g * g) * (g * g)) by ring.
      split; [replace (/ 4294967296) with (/ 65536 * / 65536) by lra|replace 4294967296 with (65536 * 65536) by lra]; apply Rmult_le_compat; lra. }
    assert (P4 : frel (pow sg (f32_of_Z 4)) (g ^ 4) (33 * uu)).
    { destruct (HP sg (f32_of_Z 4) g 4 Fg) as [q [Fq Hq]].
      - apply (of_Z_isZ 4). lia.
      - right. split; [exact Hg|reflexivity].
      - exists q. split; [exact Fq|]. unfold rel. replace (Rpower g 4) with (g ^ 4) in Hq.
        + unfold uu. lra.
        + rewrite <- (Rpower_pow 4) by lra. f_equal. cbn. ring. }
    assert (P5 : frel (f32_mul f32_pi (pow sg (f32_of_Z 4))) (PI * g ^ 4) (37 * uu)).
    { apply (frel_mul_w _ _ _ _ uu (33 * uu)); try assumption; try (unfold uu; lra).
      split; [apply Rle_trans with (1 * / 4294967296); [lra|apply Rmult_le_compat; lra]|].
      apply Rle_trans with (4 * 4294967296); [apply Rmult_le_compat; lra|lra]. }
    assert (R5 : / 17179869184 <= / (PI * g ^ 4) <= 4294967296).
    { assert (/ 4294967296 <= PI * g ^ 4 <= 17179869184).
      { split; [apply Rle_trans with (1 * / 4294967296); [lra|apply Rmult_le_compat; lra]|].
        apply Rle_trans with (4 * 4294967296); [apply Rmult_le_compat; lra|lra]. }
      split; [apply Rinv_le_contravar; lra|]. replace 4294967296 with (/ / 4294967296) by lra. apply Rinv_le_contravar; lra. }
    assert (P6 : mrel (f32_div (f32_of_Z (-1)) (f32_mul f32_pi (pow sg (f32_of_Z 4)))) (1 / (PI * g ^ 4)) (40 * uu)).
    { pose proof P5 as [b [Fb Hb]]. pose proof (frel_div_w (f32_of_Z 1) _ 1 (PI * g ^ 4) 0 (37 * uu) (40 * uu) one_frel P5) as F.
      assert (HB0 : / 4294967296 <= PI * g ^ 4) by (apply Rle_trans with (1 * / 4294967296); [lra|apply Rmult_le_compat; lra]).
      assert (R50 : 1 / (PI * g ^ 4) = / (PI * g ^ 4)) by (unfold Rdiv; ring). rewrite R50 in F.
      specialize (F ltac:(lra) ltac:(lra) ltac:(lra) ltac:(lra) ltac:(unfold uu; lra) ltac:(unfold uu; lra)).
      destruct F as [q [Fq Hq]].
      pose proof (rel_bounds b _ _ ltac:(apply Rlt_le_trans with (2 := HB0); lra) Hb ltac:(unfold uu; lra)) as Bb.
      assert (Hbb : Rabs (1 / b) <= bpow radix2 (128 - 1)).
      { apply big. unfold Rdiv. rewrite Rmult_1_l, Rabs_pos_eq by (left; apply Rinv_0_lt_compat; lra).
        replace 1099511627776 with (/ / 1099511627776) by lra. apply Rinv_le_contravar; lra. }
      assert (F2 : fin (f32_div (f32_of_Z 1) (f32_mul f32_pi (pow sg (f32_of_Z 4)))) (rnd32 (1 / b))).
      { apply div_fin; [apply (of_Z_isZ 1); lia|exact Fb|lra|exact Hbb]. }
      assert (q = rnd32 (1 / b)) as -> by (destruct Fq as [_ <-]; apply F2).
      exists (rnd32 (1 / b)). split; [|rewrite R50; exact Hq].
      rewrite <- rnd_opp. replace (- (1 / b)) with (-1 / b) by (field; lra).
      apply div_fin; [apply (of_Z_isZ (-1)); lia|exact Fb|lra|]. replace (-1 / b) with (- (1 / b)) by (field; lra). rewrite Rabs_Ropp. exact Hbb. }
    assert (R6 : / 17179869184 <= 1 / (PI * g ^ 4) <= 4294967296) by (unfold Rdiv; rewrite Rmult_1_l; exact R5).
    assert (R7 : / 17179869184 <= 1 / (PI * g ^ 4) * (1 + z) <= 4294967296 * 61).
    { split; [replace (/ 17179869184) with (/ 17179869184 * 1) by lra|]; apply Rmult_le_compat; lra. }
    assert (P7 : mrel (f32_mul (f32_div (f32_of_Z (-1)) (f32_mul f32_pi (pow sg (f32_of_Z 4)))) (f32_sub (f32_of_Z 1) X))
        (1 / (PI * g ^ 4) * (1 + z)) (55 * uu)).
    { apply (mrel_mul_w _ _ _ _ (40 * uu) (12 * uu)); try assumption; try (unfold uu; lra). }
    assert (He1 : exp (- z) <= 1) by (rewrite <- exp_0; destruct (Req_dec z 0) as [->|]; [rewrite Ropp_0; lra|left; apply exp_increasing; lra]).
    pose proof (exp_low z ltac:(lra)) as He0.
    apply (mrel_mul_w _ _ _ _ (55 * uu) (1860 * uu)); try assumption; try (unfold uu; lra); try apply exp_pos.
    split.
    - apply Rle_trans with (/ 17179869184 * bpow radix2 (-87)).
      + unfold tiny. replace (/ 17179869184) with (bpow radix2 (-34)) by (cbn; lra). rewrite <- bpow_plus. apply bpow_le. lia.
      + apply Rmult_le_compat; try lra. apply bpow_ge_0.
    - apply Rle_trans with (4294967296 * 61 * 1); [|lra]. pose proof (exp_pos (- z)). apply Rmult_le_compat; lra.
  Qed.
End Log.
