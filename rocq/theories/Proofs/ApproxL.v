(** * Error bounds for f32 computations of moderate size *)
From Coq Require Import Lra.
From Verif.Model Require Import Base Float.
From Verif.Spec Require Import FloatS.
From Verif.Proofs Require Import BaseL FloatL.
From Flocq Require Import Core BinarySingleNaN.
Open Scope R_scope.

(** half an ulp of numbers just below 1 *)
Definition uu : R := / 33554432.
(** X is finite and within e of x *)
Definition approx (X : f32) (x e : R) : Prop := exists r, fin X r /\ Rabs (r - x) <= e.

Lemma uu_bpow k : (0 <= k)%Z -> IZR (2 ^ k) * uu = bpow radix2 (k - 25).
Proof.
  intros Hk. replace (k - 25)%Z with (k + -25)%Z by lia. rewrite bpow_plus. f_equal. apply (IZR_Zpower radix2). exact Hk.
Qed.
Lemma rnd_err k x : (0 <= k <= 100)%Z -> Rabs x <= IZR (2 ^ k) -> Rabs (rnd32 x - x) <= IZR (2 ^ k) * uu.
Proof.
  intros Hk Hx. rewrite uu_bpow by lia. assert (E : IZR (2 ^ k) = bpow radix2 k) by (apply (IZR_Zpower radix2); lia).
  rewrite E in Hx. destruct (Rle_lt_or_eq_dec _ _ Hx) as [H|H].
  - destruct (Req_dec x 0) as [->|Hx0].
    + unfold rnd32. rewrite (rnd_Z 0) by (cbn; lia). rewrite Rminus_diag_eq, Rabs_R0 by reflexivity. apply bpow_ge_0.
    + eapply Rle_trans; [apply error_le_half_ulp; apply vexp|].
      rewrite ulp_neq_0 by exact Hx0. change (/ 2) with (bpow radix2 (-1)). rewrite <- bpow_plus. apply bpow_le.
      unfold cexp. pose proof (mag_le_bpow radix2 x k Hx0 H) as Hm. unfold SpecFloat.fexp, SpecFloat.emin. lia.
  - assert (G : generic_format radix2 (SpecFloat.fexp 24 128) x).
    { apply generic_format_abs_inv. rewrite H. apply generic_format_bpow. unfold SpecFloat.fexp, SpecFloat.emin. lia. }
    unfold rnd32. rewrite rnd_fmt by exact G. rewrite Rminus_diag_eq, Rabs_R0 by reflexivity. apply bpow_ge_0.
Qed.
Lemma small_bpow k x : (0 <= k <= 100)%Z -> Rabs x <= IZR (2 ^ k) -> Rabs x <= bpow radix2 (128 - 1).
Proof.
  intros Hk H. eapply Rle_trans; [exact H|]. replace (IZR (2 ^ k)) with (bpow radix2 k) by (symmetry; apply (IZR_Zpower radix2); lia).
  apply bpow_le. lia.
Qed.

Lemma fin_ap X r : fin X r -> approx X r 0.
Proof. intros H. exists r. split; [exact H|]. rewrite Rminus_diag_eq, Rabs_R0; lra. Qed.
Lemma ap_Z z : (Z.abs z <= 16777216)%Z -> approx (f32_of_Z z) (IZR z) 0.
Proof. intros H. apply fin_ap. apply of_Z_isZ. exact H. Qed.
Lemma ap_weaken X x e e' : approx X x e -> e <= e' -> approx X x e'.
Proof. intros [r [F H]] He. exists r. split; [exact F|lra]. Qed.
Lemma ap_pos X x e : approx X x e -> 0 <= e.
Proof. intros [r [_ H]]. pose proof (Rabs_pos (r - x)). lra. Qed.
Lemma ap_eq X x y e : approx X x e -> x = y -> approx X y e.
Proof. intros H <-. exact H. Qed.

Lemma Rabs_le' a b : - b <= a -> a <= b -> Rabs a <= b.
Proof. intros. apply Rabs_le. split; assumption. Qed.
Lemma Rabs_bd a b : Rabs a <= b -> - b <= a <= b.
Proof. intros. apply Rabs_le_inv. assumption. Qed.

(** the real result of one operation, then its rounding *)
Lemma ap_round k (X : f32) a x e : fin X (rnd32 a) -> Rabs (a - x) <= e -> (0 <= k <= 100)%Z -> Rabs a <= IZR (2 ^ k) ->
  approx X x (e + IZR (2 ^ k) * uu).
Proof.
  intros F H Hk Hb. exists (rnd32 a). split; [exact F|]. pose proof (rnd_err k a Hk Hb).
  replace (rnd32 a - x) with ((rnd32 a - a) + (a - x)) by ring. eapply Rle_trans; [apply Rabs_triang|]. lra.
Qed.
Lemma ap_add k X Y x y e1 e2 e : approx X x e1 -> approx Y y e2 -> (0 <= k <= 100)%Z ->
  Rabs (x + y) + (e1 + e2) <= IZR (2 ^ k) -> e1 + e2 + IZR (2 ^ k) * uu <= e -> approx (f32_add X Y) (x + y) e.
Proof.
  intros [r [Fx Hx]] [s [Fy Hy]] Hk Hb He.
  assert (D : Rabs (r + s - (x + y)) <= e1 + e2).
  { replace (r + s - (x + y)) with ((r - x) + (s - y)) by ring. eapply Rle_trans; [apply Rabs_triang|]. lra. }
  assert (B : Rabs (r + s) <= IZR (2 ^ k)).
  { replace (r + s) with ((x + y) + (r + s - (x + y))) by ring. eapply Rle_trans; [apply Rabs_triang|]. lra. }
  eapply ap_weaken; [apply (ap_round k _ (r + s)); eauto|exact He]. apply add_fin; auto. apply (small_bpow k); auto.
Qed.
Lemma ap_sub k X Y x y e1 e2 e : approx X x e1 -> approx Y y e2 -> (0 <= k <= 100)%Z ->
  Rabs (x - y) + (e1 + e2) <= IZR (2 ^ k) -> e1 + e2 + IZR (2 ^ k) * uu <= e -> approx (f32_sub X Y) (x - y) e.
Proof.
  intros [r [Fx Hx]] [s [Fy Hy]] Hk Hb He.
  assert (D : Rabs (r - s - (x - y)) <= e1 + e2).
  { replace (r - s - (x - y)) with ((r - x) + - (s - y)) by ring. eapply Rle_trans; [apply Rabs_triang|]. rewrite Rabs_Ropp. lra. }
  assert (B : Rabs (r - s) <= IZR (2 ^ k)).
  { replace (r - s) with ((x - y) + (r - s - (x - y))) by ring. eapply Rle_trans; [apply Rabs_triang|]. lra. }
  eapply ap_weaken; [apply (ap_round k _ (r - s)); eauto|exact He]. apply sub_fin; auto. apply (small_bpow k); auto.
Qed.
(** |x| <= a, |y| <= b *)
Lemma ap_mul k a b X Y x y e1 e2 e : approx X x e1 -> approx Y y e2 -> (0 <= k <= 100)%Z ->
  Rabs x <= a -> Rabs y <= b -> (a + e1) * (b + e2) <= IZR (2 ^ k) ->
  a * e2 + b * e1 + e1 * e2 + IZR (2 ^ k) * uu <= e -> approx (f32_mul X Y) (x * y) e.
Proof.
  intros [r [Fx Hx]] [s [Fy Hy]] Hk Ha Hb HB He.
  pose proof (Rabs_pos x). pose proof (Rabs_pos y). pose proof (Rabs_pos (r - x)). pose proof (Rabs_pos (s - y)).
  assert (D : Rabs (r * s - x * y) <= a * e2 + b * e1 + e1 * e2).
  { replace (r * s - x * y) with (x * (s - y) + y * (r - x) + (r - x) * (s - y)) by ring.
    eapply Rle_trans; [apply Rabs_triang|]. apply Rplus_le_compat; [eapply Rle_trans; [apply Rabs_triang|]; apply Rplus_le_compat|];
      rewrite Rabs_mult; apply Rmult_le_compat; assumption. }
  assert (B : Rabs (r * s) <= IZR (2 ^ k)).
  { rewrite Rabs_mult. eapply Rle_trans; [|exact HB].
    assert (Rabs r <= a + e1) by (replace r with (x + (r - x)) by ring; eapply Rle_trans; [apply Rabs_triang|lra]).
    assert (Rabs s <= b + e2) by (replace s with (y + (s - y)) by ring; eapply Rle_trans; [apply Rabs_triang|lra]).
    apply Rmult_le_compat; auto using Rabs_pos. }
  eapply ap_weaken; [apply (ap_round k _ (r * s)); eauto|exact He]. apply mul_fin; auto. apply (small_bpow k); auto.
Qed.
(** y > 0 known to at least half its size, |x| <= q * y *)
Lemma ap_div k q X Y x y e1 e2 e : approx X x e1 -> approx Y y e2 -> (0 <= k <= 100)%Z ->
  0 < y -> e2 <= y / 2 -> Rabs x <= q * y ->
  q + 2 * (e1 + q * e2) / y <= IZR (2 ^ k) ->
  2 * (e1 + q * e2) / y + IZR (2 ^ k) * uu <= e -> approx (f32_div X Y) (x / y) e.
Proof.
  intros [r [Fx Hx]] [s [Fy Hy]] Hk Py Hy2 Hq HB He.
  pose proof (Rabs_pos x). pose proof (Rabs_pos (r - x)). pose proof (Rabs_pos (s - y)).
  assert (Hs : y / 2 <= s) by (apply Rabs_bd in Hy; lra).
  assert (Q0 : 0 <= q).
  { destruct (Rle_lt_dec 0 q) as [?|N]; [assumption|]. assert (q * y < 0) by (apply Ropp_lt_cancel; rewrite Ropp_0, Ropp_mult_distr_l; apply Rmult_lt_0_compat; lra). lra. }
  assert (D : Rabs (r / s - x / y) <= 2 * (e1 + q * e2) / y).
  { replace (r / s - x / y) with (((r - x) * y + x * (y - s)) / (s * y)) by (field; lra).
    unfold Rdiv. rewrite Rabs_mult. rewrite (Rabs_pos_eq (/ (s * y))) by (apply Rlt_le, Rinv_0_lt_compat, Rmult_lt_0_compat; lra).
    apply Rle_trans with (((e1 + q * e2) * y) * / (s * y)).
    - apply Rmult_le_compat_r; [apply Rlt_le, Rinv_0_lt_compat, Rmult_lt_0_compat; lra|].
      eapply Rle_trans; [apply Rabs_triang|]. rewrite !Rabs_mult. rewrite (Rabs_pos_eq y) by lra.
      rewrite (Rabs_minus_sym y s). assert (Rabs (r - x) * y <= e1 * y) by (apply Rmult_le_compat_r; lra).
      assert (Rabs x * Rabs (s - y) <= (q * y) * e2) by (apply Rmult_le_compat; auto). lra.
    - replace ((e1 + q * e2) * y * / (s * y)) with ((e1 + q * e2) * / s) by (field; lra).
      replace (2 * (e1 + q * e2) * / y) with ((e1 + q * e2) * / (y / 2)) by (field; lra).
      apply Rmult_le_compat_l; [|apply Rinv_le; lra].
      assert (0 <= q * e2) by (apply Rmult_le_pos; lra). lra. }
  assert (B : Rabs (r / s) <= IZR (2 ^ k)).
  { replace (r / s) with (x / y + (r / s - x / y)) by ring. eapply Rle_trans; [apply Rabs_triang|].
    assert (Rabs (x / y) <= q).
    { unfold Rdiv. rewrite Rabs_mult, (Rabs_pos_eq (/ y)) by (apply Rlt_le, Rinv_0_lt_compat; lra).
      apply Rmult_le_reg_r with y; [lra|]. rewrite Rmult_assoc, Rinv_l, Rmult_1_r by lra. exact Hq. }
    lra. }
  eapply ap_weaken; [apply (ap_round k _ (r / s)); eauto|exact He]. apply div_fin; auto; [lra|]. apply (small_bpow k); auto.
Qed.
(** a byte scaled to [0,1] *)
Lemma ap_byte z : (0 <= z <= 255)%Z -> approx (f32_div (f32_of_Z z) (f32_of_Z 255)) (IZR z / 255) uu.
Proof.
  intros H. assert (0 <= IZR z <= 255) by (split; [apply (IZR_le 0)|apply (IZR_le z 255)]; lia).
  apply (ap_div 0 1 _ _ _ 255 0 0); try lra; try lia.
  - apply ap_Z. lia.
  - apply (ap_Z 255). lia.
  - rewrite Rabs_pos_eq; lra.
Qed.
(** truncation to a byte of a number close to the byte z *)
Lemma ap_trunc X z e : approx X (IZR z) e -> e < 1 -> (0 <= z <= 255)%Z ->
  (Z.max 0 (z - 1) <= f32_to_int U8 X <= z)%Z.
Proof.
  intros [r [F H]] He Hz. apply Rabs_bd in H. unfold f32_to_int. rewrite (to_int_fin U8 X r ltac:(cbn; lia) F).
  unfold clampZ. cbn [lo hi U8].
  assert (T : (z - 1 <= Ztrunc r <= z \/ (z = 0 /\ Ztrunc r = 0))%Z).
  { destruct (Rle_lt_dec 0 r) as [P|P].
    - left. rewrite Ztrunc_floor by exact P. pose proof (Zfloor_lb r) as L. pose proof (Zfloor_ub r) as U. split.
      + assert (IZR z - 1 < IZR (Zfloor r) + 1) by lra. assert (z - 2 < Zfloor r)%Z; [|lia]. apply lt_IZR. rewrite minus_IZR. lra.
      + assert (Zfloor r < z + 1)%Z; [|lia]. apply lt_IZR. rewrite plus_IZR. lra.
    - right. assert (z < 1)%Z by (apply lt_IZR; lra). split; [lia|].
      unfold Ztrunc. destruct (Rlt_bool_spec r 0) as [_|N]; [|lra]. assert (z = 0)%Z by lia. subst z.
      unfold Zceil. assert (Zfloor (- r) = 0)%Z; [|lia]. apply Zfloor_imp. cbn. lra. }
  lia.
Qed.
