(** * Error analysis of the sRGB transfer functions *)
From Coq Require Import Lra.
From Verif.Model Require Import Base Float.
From Verif.Spec Require Import FloatS PowS ConvS.
From Verif.Proofs Require Import BaseL FloatL FloatL2 ApproxL PowL.
From Flocq Require Import Core BinarySingleNaN.
Open Scope R_scope.

(** ** relative errors of f32 operations *)
Definition frel (X : f32) (x t : R) : Prop := exists r, fin X r /\ rel r x t.

Lemma two_uu : bpow radix2 (-24) = 2 * uu. Proof. unfold uu. cbn. lra. Qed.
Lemma frel_round (X : f32) a x t t' : fin X (rnd32 a) -> rel a x t -> / 1048576 <= x <= 1048576 -> t <= / 64 ->
  t + 2.1 * uu <= t' -> frel X x t'.
Proof.
  intros F H Hx Ht Ht'. exists (rnd32 a). split; [exact F|]. destruct (rel_factor a x t ltac:(lra) H) as [d [-> Hd]].
  apply Rabs_bd in Hd.
  assert (Hp : Rabs (x * d) <= x * / 64) by (rewrite Rabs_mult, (Rabs_pos_eq x) by lra; apply Rmult_le_compat_l; [lra|apply Rabs_le'; lra]).
  apply Rabs_bd in Hp.
  assert (E : Rabs (rnd32 (x * (1 + d)) - x * (1 + d)) <= 2 * uu * (x * (1 + d))).
  { rewrite <- two_uu. rewrite <- (Rabs_pos_eq (x * (1 + d))) at 3 by lra. apply rel_err. rewrite Rabs_pos_eq by lra.
    apply Rle_trans with (bpow radix2 (-21)); [apply bpow_le; lia|]. cbn. lra. }
  unfold rel. replace (rnd32 (x * (1 + d)) - x) with ((rnd32 (x * (1 + d)) - x * (1 + d)) + x * d) by ring.
  eapply Rle_trans; [apply Rabs_triang|].
  assert (Hxd : Rabs (x * d) <= x * t) by (rewrite Rabs_mult, (Rabs_pos_eq x) by lra; apply Rmult_le_compat_l; [lra|apply Rabs_le'; lra]).
  assert (2 * uu * (x * (1 + d)) <= 2.1 * uu * x).
  { replace (2 * uu * (x * (1 + d))) with (uu * (2 * (x * (1 + d)))) by ring. replace (2.1 * uu * x) with (uu * (2.1 * x)) by ring.
    apply Rmult_le_compat_l; [unfold uu; lra|lra]. }
  assert ((t + 2.1 * uu) * x <= t' * x) by (apply Rmult_le_compat_r; lra). lra.
Qed.
Lemma frel_Z z : (Z.abs z <= 16777216)%Z -> frel (f32_of_Z z) (IZR z) 0.
Proof. intros H. exists (IZR z). split; [apply of_Z_isZ; exact H|]. unfold rel. rewrite Rminus_diag_eq, Rabs_R0 by reflexivity. lra. Qed.
Lemma rel_weaken q x t t' : 0 <= x -> rel q x t -> t <= t' -> rel q x t'.
Proof. unfold rel. intros Hx H Ht. eapply Rle_trans; [exact H|]. apply Rmult_le_compat_r; assumption. Qed.
Lemma rel_bounds q x t : 0 < x -> rel q x t -> t <= / 64 -> x - x / 64 <= q <= x + x / 64.
Proof.
  intros Hx H Ht. unfold rel in H. assert (t * x <= / 64 * x) by (apply Rmult_le_compat_r; lra). apply Rabs_bd in H. lra.
Qed.
Lemma big x : Rabs x <= 1099511627776 -> Rabs x <= bpow radix2 (128 - 1).
Proof. intros H. eapply Rle_trans; [exact H|]. apply Rle_trans with (bpow radix2 40); [cbn; lra|apply bpow_le; lia]. Qed.

Lemma frel_add X Y x y t t' : frel X x t -> frel Y y t -> 0 < x -> 0 < y -> / 1048576 <= x + y <= 1048576 -> t <= / 64 ->
  t + 2.1 * uu <= t' -> frel (f32_add X Y) (x + y) t'.
Proof.
  intros [r [FX HX]] [s [FY HY]] Hx Hy Hxy Ht Ht'.
  pose proof (rel_bounds r x t Hx HX Ht). pose proof (rel_bounds s y t Hy HY Ht).
  apply (frel_round _ (r + s) _ t); try assumption.
  - apply add_fin; [exact FX|exact FY|]. apply big. rewrite Rabs_pos_eq; lra.
  - unfold rel in *. replace (r + s - (x + y)) with ((r - x) + (s - y)) by ring. eapply Rle_trans; [apply Rabs_triang|]. lra.
Qed.
Lemma frel_mul X Y x y t1 t2 t' : frel X x t1 -> frel Y y t2 -> 0 < x <= 1048576 -> 0 < y <= 1048576 -> / 1048576 <= x * y <= 1048576 ->
  0 <= t1 <= / 256 -> 0 <= t2 <= / 256 -> 1.01 * (t1 + t2) + 2.1 * uu <= t' -> frel (f32_mul X Y) (x * y) t'.
Proof.
  intros [r [FX HX]] [s [FY HY]] Hx Hy Hxy Ht1 Ht2 Ht'.
  destruct (rel_factor r x t1 ltac:(lra) HX) as [d1 [-> H1]]. destruct (rel_factor s y t2 ltac:(lra) HY) as [d2 [-> H2]].
  pose proof (Rabs_bd _ _ H1). pose proof (Rabs_bd _ _ H2).
  assert (R : rel (x * (1 + d1) * (y * (1 + d2))) (x * y) (1.01 * (t1 + t2))).
  { apply (factor_rel _ _ (d1 + d2 + d1 * d2)); [apply Rmult_lt_0_compat; lra|ring|].
    assert (Rabs (d1 * d2) <= t1 * / 256) by (rewrite Rabs_mult; apply Rmult_le_compat; try apply Rabs_pos; lra).
    eapply Rle_trans; [apply Rabs_triang|]. eapply Rle_trans; [apply Rplus_le_compat_r, Rabs_triang|]. lra. }
  assert (B : x * y - x * y / 64 <= x * (1 + d1) * (y * (1 + d2)) <= x * y + x * y / 64) by (apply (rel_bounds _ _ (1.01 * (t1 + t2))); [lra|exact R|lra]).
  apply (frel_round _ (x * (1 + d1) * (y * (1 + d2))) _ (1.01 * (t1 + t2))); try assumption; try lra.
  apply mul_fin; [exact FX|exact FY|]. apply big. rewrite Rabs_pos_eq; lra.
Qed.
Lemma frel_div X Y x y t1 t2 t' : frel X x t1 -> frel Y y t2 -> 0 < x <= 1048576 -> 0 < y <= 1048576 -> / 1048576 <= x / y <= 1048576 ->
  0 <= t1 <= / 256 -> 0 <= t2 <= / 256 -> 1.01 * (t1 + t2) + 2.1 * uu <= t' -> frel (f32_div X Y) (x / y) t'.
Proof.
  intros [r [FX HX]] [s [FY HY]] Hx Hy Hxy Ht1 Ht2 Ht'.
  destruct (rel_factor r x t1 ltac:(lra) HX) as [d1 [-> H1]]. destruct (rel_factor s y t2 ltac:(lra) HY) as [d2 [-> H2]].
  pose proof (Rabs_bd _ _ H1). pose proof (Rabs_bd _ _ H2).
  assert (Hs0 : y * (1 + d2) <> 0) by (apply Rmult_integral_contrapositive; lra).
  assert (R : rel (x * (1 + d1) / (y * (1 + d2))) (x / y) (1.01 * (t1 + t2))).
  { apply (factor_rel _ _ ((d1 - d2) / (1 + d2))); [apply Rdiv_lt_0_compat; lra|field; lra|].
    unfold Rdiv. rewrite Rabs_mult. apply Rle_trans with ((t1 + t2) * 1.01); [|lra].
    apply Rmult_le_compat; try apply Rabs_pos.
    - unfold Rminus. eapply Rle_trans; [apply Rabs_triang|]. rewrite Rabs_Ropp. lra.
    - rewrite Rabs_pos_eq by (left; apply Rinv_0_lt_compat; lra). apply Rmult_le_reg_r with (1 + d2); [lra|]. rewrite Rinv_l; lra. }
  assert (B : x / y - x / y / 64 <= x * (1 + d1) / (y * (1 + d2)) <= x / y + x / y / 64) by (apply (rel_bounds _ _ (1.01 * (t1 + t2))); [lra|exact R|lra]).
  apply (frel_round _ (x * (1 + d1) / (y * (1 + d2))) _ (1.01 * (t1 + t2))); try assumption; try lra.
  apply div_fin; [exact FX|exact FY|exact Hs0|]. apply big. rewrite Rabs_pos_eq; lra.
Qed.
Lemma ap_frel X x e t : approx X x e -> e <= t * x -> frel X x t.
Proof. intros [r [F H]] He. exists r. split; [exact F|]. unfold rel. lra. Qed.
Lemma frel_ap X x t e : frel X x t -> t * x <= e -> approx X x e.
Proof. intros [r [F H]] He. exists r. split; [exact F|]. unfold rel in H. lra. Qed.
Lemma frel_weaken X x t t' : 0 <= x -> frel X x t -> t <= t' -> frel X x t'.
Proof. intros Hx [r [F H]] Ht. exists r. split; [exact F|]. eapply rel_weaken; eassumption. Qed.

(** ** rational bounds of real powers *)
Lemma Rpower_ge_root x y (m n : nat) : 0 < x -> 0 < y -> (0 < n)%nat -> y ^ n <= x ^ m -> y <= Rpower x (INR m / INR n).
Proof.
  intros Hx Hy Hn H. assert (Hn0 : 0 < INR n) by (apply lt_0_INR; exact Hn).
  assert (E1 : y = Rpower (y ^ n) (/ INR n)).
  { rewrite <- Rpower_pow by exact Hy. rewrite Rpower_mult, Rinv_r, Rpower_1; lra. }
  assert (E2 : Rpower x (INR m / INR n) = Rpower (x ^ m) (/ INR n)).
  { rewrite <- Rpower_pow by exact Hx. rewrite Rpower_mult. reflexivity. }
  rewrite E1, E2. apply Rle_Rpower_l; [left; apply Rinv_0_lt_compat; exact Hn0|]. split; [apply pow_lt; exact Hy|exact H].
Qed.
Lemma Rpower_le_root x y (m n : nat) : 0 < x -> 0 < y -> (0 < n)%nat -> x ^ m <= y ^ n -> Rpower x (INR m / INR n) <= y.
Proof.
  intros Hx Hy Hn H. assert (Hn0 : 0 < INR n) by (apply lt_0_INR; exact Hn).
  assert (E1 : y = Rpower (y ^ n) (/ INR n)).
  { rewrite <- Rpower_pow by exact Hy. rewrite Rpower_mult, Rinv_r, Rpower_1; lra. }
  assert (E2 : Rpower x (INR m / INR n) = Rpower (x ^ m) (/ INR n)).
  { rewrite <- Rpower_pow by exact Hx. rewrite Rpower_mult. reflexivity. }
  rewrite E2. rewrite E1. apply Rle_Rpower_l; [left; apply Rinv_0_lt_compat; exact Hn0|]. split; [apply pow_lt; exact Hx|exact H].
Qed.

(** ** decoding *)
Definition cbase (v : Z) : R := (IZR v + 14.025) / 269.025.
Lemma base_range v : (11 <= v <= 255)%Z -> 0.093 <= cbase v <= 1.
Proof. intros H. assert (11 <= IZR v <= 255) by (split; [apply (IZR_le 11)|apply (IZR_le v 255)]; lia). unfold cbase. lra. Qed.
Lemma linear_base v : (11 <= v)%Z -> linear_light v = Rpower (cbase v) 2.2.
Proof. intros H. unfold linear_light. replace (v <=? 10)%Z with false by lia. reflexivity. Qed.
Lemma base_power_low v : (11 <= v <= 255)%Z -> 0.0047 <= Rpower (cbase v) 2.2 <= 1.
Proof.
  intros H. pose proof (base_range v H) as B. split; [|apply Rpower_le_1; lra].
  apply Rle_trans with (Rpower 0.093 2.2); [|apply Rle_Rpower_l; lra].
  apply Rle_trans with (Rpower 0.093 (INR 9 / INR 4)).
  - apply Rpower_ge_root; try lra; try lia.
  - apply Rpower_antitone; [lra|]. cbn. lra.
Qed.
Lemma linear_range v : (0 <= v <= 255)%Z -> 0 <= linear_light v <= 1.
Proof.
  intros H. destruct (Z_le_gt_dec v 10) as [L|G].
  - unfold linear_light. replace (v <=? 10)%Z with true by lia. assert (0 <= IZR v <= 10) by (split; [apply (IZR_le 0)|apply (IZR_le v 10)]; lia). lra.
  - rewrite linear_base by lia. pose proof (base_power_low v ltac:(lia)). lra.
Qed.

Lemma decode_ap pow v : pow_ok pow -> (0 <= v <= 255)%Z -> approx (srgb_decode pow v) (linear_light v) (130 * uu).
Proof.
  intros HP Hv. unfold srgb_decode. destruct (Z_le_gt_dec v 10) as [L|G].
  - unfold linear_light. replace (v <=? 10)%Z with true by lia. assert (0 <= IZR v <= 10) by (split; [apply (IZR_le 0)|apply (IZR_le v 10)]; lia).
    apply (ap_div 0 1 _ _ _ 3294 0 0); [apply ap_Z; lia|apply (ap_Z 3294); lia|lia| | | | |]; try (rewrite Rabs_pos_eq by lra); unfold uu; cbn; lra.
  - rewrite linear_base by lia. replace (v <=? 10)%Z with false by lia. pose proof (base_range v ltac:(lia)) as B.
    assert (Vr : 11 <= IZR v <= 255) by (split; [apply (IZR_le 11)|apply (IZR_le v 255)]; lia).
    assert (A1 : frel (f32_add (f32_of_Z v) (f32_dec 14025 3)) (IZR v + 14.025) (5 * uu)).
    { apply (frel_add _ _ _ _ (2 * uu)); [eapply frel_weaken; [|apply frel_Z; lia|]; [lra|unfold uu; lra]| | | | | |]; try (unfold uu; lra).
      apply (ap_frel _ _ (28 * uu)); [const_ap|unfold uu; lra]. }
    assert (A2 : frel (f32_div (f32_add (f32_of_Z v) (f32_dec 14025 3)) (f32_dec 269025 3)) (cbase v) (10 * uu)).
    { apply (frel_div _ _ _ _ (5 * uu) (2 * uu)); [exact A1| | | | | | |]; try (unfold uu; lra); fold (cbase v); try lra.
      apply (ap_frel _ _ (530 * uu)); [const_ap|unfold uu; lra]. }
    destruct A2 as [r [Fr Hr]].
    assert (A3 : approx (f32_dec 22 1) 2.2 (2 * uu)) by const_ap. destruct A3 as [s [Fs Hs]].
    destruct (pow_rel pow _ _ (cbase v) 2.2 (10 * uu) (2 * uu) r s HP Fr Fs Hr Hs) as [q [Fq Hq]]; try (unfold uu; lra).
    { apply Rabs_bd in Hs. unfold uu in Hs. lra. }
    exists q. split; [exact Fq|]. unfold rel in Hq. pose proof (base_power_low v ltac:(lia)) as BP.
    eapply Rle_trans; [exact Hq|]. apply Rle_trans with ((33 * uu + 5 * (10 * uu) + 22 * (2 * uu)) * 1).
    + apply Rmult_le_compat_l; unfold uu; lra.
    + unfold uu. lra.
Qed.

(** ** encoding a linear value close to that of byte v *)
Lemma root_close v r : (11 <= v <= 255)%Z -> Rabs (r - linear_light v) <= 2800 * uu ->
  Rabs (Rpower r (/ 2.2) - cbase v) <= / 2 / 269.025.
Proof.
  intros Hv Hr. rewrite linear_base in Hr by lia. pose proof (base_range v Hv) as B. apply Rabs_bd in Hr.
  set (t := / 2 / 269.025). assert (Ht : t = 0.5 / 269.025) by (unfold t; lra).
  assert (Bl : 0.05 <= Rpower (cbase v) 1.2).
  { apply Rle_trans with (Rpower 0.093 1.2); [|apply Rle_Rpower_l; lra].
    apply Rle_trans with (Rpower 0.093 (INR 5 / INR 4)).
    - apply Rpower_ge_root; try lra; try lia.
    - apply Rpower_antitone; [lra|]. cbn. lra. }
  assert (S : forall c, 0 < c -> Rpower c 2.2 = c * Rpower c 1.2).
  { intros c Hc. replace 2.2 with (1 + 1.2) by lra. rewrite Rpower_plus, Rpower_1 by exact Hc. reflexivity. }
  assert (Lo : Rpower (cbase v - t) 2.2 <= Rpower (cbase v) 2.2 - 2800 * uu).
  { rewrite !S by lra. assert (Rpower (cbase v - t) 1.2 <= Rpower (cbase v) 1.2) by (apply Rle_Rpower_l; lra).
    assert ((cbase v - t) * Rpower (cbase v - t) 1.2 <= (cbase v - t) * Rpower (cbase v) 1.2) by (apply Rmult_le_compat_l; lra).
    assert (t * 0.05 <= t * Rpower (cbase v) 1.2) by (apply Rmult_le_compat_l; lra). unfold uu. lra. }
  assert (Up : Rpower (cbase v) 2.2 + 2800 * uu <= Rpower (cbase v + t) 2.2).
  { rewrite !S by lra. assert (Rpower (cbase v) 1.2 <= Rpower (cbase v + t) 1.2) by (apply Rle_Rpower_l; lra).
    assert ((cbase v + t) * Rpower (cbase v) 1.2 <= (cbase v + t) * Rpower (cbase v + t) 1.2) by (apply Rmult_le_compat_l; lra).
    assert (t * 0.05 <= t * Rpower (cbase v) 1.2) by (apply Rmult_le_compat_l; lra). unfold uu. lra. }
  pose proof (Rpower_pos (cbase v - t) 2.2) as Pl.
  assert (I : forall c, 0 < c -> Rpower (Rpower c 2.2) (/ 2.2) = c).
  { intros c Hc. rewrite Rpower_mult, Rinv_r, Rpower_1; lra. }
  assert (G1 : cbase v - t <= Rpower r (/ 2.2)).
  { rewrite <- (I (cbase v - t)) by lra. apply Rle_Rpower_l; lra. }
  assert (G2 : Rpower r (/ 2.2) <= cbase v + t).
  { rewrite <- (I (cbase v + t)) by lra. apply Rle_Rpower_l; lra. }
  apply Rabs_le'; lra.
Qed.

Lemma encode_close pow X v : pow_ok pow -> (0 <= v <= 255)%Z -> approx X (linear_light v) (2800 * uu) ->
  (Z.max 0 (v - 1) <= srgb_encode pow X <= v)%Z.
Proof.
  intros HP Hv [r [Fr Hr]]. unfold srgb_encode.
  assert (T : approx (f32_dec 31308 7) 0.0031308 (uu / 100)) by const_ap. destruct T as [th [Fth Hth]].
  apply Rabs_bd in Hth. change (f32_leb X (f32_dec 31308 7)) with (Bleb X (f32_dec 31308 7)).
  rewrite (leb_fin X (f32_dec 31308 7) r th Fr Fth).
  destruct (Z_le_gt_dec v 10) as [L|G].
  - assert (El : linear_light v = IZR v / 3294) by (unfold linear_light; replace (v <=? 10)%Z with true by lia; reflexivity). rewrite El in Hr.
    assert (Vr : 0 <= IZR v <= 10) by (split; [apply (IZR_le 0)|apply (IZR_le v 10)]; lia).
    pose proof (Rabs_bd _ _ Hr) as Hb. rewrite Rle_bool_true by (unfold uu in *; lra).
    apply (ap_trunc _ v 0.5); [|lra|lia].
    assert (C : approx (f32_dec 32946 1) 3294.6 (8192 * uu)) by const_ap.
    assert (Ap : approx (f32_mul X (f32_dec 32946 1)) (IZR v / 3294 * 3294.6) 0.3).
    { apply (ap_mul 5 (1 / 300) 3294.6 _ _ _ _ (2800 * uu) (8192 * uu)); [exists r; split; assumption|exact C|lia| | | |]; try (rewrite Rabs_pos_eq by lra); unfold uu; cbn; lra. }
    destruct Ap as [q [Fq Hq]]. exists q. split; [exact Fq|]. apply Rabs_bd in Hq. apply Rabs_le'; lra.
  - pose proof (base_range v ltac:(lia)) as B. pose proof (base_power_low v ltac:(lia)) as BP.
    pose proof (root_close v r ltac:(lia) Hr) as Hc. rewrite linear_base in Hr by lia. pose proof (Rabs_bd _ _ Hr) as Hb.
    rewrite Rle_bool_false by (unfold uu in *; lra).
    assert (A3 : approx (f32_div (f32_of_Z 1) (f32_dec 22 1)) (/ 2.2) (2 * uu)) by const_ap. destruct A3 as [s [Fs Hs]].
    destruct (pow_rel pow X _ r (/ 2.2) 0 (2 * uu) r s HP Fr Fs) as [q [Fq Hq]]; try (unfold uu in *; lra).
    { unfold rel. rewrite Rminus_diag_eq, Rabs_R0 by reflexivity. lra. }
    { apply Rabs_bd in Hs. unfold uu in Hs. lra. }
    pose proof (Rabs_bd _ _ Hc) as Hcb.
    assert (Ap : approx (pow X (f32_div (f32_of_Z 1) (f32_dec 22 1))) (cbase v) (0.51 / 269.025)).
    { exists q. split; [exact Fq|]. unfold rel in Hq.
      assert ((33 * uu + 5 * 0 + 22 * (2 * uu)) * Rpower r (/ 2.2) <= (33 * uu + 5 * 0 + 22 * (2 * uu)) * 1.002) by (apply Rmult_le_compat_l; unfold uu; lra).
      apply Rabs_bd in Hq. apply Rabs_le'; unfold uu in *; lra. }
    assert (C1 : approx (f32_dec 269025 3) 269.025 (512 * uu)) by const_ap.
    assert (C2 : approx (f32_dec 14025 3) 14.025 (28 * uu)) by const_ap.
    assert (M : approx (f32_mul (f32_dec 269025 3) (pow X (f32_div (f32_of_Z 1) (f32_dec 22 1)))) (269.025 * cbase v) 0.52).
    { apply (ap_mul 9 269.025 1 _ _ _ _ (512 * uu) (0.51 / 269.025)); [exact C1|exact Ap|lia| | | |]; try (rewrite Rabs_pos_eq by lra); unfold uu; cbn; lra. }
    assert (S : approx (f32_sub (f32_mul (f32_dec 269025 3) (pow X (f32_div (f32_of_Z 1) (f32_dec 22 1)))) (f32_dec 14025 3)) (269.025 * cbase v - 14.025) 0.53).
    { apply (ap_sub 9 _ _ _ _ 0.52 (28 * uu)); [exact M|exact C2|lia| |]; [rewrite Rabs_pos_eq by lra|]; unfold uu; cbn; lra. }
    apply (ap_trunc _ v 0.53); [|lra|lia]. eapply ap_eq; [exact S|]. unfold cbase. field. lra.
Qed.
