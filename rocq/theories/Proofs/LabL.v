(** * CIELAB in f32 against the real formulas *)
From Coq Require Import Lra.
From Verif.Model Require Import Base Float.
From Verif.Spec Require Import FloatS PowS ConvS LabS.
From Verif.Proofs Require Import BaseL FloatL FloatL2 ApproxL PowL SrgbL SrgbL2.
From Flocq Require Import Core BinarySingleNaN.
Open Scope R_scope.

Definition dl3 : R := dl ^ 3.
Lemma curve_hi t : dl3 < t -> lab_curve t = Rpower t (/ 3).
Proof. intros H. unfold lab_curve. fold dl. destruct (Rlt_dec (dl ^ 3) t); [reflexivity|]. unfold dl3 in H. lra. Qed.
Lemma curve_lo t : t <= dl3 -> lab_curve t = t / (3 * dl ^ 2) + 4 / 29.
Proof. intros H. unfold lab_curve. fold dl. destruct (Rlt_dec (dl ^ 3) t); [unfold dl3 in H; lra|reflexivity]. Qed.
Lemma cube_root t : 0 < t -> Rpower t (/ 3) ^ 3 = t /\ 0 < Rpower t (/ 3).
Proof.
  intros H. pose proof (Rpower_pos t (/ 3)) as P. split; [|exact P]. rewrite <- Rpower_3 by exact P. rewrite Rpower_mult, Rinv_l, Rpower_1; lra.
Qed.
Lemma root_ge t : dl3 <= t -> dl <= Rpower t (/ 3).
Proof.
  intros H. assert (0 < dl3) by (unfold dl3, dl; lra). destruct (cube_root t ltac:(lra)) as [E P].
  apply cube_le; [lra|]. rewrite E. exact H.
Qed.
(** the curve is Lipschitz *)
Lemma curve_lip_hi s t : dl3 <= s -> s <= t -> 0 <= Rpower t (/ 3) - Rpower s (/ 3) <= 7.8 * (t - s).
Proof.
  intros Hs Ht. assert (0 < dl3) by (unfold dl3, dl; lra).
  destruct (cube_root s ltac:(lra)) as [Es Ps]. destruct (cube_root t ltac:(lra)) as [Et Pt].
  pose proof (root_ge s Hs) as Gs. pose proof (root_ge t ltac:(lra)) as Gt.
  set (a := Rpower s (/ 3)) in *. set (b := Rpower t (/ 3)) in *.
  assert (a <= b) by (apply cube_le; lra). split; [lra|].
  assert (E : t - s = (b - a) * (b * b + b * a + a * a)) by (rewrite <- Es, <- Et; ring).
  assert (L : 0.1284 <= b * b + b * a + a * a).
  { assert (0.0428 <= dl * dl) by (unfold dl; lra).
    assert (dl * dl <= b * b) by (apply Rmult_le_compat; unfold dl in *; lra).
    assert (dl * dl <= b * a) by (apply Rmult_le_compat; unfold dl in *; lra).
    assert (dl * dl <= a * a) by (apply Rmult_le_compat; unfold dl in *; lra). lra. }
  rewrite E. apply Rle_trans with (7.8 * ((b - a) * 0.1284)); [lra|]. apply Rmult_le_compat_l; [lra|]. apply Rmult_le_compat_l; lra.
Qed.
Lemma curve_at_join : Rpower dl3 (/ 3) = dl /\ dl3 / (3 * dl ^ 2) + 4 / 29 = dl.
Proof.
  split.
  - unfold dl3. rewrite <- (Rpower_3 dl) by (unfold dl; lra). rewrite Rpower_mult. replace (3 * / 3) with 1 by lra. apply Rpower_1. unfold dl; lra.
  - unfold dl3, dl. field.
Qed.
Lemma curve_lip_le s t : s <= t -> 0 <= lab_curve t - lab_curve s <= 7.8 * (t - s).
Proof.
  intros H. destruct curve_at_join as [J1 J2]. assert (D : 0 < dl) by (unfold dl; lra). assert (D2 : 0.1284 <= 3 * dl ^ 2 <= 0.1285) by (unfold dl; lra).
  assert (Lin : forall a b, a <= b -> 0 <= b / (3 * dl ^ 2) - a / (3 * dl ^ 2) <= 7.8 * (b - a)).
  { intros a b Hab. replace (b / (3 * dl ^ 2) - a / (3 * dl ^ 2)) with ((b - a) * / (3 * dl ^ 2)) by (field; unfold dl; lra).
    assert (0 < / (3 * dl ^ 2) <= 7.8).
    { split; [apply Rinv_0_lt_compat; lra|]. apply Rle_trans with (/ 0.1284); [apply Rinv_le_contravar; lra|lra]. }
    split; [apply Rmult_le_pos; lra|]. rewrite (Rmult_comm 7.8). apply Rmult_le_compat_l; lra. }
  destruct (Rlt_le_dec dl3 s) as [Gs|Ls].
  - rewrite !curve_hi by lra. apply curve_lip_hi; lra.
  - destruct (Rlt_le_dec dl3 t) as [Gt|Lt].
    + rewrite (curve_hi t Gt), (curve_lo s Ls). pose proof (curve_lip_hi dl3 t ltac:(lra) ltac:(lra)) as A. rewrite J1 in A.
      pose proof (Lin s dl3 Ls) as B. lra.
    + rewrite !curve_lo by lra. pose proof (Lin s t H). lra.
Qed.
Lemma curve_lip s t : Rabs (lab_curve s - lab_curve t) <= 7.8 * Rabs (s - t).
Proof.
  destruct (Rle_lt_dec s t) as [H|H].
  - pose proof (curve_lip_le s t H). rewrite Rabs_minus_sym, (Rabs_minus_sym s). rewrite !Rabs_pos_eq by lra. lra.
  - pose proof (curve_lip_le t s ltac:(lra)). rewrite !Rabs_pos_eq by lra. lra.
Qed.
Lemma curve_mono s t : s <= t -> lab_curve s <= lab_curve t.
Proof. intros H. pose proof (curve_lip_le s t H). lra. Qed.

(** [curve] of SrgbL2 is this curve *)
Lemma curve_is y t : 0.13 <= y <= 1.1 -> curve y t -> Rabs (y - lab_curve t) <= 30 * uu.
Proof.
  intros Hy [[E G]|[E L]].
  - destruct (Rlt_le_dec dl3 t) as [Gt|Lt].
    + rewrite curve_hi by exact Gt. assert (y = Rpower t (/ 3)) as <-; [|rewrite Rminus_diag_eq, Rabs_R0 by reflexivity; unfold uu; lra].
      rewrite <- E. rewrite <- (Rpower_3 y) by lra. rewrite Rpower_mult. replace (3 * / 3) with 1 by lra. symmetry. apply Rpower_1. lra.
    + rewrite curve_lo by exact Lt. assert (y <= dl) by (apply cube_le; [unfold dl; lra|rewrite E; exact Lt]).
      pose proof (curves_meet y ltac:(apply Rabs_le'; unfold uu in *; lra)) as M.
      replace (y - (t / (3 * dl ^ 2) + 4 / 29)) with (- (y ^ 3 - 3 * dl * dl * (y - 4 / 29)) / (3 * dl * dl)) by (rewrite E; unfold dl; field).
      unfold Rdiv. rewrite Rabs_mult, Rabs_Ropp. rewrite (Rabs_pos_eq (/ (3 * dl * dl))) by (left; apply Rinv_0_lt_compat; unfold dl; lra).
      apply Rle_trans with (uu * 7.8); [|unfold uu; lra]. apply Rmult_le_compat; [apply Rabs_pos|left; apply Rinv_0_lt_compat; unfold dl; lra|exact M|].
      apply Rle_trans with (/ 0.1284); [apply Rinv_le_contravar; unfold dl; lra|lra].
  - destruct (Rlt_le_dec dl3 t) as [Gt|Lt].
    + destruct curve_at_join as [J1 J2]. rewrite curve_hi by exact Gt. pose proof (curve_lip_hi dl3 t ltac:(lra) ltac:(lra)) as A. rewrite J1 in A.
      assert (Yd : dl < y). { assert (dl ^ 3 < 3 * dl * dl * (y - 4 / 29)) by (rewrite <- E; exact Gt). unfold dl in *. lra. }
      assert (t - dl3 <= 0.1285 * (10 * uu)). { rewrite E. unfold dl3. unfold dl in *. unfold uu in *. lra. }
      apply Rabs_le'; unfold uu in *; lra.
    + rewrite curve_lo by exact Lt. rewrite E. replace (y - (3 * dl * dl * (y - 4 / 29) / (3 * dl ^ 2) + 4 / 29)) with 0; [rewrite Rabs_R0; unfold uu; lra|].
      field. unfold dl; lra.
Qed.

(** one component: lab_f(100 X / W) against the curve of x / (w / 100) *)
Lemma lab_comp pow X W x w : pow_ok pow -> approx X x (160 * uu) -> approx W w (128 * uu) -> 80 <= w <= 110 ->
  0 <= x -> x * 100 / w <= 1.3299 ->
  approx (lab_f pow (f32_div (f32_mul X (f32_of_Z 100)) W)) (lab_curve (x * 100 / w)) (1765 * uu) /\ 0.13 <= lab_curve (x * 100 / w) <= 1.1.
Proof.
  intros HP [r [Fr Hr]] HW Hw Hx Hxw. apply Rabs_bd in Hr.
  assert (I : / 110 <= / w <= / 80) by (split; apply Rinv_le_contravar; lra).
  assert (Dt : Rabs (r * 100 / w - x * 100 / w) <= 200 * uu).
  { unfold Rdiv. replace (r * 100 * / w - x * 100 * / w) with ((r - x) * (100 * / w)) by ring. rewrite Rabs_mult, (Rabs_pos_eq (100 * / w)) by lra.
    replace (200 * uu) with (160 * uu * (100 * / 80)) by (unfold uu; lra). apply Rmult_le_compat; try apply Rabs_pos; try lra. apply Rabs_le'; lra. }
  pose proof (Rabs_bd _ _ Dt) as Db. assert (X0 : 0 <= x * 100 / w) by (apply Rmult_le_pos; lra).
  assert (Rt : -0.0005 <= r * 100 / w <= 1.33) by (unfold uu in *; lra).
  destruct (ratio_ap X W r w Fr HW Hw Rt) as [t [Ft Ht]]. pose proof (Rabs_bd _ _ Ht) as Htb.
  destruct (lab_f_curve pow _ t HP Ft ltac:(unfold uu in *; lra)) as [y [[q [Fq Hq]] [Yr Cy]]].
  pose proof (curve_is y t Yr Cy) as C1. pose proof (curve_lip t (x * 100 / w)) as C2.
  assert (Rabs (t - x * 100 / w) <= 216 * uu).
  { replace (t - x * 100 / w) with ((t - r * 100 / w) + (r * 100 / w - x * 100 / w)) by ring. eapply Rle_trans; [apply Rabs_triang|]. lra. }
  split.
  - exists q. split; [exact Fq|]. replace (q - lab_curve (x * 100 / w)) with ((q - y) + ((y - lab_curve t) + (lab_curve t - lab_curve (x * 100 / w)))) by ring.
    eapply Rle_trans; [apply Rabs_triang|]. eapply Rle_trans; [apply Rplus_le_compat_l, Rabs_triang|]. unfold uu in *. lra.
  - split.
    + apply Rle_trans with (lab_curve 0); [|apply curve_mono; exact X0]. rewrite curve_lo by (unfold dl3, dl; lra). unfold dl. lra.
    + apply Rle_trans with (lab_curve 1.331); [apply curve_mono; lra|]. rewrite curve_hi by (unfold dl3, dl; lra).
      replace 1.331 with (1.1 ^ 3) by lra. rewrite <- (Rpower_3 1.1) by lra. rewrite Rpower_mult. replace (3 * / 3) with 1 by lra. rewrite Rpower_1; lra.
Qed.

Lemma ap_lab FX FY FZ x y z : approx FX x (1765 * uu) -> approx FY y (1765 * uu) -> approx FZ z (1765 * uu) ->
  0.13 <= x <= 1.1 -> 0.13 <= y <= 1.1 -> 0.13 <= z <= 1.1 ->
  approx (f32_sub (f32_mul (f32_of_Z 116) FY) (f32_of_Z 16)) (116 * y - 16) 0.0062
  /\ approx (f32_mul (f32_of_Z 500) (f32_sub FX FY)) (500 * (x - y)) 0.053
  /\ approx (f32_mul (f32_of_Z 200) (f32_sub FY FZ)) (200 * (y - z)) 0.022.
Proof.
  intros AX AY AZ Hx Hy Hz.
  assert (A1 : approx (f32_mul (f32_of_Z 116) FY) (116 * y) (116 * (1765 * uu) + 128 * uu)).
  { apply (ap_mul 7 116 1.1 _ _ _ _ 0 (1765 * uu)); [apply (ap_Z 116); lia|exact AY|lia| | | |]; try (apply Rabs_le'); unfold uu in *; cbn; lra. }
  split; [|split].
  - apply (ap_sub 7 _ _ _ _ (116 * (1765 * uu) + 128 * uu) 0); [exact A1|apply (ap_Z 16); lia|lia| |unfold uu; cbn; lra].
    assert (Rabs (116 * y - 16) <= 120) by (apply Rabs_le'; lra). unfold uu; cbn; lra.
  - assert (B : approx (f32_sub FX FY) (x - y) (3531 * uu)).
    { apply (ap_sub 0 _ _ _ _ (1765 * uu) (1765 * uu)); [exact AX|exact AY|lia| |unfold uu; cbn; lra].
      assert (Rabs (x - y) <= 0.98) by (apply Rabs_le'; lra). unfold uu; cbn; lra. }
    apply (ap_mul 9 500 0.98 _ _ _ _ 0 (3531 * uu)); [apply (ap_Z 500); lia|exact B|lia| | | |]; try (apply Rabs_le'); unfold uu in *; cbn; lra.
  - assert (B : approx (f32_sub FY FZ) (y - z) (3531 * uu)).
    { apply (ap_sub 0 _ _ _ _ (1765 * uu) (1765 * uu)); [exact AY|exact AZ|lia| |unfold uu; cbn; lra].
      assert (Rabs (y - z) <= 0.98) by (apply Rabs_le'; lra). unfold uu; cbn; lra. }
    apply (ap_mul 8 200 0.98 _ _ _ _ 0 (3531 * uu)); [apply (ap_Z 200); lia|exact B|lia| | | |]; try (apply Rabs_le'); unfold uu in *; cbn; lra.
Qed.

Definition ap3 (l : list f32) (x : R * R * R) (e1 e2 e3 : R) : Prop :=
  exists A B C, l = [A; B; C] /\ approx A (fst (fst x)) e1 /\ approx B (snd (fst x)) e2 /\ approx C (snd x) e3.

Lemma lab_accurate pow w r g b : pow_ok pow -> (0 <= r <= 255)%Z -> (0 <= g <= 255)%Z -> (0 <= b <= 255)%Z ->
  w = (white_d50, d50) \/ w = (white_d65, d65) ->
  ap3 (srgb_to_lab pow (fst w) [r; g; b]) (byte_lab (snd w) r g b) 0.0062 0.053 0.022
  /\ exists fx fy fz, byte_lab (snd w) r g b = (116 * fy - 16, 500 * (fx - fy), 200 * (fy - fz)) /\ 0.13 <= fx <= 1.1 /\ 0.13 <= fy <= 1.1 /\ 0.13 <= fz <= 1.1.
Proof.
  intros HP Hr Hg Hb Hw. destruct (xyz_ap pow r g b HP Hr Hg Hb) as [X [Y [Z [E [AX [AY AZ]]]]]].
  pose proof (linear_range r Hr) as Lr. pose proof (linear_range g Hg) as Lg. pose proof (linear_range b Hb) as Lb.
  assert (exists xn yn zn xw zw, fst w = (xn, yn, zn) /\ snd w = (xw / 100, zw / 100) /\ approx xn xw (128 * uu) /\ approx yn 100 (128 * uu) /\ approx zn zw (128 * uu)
    /\ 95 <= xw <= 97 /\ 82.5 <= zw <= 109) as [xn [yn [zn [xw [zw [Ew [Ed [Ax [Ay [Az [Bx Bz]]]]]]]]]]].
  { destruct whites_ap as [[A1 [A2 A3]] [A4 [A5 A6]]]. destruct Hw as [->| ->]; eexists _, _, _; [exists 96.4212, 82.5188|exists 95.0489, 108.884];
      (split; [reflexivity|]; split; [unfold d50, d65; cbn [snd]; f_equal; lra|]; split; [assumption|]; split; [assumption|]; split; [assumption|lra]). }
  rewrite Ew, Ed. unfold srgb_to_lab. rewrite E. clear E Ew Ed. unfold xyz_to_lab. cbv zeta.
  unfold byte_lab, byte_xyz, real_xyz, real_lab. cbn [fst snd].
  change (0.4124564 * linear_light r + 0.3575761 * linear_light g + 0.1804375 * linear_light b) with (xr (linear_light r) (linear_light g) (linear_light b)).
  replace (0.0193339 * linear_light r + 0.1191920 * linear_light g + 0.9503041 * linear_light b) with (zr (linear_light r) (linear_light g) (linear_light b)) by (unfold zr; lra).
  replace (0.2126729 * linear_light r + 0.7151522 * linear_light g + 0.0721750 * linear_light b) with (yr (linear_light r) (linear_light g) (linear_light b)) by (unfold yr; lra).
  set (x := xr _ _ _) in *. set (y := yr _ _ _) in *. set (z := zr _ _ _) in *.
  assert (Rx : 0 <= x <= 0.9505) by (unfold x, xr; lra). assert (Ry : 0 <= y <= 1.0001) by (unfold y, yr; lra). assert (Rz : 0 <= z <= 1.0889) by (unfold z, zr; lra).
  clearbody x y z.
  assert (I : / 97 <= / xw <= / 95) by (split; apply Rinv_le_contravar; lra).
  assert (J : / 109 <= / zw <= / 82.5) by (split; apply Rinv_le_contravar; lra).
  destruct (lab_comp pow X xn x xw HP AX Ax ltac:(lra) ltac:(lra)) as [Hfx Bfx].
  { unfold Rdiv. apply Rle_trans with (x * 100 * / 95); [apply Rmult_le_compat_l; lra|lra]. }
  destruct (lab_comp pow Y yn y 100 HP AY Ay ltac:(lra) ltac:(lra) ltac:(lra)) as [Hfy Bfy].
  destruct (lab_comp pow Z zn z zw HP AZ Az ltac:(lra) ltac:(lra)) as [Hfz Bfz].
  { unfold Rdiv. apply Rle_trans with (z * 100 * / 82.5); [apply Rmult_le_compat_l; lra|lra]. }
  replace (x * 100 / xw) with (x / (xw / 100)) in * by (field; lra). replace (z * 100 / zw) with (z / (zw / 100)) in * by (field; lra).
  replace (y * 100 / 100) with y in * by field.
  split.
  - destruct (ap_lab _ _ _ _ _ _ Hfx Hfy Hfz Bfx Bfy Bfz) as [A1 [A2 A3]]. eexists _, _, _. split; [reflexivity|]. split; [exact A1|]. split; [exact A2|exact A3].
  - eexists _, _, _. split; [reflexivity|]. split; [exact Bfx|]. split; [exact Bfy|exact Bfz].
Qed.
