(** * Error analysis of the XYZ and CIELAB round trips *)
From Coq Require Import Lra.
From Verif.Model Require Import Base Float.
From Verif.Spec Require Import FloatS PowS ConvS.
From Verif.Proofs Require Import BaseL FloatL FloatL2 ApproxL PowL SrgbL.
From Flocq Require Import Core BinarySingleNaN.
Delimit Scope f32_scope with F.
Open Scope R_scope.

(** division by an exactly represented number *)
Lemma ap_div_exact k X Y x y e1 e : approx X x e1 -> fin Y y -> (0 <= k <= 100)%Z -> 0 < y ->
  (Rabs x + e1) / y <= IZR (2 ^ k) -> e1 / y + IZR (2 ^ k) * uu <= e -> approx (f32_div X Y) (x / y) e.
Proof.
  intros [r [Fx Hx]] Fy Hk Hy Hb He.
  assert (D : Rabs (r / y - x / y) <= e1 / y).
  { replace (r / y - x / y) with ((r - x) / y) by (field; lra). unfold Rdiv. rewrite Rabs_mult, (Rabs_pos_eq (/ y)) by (left; apply Rinv_0_lt_compat; exact Hy).
    apply Rmult_le_compat_r; [left; apply Rinv_0_lt_compat; exact Hy|exact Hx]. }
  assert (B : Rabs (r / y) <= IZR (2 ^ k)).
  { eapply Rle_trans; [|exact Hb]. unfold Rdiv. rewrite Rabs_mult, (Rabs_pos_eq (/ y)) by (left; apply Rinv_0_lt_compat; exact Hy).
    apply Rmult_le_compat_r; [left; apply Rinv_0_lt_compat; exact Hy|]. replace r with (x + (r - x)) by ring. eapply Rle_trans; [apply Rabs_triang|]. lra. }
  eapply ap_weaken; [|exact He]. eapply ap_round; [|exact D|exact Hk|exact B].
  apply div_fin; [exact Fx|exact Fy|lra|]. eapply small_bpow; [exact Hk|exact B].
Qed.

(** ** products with a matrix row *)
Lemma ap_0 : approx (f32_of_Z 0) 0 0. Proof. apply (ap_Z 0). lia. Qed.
Lemma dot_ap k A B C a b c X Y Z x y z d m e1 e2 e3 e :
  approx A a d -> approx B b d -> approx C c d -> approx X x e1 -> approx Y y e2 -> approx Z z e3 ->
  (0 <= k <= 90)%Z -> Rabs x <= m -> Rabs y <= m -> Rabs z <= m -> 0 <= m -> 0 <= d ->
  (Rabs a + d) * (m + e1) + (Rabs b + d) * (m + e2) + (Rabs c + d) * (m + e3) + 6 * (IZR (2 ^ k) * uu) <= IZR (2 ^ k) ->
  (Rabs a * e1 + m * d + d * e1) + (Rabs b * e2 + m * d + d * e2) + (Rabs c * e3 + m * d + d * e3) + 6 * (IZR (2 ^ k) * uu) <= e ->
  approx (f32_add (f32_add (f32_add (f32_of_Z 0) (f32_mul A X)) (f32_mul B Y)) (f32_mul C Z)) (a * x + b * y + c * z) e.
Proof.
  intros HA HB HC HX HY HZ Hk Mx My Mz Hm Hd Hb He.
  pose proof (ap_pos _ _ _ HX) as P1. pose proof (ap_pos _ _ _ HY) as P2. pose proof (ap_pos _ _ _ HZ) as P3.
  set (K := IZR (2 ^ k)) in *.
  assert (HK : 0 < K) by (apply (IZR_lt 0), Z.pow_pos_nonneg; lia).
  assert (Ku : 0 < K * uu) by (apply Rmult_lt_0_compat; [exact HK|unfold uu; lra]). set (ku := K * uu) in *.
  pose proof (Rabs_pos a) as Pa. pose proof (Rabs_pos b) as Pb. pose proof (Rabs_pos c) as Pc.
  assert (T1 : 0 <= (Rabs a + d) * (m + e1)) by (apply Rmult_le_pos; lra).
  assert (T2 : 0 <= (Rabs b + d) * (m + e2)) by (apply Rmult_le_pos; lra).
  assert (T3 : 0 <= (Rabs c + d) * (m + e3)) by (apply Rmult_le_pos; lra).
  assert (M1 : approx (f32_mul A X) (a * x) (Rabs a * e1 + m * d + d * e1 + ku)).
  { eapply (ap_mul k (Rabs a) m); [exact HA|exact HX|lia|lra|exact Mx|fold K; lra|fold K; unfold ku; lra]. }
  assert (M2 : approx (f32_mul B Y) (b * y) (Rabs b * e2 + m * d + d * e2 + ku)).
  { eapply (ap_mul k (Rabs b) m); [exact HB|exact HY|lia|lra|exact My|fold K; lra|fold K; unfold ku; lra]. }
  assert (M3 : approx (f32_mul C Z) (c * z) (Rabs c * e3 + m * d + d * e3 + ku)).
  { eapply (ap_mul k (Rabs c) m); [exact HC|exact HZ|lia|lra|exact Mz|fold K; lra|fold K; unfold ku; lra]. }
  assert (Q1 : Rabs (a * x) <= Rabs a * m) by (rewrite Rabs_mult; apply Rmult_le_compat_l; assumption).
  assert (Q2 : Rabs (b * y) <= Rabs b * m) by (rewrite Rabs_mult; apply Rmult_le_compat_l; assumption).
  assert (Q3 : Rabs (c * z) <= Rabs c * m) by (rewrite Rabs_mult; apply Rmult_le_compat_l; assumption).
  assert (N1 : 0 <= Rabs a * e1) by (apply Rmult_le_pos; lra). assert (N2 : 0 <= Rabs b * e2) by (apply Rmult_le_pos; lra). assert (N3 : 0 <= Rabs c * e3) by (apply Rmult_le_pos; lra).
  assert (N4 : 0 <= m * d) by (apply Rmult_le_pos; lra). assert (N5 : 0 <= d * e1) by (apply Rmult_le_pos; lra).
  assert (N6 : 0 <= d * e2) by (apply Rmult_le_pos; lra). assert (N7 : 0 <= d * e3) by (apply Rmult_le_pos; lra).
  assert (S0 : approx (f32_add (f32_of_Z 0) (f32_mul A X)) (0 + a * x) (Rabs a * e1 + m * d + d * e1 + 2 * ku)).
  { eapply (ap_add k); [exact ap_0|exact M1|lia| |]; fold K; fold ku; [rewrite Rplus_0_l; lra|lra]. }
  rewrite Rplus_0_l in S0.
  pose proof (Rabs_triang (a * x) (b * y)) as R1. pose proof (Rabs_triang (a * x + b * y) (c * z)) as R2.
  assert (S1 : approx (f32_add (f32_add (f32_of_Z 0) (f32_mul A X)) (f32_mul B Y)) (a * x + b * y)
     ((Rabs a * e1 + m * d + d * e1) + (Rabs b * e2 + m * d + d * e2) + 4 * ku)).
  { eapply (ap_add k); [exact S0|exact M2|lia| |]; fold K; fold ku; lra. }
  eapply (ap_add k); [exact S1|exact M3|lia| |]; fold K; fold ku; lra.
Qed.

(** real linear RGB -> XYZ *)
Definition xr (r g b : R) : R := 0.4124564 * r + 0.3575761 * g + 0.1804375 * b.
Definition yr (r g b : R) : R := 0.2126729 * r + 0.7151522 * g + 0.072175 * b.
Definition zr (r g b : R) : R := 0.0193339 * r + 0.119192 * g + 0.9503041 * b.

Lemma xyz_ap pow r g b : pow_ok pow -> (0 <= r <= 255)%Z -> (0 <= g <= 255)%Z -> (0 <= b <= 255)%Z ->
  exists X Y Z, srgb_to_xyz pow [r; g; b] = [X; Y; Z]
    /\ approx X (xr (linear_light r) (linear_light g) (linear_light b)) (160 * uu)
    /\ approx Y (yr (linear_light r) (linear_light g) (linear_light b)) (160 * uu)
    /\ approx Z (zr (linear_light r) (linear_light g) (linear_light b)) (160 * uu).
Proof.
  intros HP Hr Hg Hb. eexists _, _, _. split; [reflexivity|].
  pose proof (decode_ap pow r HP Hr) as Dr. pose proof (decode_ap pow g HP Hg) as Dg. pose proof (decode_ap pow b HP Hb) as Db.
  pose proof (linear_range r Hr) as Lr. pose proof (linear_range g Hg) as Lg. pose proof (linear_range b Hb) as Lb.
  unfold xr, yr, zr. set (lr := linear_light r) in *. set (lg := linear_light g) in *. set (lb := linear_light b) in *.
  split; [|split]; (eapply (dot_ap 1 _ _ _ _ _ _ _ _ _ _ _ _ (2 * uu) 1); [const_ap|const_ap|const_ap|exact Dr|exact Dg|exact Db|lia| | | | | | |];
    try (rewrite Rabs_pos_eq; lra); try (unfold uu; lra); rewrite !Rabs_pos_eq by lra; unfold uu; cbn; lra).
Qed.

Ltac abs_const := repeat match goal with |- context [Rabs ?c] =>
  first [rewrite (Rabs_pos_eq c) by lra | rewrite (Rabs_left1 c) by lra] end.

Lemma lin_ap X Y Z r g b ex ez : 0 <= r <= 1 -> 0 <= g <= 1 -> 0 <= b <= 1 ->
  approx X (xr r g b) ex -> approx Y (yr r g b) ex -> approx Z (zr r g b) ez ->
  4.78 * ex + 0.5 * ez <= 2700 * uu -> 1.2 * ex + 1.06 * ez <= 2700 * uu -> 0 <= ex -> 0 <= ez ->
  exists A B C, xyz_to_lin [X; Y; Z] = [A; B; C] /\ approx A r (2800 * uu) /\ approx B g (2800 * uu) /\ approx C b (2800 * uu).
Proof.
  intros Hr Hg Hb HX HY HZ Hex Hez Px Pz. eexists _, _, _. split; [reflexivity|].
  assert (Bx : Rabs (xr r g b) <= 1.09) by (unfold xr; apply Rabs_le'; lra).
  assert (By : Rabs (yr r g b) <= 1.09) by (unfold yr; apply Rabs_le'; lra).
  assert (Bz : Rabs (zr r g b) <= 1.09) by (unfold zr; apply Rabs_le'; lra).
  assert (ex <= 600 * uu) by lra. assert (ez <= 2600 * uu) by lra.
  split; [|split].
  - assert (A : approx (f32_add (f32_add (f32_add (f32_of_Z 0) (f32_mul (f32_dec 32404542 7) X)) (f32_mul (f32_dec (-15371385) 7) Y)) (f32_mul (f32_dec (-4985314) 7) Z))
      (3.2404542 * xr r g b + (-1.5371385) * yr r g b + (-0.4985314) * zr r g b) (2780 * uu)).
    { eapply (dot_ap 3 _ _ _ _ _ _ _ _ _ _ _ _ (4 * uu) 1.09); [const_ap|const_ap|const_ap|exact HX|exact HY|exact HZ|lia|assumption|assumption|assumption|lra|unfold uu; lra| |]; abs_const; unfold uu in *; cbn; lra. }
    destruct A as [q [Fq Hq]]. exists q. split; [exact Fq|]. apply Rabs_bd in Hq. unfold xr, yr, zr, uu in *. apply Rabs_le'; lra.
  - assert (A : approx (f32_add (f32_add (f32_add (f32_of_Z 0) (f32_mul (f32_dec (-9692660) 7) X)) (f32_mul (f32_dec 18760108 7) Y)) (f32_mul (f32_dec 415560 7) Z))
      ((-0.969266) * xr r g b + 1.8760108 * yr r g b + 0.041556 * zr r g b) (2780 * uu)).
    { eapply (dot_ap 3 _ _ _ _ _ _ _ _ _ _ _ _ (4 * uu) 1.09); [const_ap|const_ap|const_ap|exact HX|exact HY|exact HZ|lia|assumption|assumption|assumption|lra|unfold uu; lra| |]; abs_const; unfold uu in *; cbn; lra. }
    destruct A as [q [Fq Hq]]. exists q. split; [exact Fq|]. apply Rabs_bd in Hq. unfold xr, yr, zr, uu in *. apply Rabs_le'; lra.
  - assert (A : approx (f32_add (f32_add (f32_add (f32_of_Z 0) (f32_mul (f32_dec 556434 7) X)) (f32_mul (f32_dec (-2040259) 7) Y)) (f32_mul (f32_dec 10572252 7) Z))
      (0.0556434 * xr r g b + (-0.2040259) * yr r g b + 1.0572252 * zr r g b) (2780 * uu)).
    { eapply (dot_ap 3 _ _ _ _ _ _ _ _ _ _ _ _ (4 * uu) 1.09); [const_ap|const_ap|const_ap|exact HX|exact HY|exact HZ|lia|assumption|assumption|assumption|lra|unfold uu; lra| |]; abs_const; unfold uu in *; cbn; lra. }
    destruct A as [q [Fq Hq]]. exists q. split; [exact Fq|]. apply Rabs_bd in Hq. unfold xr, yr, zr, uu in *. apply Rabs_le'; lra.
Qed.

(** ** the CIELAB curve *)
Definition dl : R := 6 / 29.
(** y = f(t) for the CIELAB curve, up to a tiny uncertainty about where its two branches meet *)
Definition curve (y t : R) : Prop :=
  (y ^ 3 = t /\ dl - 10 * uu <= y) \/ (t = 3 * dl * dl * (y - 4 / 29) /\ y <= dl + 10 * uu).

Lemma delta_ap : approx delta dl (uu / 4). Proof. unfold dl. const_ap. Qed.
Lemma slope_ap : approx (f32_mul (f32_mul (f32_of_Z 3) delta) delta) (3 * dl * dl) uu. Proof. unfold dl. const_ap. Qed.
Lemma foot_ap : approx (f32_div (f32_of_Z 4) (f32_of_Z 29)) (4 / 29) (uu / 4). Proof. const_ap. Qed.

Lemma threshold_ap pow : pow_ok pow -> approx (pow delta (f32_of_Z 3)) (dl ^ 3) uu.
Proof.
  intros HP. destruct delta_ap as [r [Fr Hr]]. assert (F3 : fin (f32_of_Z 3) 3) by (apply (of_Z_isZ 3); lia).
  destruct (pow_rel pow delta (f32_of_Z 3) dl 3 (2 * uu) 0 r 3 HP Fr F3) as [q [Fq Hq]]; try (unfold dl, uu; lra).
  { unfold rel, dl, uu in *. lra. }
  { rewrite Rminus_diag_eq, Rabs_R0 by reflexivity. lra. }
  exists q. split; [exact Fq|]. unfold rel in Hq. rewrite Rpower_3 in Hq by (unfold dl; lra).
  eapply Rle_trans; [exact Hq|]. unfold dl, uu. cbn. lra.
Qed.

Lemma cube_le a b : 0 <= b -> a ^ 3 <= b ^ 3 -> a <= b.
Proof.
  intros Hb H. destruct (Rle_lt_dec a b) as [|L]; [assumption|exfalso].
  assert (b ^ 3 < a ^ 3); [|lra]. cbn. assert (b * b <= a * a) by (apply Rmult_le_compat; lra).
  assert (b * (b * b) <= b * (a * a)) by (apply Rmult_le_compat_l; lra).
  assert (b * (a * a) < a * (a * a)) by (apply Rmult_lt_compat_r; [apply Rmult_lt_0_compat; lra|exact L]). lra.
Qed.

Lemma lab_f_curve pow T t : pow_ok pow -> fin T t -> -0.0009 <= t <= 1.331 ->
  exists y, approx (lab_f pow T) y (46 * uu) /\ 0.13 <= y <= 1.1 /\ curve y t.
Proof.
  intros HP FT Ht. unfold lab_f. destruct (threshold_ap pow HP) as [p3 [Fp Hp]]. apply Rabs_bd in Hp.
  change (f32_ltb (pow delta (f32_of_Z 3)) T) with (Bltb (pow delta (f32_of_Z 3)) T).
  rewrite (ltb_fin _ T p3 t Fp FT). destruct (Rlt_le_dec p3 t) as [G|L].
  - rewrite Rlt_bool_true by exact G. unfold dl, uu in Hp.
    assert (A3 : approx (f32_div (f32_of_Z 1) (f32_of_Z 3)) (/ 3) (uu / 3)) by const_ap. destruct A3 as [s [Fs Hs]].
    assert (Ht8 : 0.0088 <= t) by (cbn in Hp; lra).
    destruct (pow_rel pow T _ t (/ 3) 0 (uu / 3) t s HP FT Fs) as [q [Fq Hq]]; try (unfold uu in *; lra).
    { unfold rel. rewrite Rminus_diag_eq, Rabs_R0 by reflexivity. lra. }
    { apply Rabs_bd in Hs. unfold uu in Hs. lra. }
    pose proof (Rpower_pos t (/ 3)) as Py. set (y := Rpower t (/ 3)) in *.
    assert (Y3 : y ^ 3 = t). { rewrite <- Rpower_3 by exact Py. unfold y. rewrite Rpower_mult, Rinv_l, Rpower_1; lra. }
    assert (Yu : y <= 1.1) by (apply cube_le; [lra|rewrite Y3; cbn; lra]).
    assert (Yl : dl - 10 * uu <= y).
    { apply cube_le; [lra|]. rewrite Y3. unfold dl, uu. cbn in Hp |- *. lra. }
    exists y. split; [|split].
    + exists q. split; [exact Fq|]. unfold rel in Hq. eapply Rle_trans; [exact Hq|].
      apply Rle_trans with ((33 * uu + 5 * 0 + 22 * (uu / 3)) * 1.1); [apply Rmult_le_compat_l; unfold uu; lra|unfold uu; lra].
    + unfold dl, uu in Yl. lra.
    + left. split; assumption.
  - rewrite Rlt_bool_false by exact L. unfold dl, uu in Hp. cbn in Hp.
    assert (Dv : approx (f32_div T (f32_mul (f32_mul (f32_of_Z 3) delta) delta)) (t / (3 * dl * dl)) (3 * uu)).
    { apply (ap_div 0 0.1 _ _ _ _ 0 uu); [apply fin_ap; exact FT|exact slope_ap|lia| | | | |]; try (unfold dl, uu; cbn; lra).
      apply Rabs_le'; unfold dl; lra. }
    exists (t / (3 * dl * dl) + 4 / 29). split; [|split].
    + apply (ap_add 0 _ _ _ _ (3 * uu) (uu / 4)); [exact Dv|exact foot_ap|lia| |]; [rewrite Rabs_pos_eq by (unfold dl; lra)|]; unfold dl, uu; cbn; lra.
    + unfold dl. lra.
    + right. split; [field; unfold dl; lra|]. unfold dl, uu. lra.
Qed.

Lemma curves_meet y : Rabs (y - dl) <= 100 * uu -> Rabs (y ^ 3 - 3 * dl * dl * (y - 4 / 29)) <= uu.
Proof.
  intros H. pose proof (Rabs_bd _ _ H) as Hb.
  replace (y ^ 3 - 3 * dl * dl * (y - 4 / 29)) with ((y - dl) * (y - dl) * (y + 2 * dl)) by (unfold dl; field).
  rewrite !Rabs_mult. rewrite (Rabs_pos_eq (y + 2 * dl)) by (unfold dl, uu in *; lra).
  assert (Rabs (y - dl) * Rabs (y - dl) <= 100 * uu * (100 * uu)) by (apply Rmult_le_compat; try apply Rabs_pos; exact H).
  apply Rle_trans with (100 * uu * (100 * uu) * 1); [apply Rmult_le_compat; [apply Rmult_le_pos; apply Rabs_pos|unfold dl, uu in *; lra|assumption|unfold dl, uu in *; lra]|unfold uu; lra].
Qed.
Lemma cube_close y n e : 0.13 <= y <= 1.1 -> Rabs (n - y) <= e -> 0 <= e <= 100 * uu -> Rabs (n ^ 3 - y ^ 3) <= 3.7 * e.
Proof.
  intros Hy Hn He. pose proof (Rabs_bd _ _ Hn) as Hb.
  replace (n ^ 3 - y ^ 3) with ((n * n + n * y + y * y) * (n - y)) by ring. rewrite Rabs_mult.
  assert (n <= 1.101) by (unfold uu in *; lra). assert (0 <= n) by (unfold uu in *; lra).
  assert (n * n <= 1.101 * 1.101) by (apply Rmult_le_compat; lra). assert (n * y <= 1.101 * 1.1) by (apply Rmult_le_compat; lra).
  assert (y * y <= 1.1 * 1.1) by (apply Rmult_le_compat; lra).
  assert (0 <= n * n) by (apply Rmult_le_pos; lra). assert (0 <= n * y) by (apply Rmult_le_pos; lra). assert (0 <= y * y) by (apply Rmult_le_pos; lra).
  rewrite (Rabs_pos_eq (n * n + n * y + y * y)) by lra. apply Rmult_le_compat; try lra. apply Rabs_pos.
Qed.

Lemma lab_inv_curve pow N y t : pow_ok pow -> approx N y (64 * uu) -> 0.13 <= y <= 1.1 -> curve y t ->
  approx (lab_f_inv pow N) t (300 * uu).
Proof.
  intros HP [n [Fn Hn]] Hy Hc. unfold lab_f_inv. destruct delta_ap as [d [Fd Hd]]. apply Rabs_bd in Hd.
  change (f32_ltb delta N) with (Bltb delta N). rewrite (ltb_fin delta N d n Fd Fn). pose proof (Rabs_bd _ _ Hn) as Hnb.
  assert (F3 : fin (f32_of_Z 3) 3) by (apply (of_Z_isZ 3); lia).
  destruct (Rlt_le_dec d n) as [G|L].
  - rewrite Rlt_bool_true by exact G.
    destruct (pow_rel pow N (f32_of_Z 3) n 3 0 0 n 3 HP Fn F3) as [q [Fq Hq]]; try (unfold dl, uu in *; lra).
    { unfold rel. rewrite Rminus_diag_eq, Rabs_R0 by reflexivity. lra. }
    { rewrite Rminus_diag_eq, Rabs_R0 by reflexivity. lra. }
    exists q. split; [exact Fq|]. unfold rel in Hq. rewrite Rpower_3 in Hq by (unfold dl, uu in *; lra).
    pose proof (cube_close y n (64 * uu) Hy Hn ltac:(unfold uu; lra)) as Hcc. apply Rabs_bd in Hcc. apply Rabs_bd in Hq.
    assert (Y3 : y ^ 3 <= 1.331). { replace 1.331 with (1.1 ^ 3) by (cbn; lra). apply pow_incr. lra. }
    assert (Y0 : 0 <= y ^ 3) by (apply pow_le; lra).
    destruct Hc as [[E _]|[E Hu]].
    + rewrite <- E. set (c := n ^ 3) in *. set (k := y ^ 3) in *. clearbody c k. unfold uu in *. apply Rabs_le'; lra.
    + assert (M : Rabs (y - dl) <= 100 * uu) by (apply Rabs_le'; unfold dl, uu in *; lra). apply curves_meet in M. rewrite <- E in M. apply Rabs_bd in M.
      set (c := n ^ 3) in *. set (k := y ^ 3) in *. clearbody c k. clear E. unfold uu in *. apply Rabs_le'; lra.
  - rewrite Rlt_bool_false by exact L.
    assert (S1 : approx (f32_sub N (f32_div (f32_of_Z 4) (f32_of_Z 29))) (y - 4 / 29) (66 * uu)).
    { apply (ap_sub 0 _ _ _ _ (64 * uu) (uu / 4)); [exists n; split; assumption|exact foot_ap|lia| |]; [assert (Rabs (y - 4 / 29) <= 0.1) by (apply Rabs_le'; unfold dl, uu in *; lra)|]; unfold dl, uu in *; cbn; lra. }
    assert (S2 : approx (f32_mul (f32_mul (f32_mul (f32_of_Z 3) delta) delta) (f32_sub N (f32_div (f32_of_Z 4) (f32_of_Z 29)))) (3 * dl * dl * (y - 4 / 29)) (20 * uu)).
    { apply (ap_mul 0 0.13 0.1 _ _ _ _ uu (66 * uu)); [exact slope_ap|exact S1|lia| | | |]; try (apply Rabs_le'); unfold dl, uu in *; cbn; lra. }
    destruct S2 as [q [Fq Hq]]. exists q. split; [exact Fq|]. apply Rabs_bd in Hq.
    destruct Hc as [[E Hl]|[E _]].
    + assert (M : Rabs (y - dl) <= 100 * uu) by (apply Rabs_le'; unfold dl, uu in *; lra). apply curves_meet in M. rewrite E in M. apply Rabs_bd in M.
      clear E. unfold dl, uu in *. apply Rabs_le'; lra.
    + rewrite E. unfold uu in *. apply Rabs_le'; lra.
Qed.

(** ** one XYZ component there and back *)
(** percentages of the white point *)
Lemma ratio_ap X W x w : fin X x -> approx W w (128 * uu) -> 80 <= w <= 110 -> -0.0005 <= x * 100 / w <= 1.33 ->
  approx (f32_div (f32_mul X (f32_of_Z 100)) W) (x * 100 / w) (16 * uu).
Proof.
  intros FX HW Hw Hx.
  assert (E : x = x * 100 / w * (w / 100)) by (field; lra). set (t := x * 100 / w) in *.
  assert (-0.0005 * (w / 100) <= x) by (rewrite E; apply Rmult_le_compat_r; lra).
  assert (x <= 1.33 * (w / 100)) by (rewrite E; apply Rmult_le_compat_r; lra).
  assert (M : approx (f32_mul X (f32_of_Z 100)) (x * 100) (256 * uu)).
  { apply (ap_mul 8 1.5 100 _ _ _ _ 0 0); [apply fin_ap; exact FX|apply (ap_Z 100); lia|lia| | | |]; try (apply Rabs_le'); unfold uu; cbn; lra. }
  unfold t. apply (ap_div 1 1.34 _ _ _ _ (256 * uu) (128 * uu)); [exact M|exact HW|lia|lra|unfold uu; lra| | |].
  - apply Rabs_le'; [|lra]. lra.
  - assert (/ w <= / 80) by (apply Rinv_le_contravar; lra). unfold Rdiv.
    assert (2 * (256 * uu + 1.34 * (128 * uu)) * / w <= 2 * (256 * uu + 1.34 * (128 * uu)) * / 80) by (apply Rmult_le_compat_l; [unfold uu; lra|assumption]).
    unfold uu in *. cbn. lra.
  - assert (/ w <= / 80) by (apply Rinv_le_contravar; lra). unfold Rdiv.
    assert (2 * (256 * uu + 1.34 * (128 * uu)) * / w <= 2 * (256 * uu + 1.34 * (128 * uu)) * / 80) by (apply Rmult_le_compat_l; [unfold uu; lra|assumption]).
    unfold uu in *. cbn. lra.
Qed.
Lemma unratio_ap V W t w : approx V t (316 * uu) -> approx W w (128 * uu) -> 80 <= w <= 110 -> -0.0009 <= t <= 1.331 -> w * t <= 127 ->
  approx (f32_div (f32_mul W V) (f32_of_Z 100)) (w * t / 100) (w / 100 * (316 * uu) + 6 * uu).
Proof.
  intros HV HW Hw Ht Hwt. destruct HV as [v [Fv Hv]]. destruct HW as [W' [FW HW]]. apply Rabs_bd in Hv. apply Rabs_bd in HW.
  assert (D : Rabs (W' * v - w * t) <= w * (316 * uu) + 180 * uu).
  { replace (W' * v - w * t) with (w * (v - t) + (W' - w) * v) by ring. eapply Rle_trans; [apply Rabs_triang|].
    assert (Rabs (w * (v - t)) <= w * (316 * uu)) by (rewrite Rabs_mult, (Rabs_pos_eq w) by lra; apply Rmult_le_compat_l; [lra|apply Rabs_le'; lra]).
    assert (Rabs ((W' - w) * v) <= 128 * uu * 1.4) by (rewrite Rabs_mult; apply Rmult_le_compat; try apply Rabs_pos; apply Rabs_le'; unfold uu in *; lra).
    unfold uu in *. lra. }
  assert (Bn : Rabs (W' * v) <= IZR (2 ^ 7)).
  { pose proof (Rabs_bd _ _ D) as Db. assert (w * (316 * uu) <= 110 * (316 * uu)) by (apply Rmult_le_compat_r; unfold uu; lra).
    assert (-0.0009 * 110 <= w * t). { apply Rle_trans with (w * -0.0009); [|apply Rmult_le_compat_l; lra]. lra. }
    apply Rabs_le'; unfold uu in *; cbn; lra. }
  assert (M : approx (f32_mul W V) (w * t) (w * (316 * uu) + 308 * uu)).
  { eapply ap_weaken; [eapply (ap_round 7); [apply mul_fin; [exact FW|exact Fv|eapply (small_bpow 7); [lia|exact Bn]]|exact D|lia|exact Bn]|]. cbn. lra. }
  assert (L : w * (316 * uu) <= 110 * (316 * uu)) by (apply Rmult_le_compat_r; unfold uu; lra).
  assert (-0.0009 * 110 <= w * t). { apply Rle_trans with (w * -0.0009); [|apply Rmult_le_compat_l; lra]. lra. }
  eapply (ap_div_exact 1); [exact M|apply (of_Z_isZ 100); lia|lia|lra| |].
  - assert (Rabs (w * t) <= 127) by (apply Rabs_le'; lra). cbn. unfold uu in *. lra.
  - unfold Rdiv in *. unfold uu in *. cbn. lra.
Qed.

(** what happens to one component: curve, recovered curve value, back *)
Lemma component pow X W x w : pow_ok pow -> approx X x (160 * uu) -> approx W w (128 * uu) -> 80 <= w <= 110 ->
  0 <= x -> x * 100 / w <= 1.3299 -> x <= 1.26 ->
  exists y, approx (lab_f pow (f32_div (f32_mul X (f32_of_Z 100)) W)) y (46 * uu) /\ 0.13 <= y <= 1.1
    /\ forall N, approx N y (64 * uu) ->
       approx (f32_div (f32_mul W (lab_f_inv pow N)) (f32_of_Z 100)) x (w / 100 * (316 * uu) + 166 * uu).
Proof.
  intros HP [r [Fr Hr]] HW Hw Hx Hxw Hx2. apply Rabs_bd in Hr.
  assert (I : / 110 <= / w <= / 80) by (split; apply Rinv_le_contravar; lra).
  assert (Rt : -0.0005 <= r * 100 / w <= 1.33).
  { unfold Rdiv in *. replace (r * 100 * / w) with (x * 100 * / w + (r - x) * 100 * / w) by ring.
    assert (0 <= x * 100 * / w) by (apply Rmult_le_pos; lra).
    assert (- (160 * uu) * 100 * / 80 <= (r - x) * 100 * / w).
    { apply Rle_trans with (- (160 * uu) * 100 * / w); [|apply Rmult_le_compat_r; lra].
      assert (160 * uu * 100 * / w <= 160 * uu * 100 * / 80) by (apply Rmult_le_compat_l; [unfold uu|]; lra). lra. }
    assert ((r - x) * 100 * / w <= 160 * uu * 100 * / 80).
    { apply Rle_trans with (160 * uu * 100 * / w); [apply Rmult_le_compat_r; lra|]. apply Rmult_le_compat_l; [unfold uu|]; lra. }
    unfold uu in *. lra. }
  destruct (ratio_ap X W r w Fr HW Hw Rt) as [t [Ft Ht]]. apply Rabs_bd in Ht.
  destruct (lab_f_curve pow _ t HP Ft ltac:(unfold uu in *; lra)) as [y [Hy [Yr Cy]]].
  exists y. split; [exact Hy|]. split; [exact Yr|]. intros N HN.
  pose proof (lab_inv_curve pow N y t HP HN Yr Cy) as V.
  assert (V' : approx (lab_f_inv pow N) (r * 100 / w) (316 * uu)).
  { destruct V as [q [Fq Hq]]. exists q. split; [exact Fq|]. apply Rabs_bd in Hq. apply Rabs_le'; lra. }
  assert (E : w * (r * 100 / w) = r * 100) by (field; lra).
  pose proof (unratio_ap _ W (r * 100 / w) w V' HW Hw ltac:(lra) ltac:(rewrite E; unfold uu in *; lra)) as U. rewrite E in U.
  destruct U as [q [Fq Hq]]. exists q. split; [exact Fq|]. apply Rabs_bd in Hq. apply Rabs_le'; lra.
Qed.

(** the coordinates L*, a*, b* give the curve values back *)
Lemma lab_coords FX FY FZ x y z L : 
  approx FX x (46 * uu) -> approx FY y (46 * uu) -> approx FZ z (46 * uu) ->
  0.13 <= x <= 1.1 -> 0.13 <= y <= 1.1 -> 0.13 <= z <= 1.1 ->
  (forall l, fin (f32_sub (f32_mul (f32_of_Z 116) FY) (f32_of_Z 16)) l -> Rabs l <= 128 -> fin L l) ->
  let n := f32_div (f32_add L (f32_of_Z 16)) (f32_of_Z 116) in
  approx (f32_add n (f32_div (f32_mul (f32_of_Z 500) (f32_sub FX FY)) (f32_of_Z 500))) x (64 * uu)
  /\ approx n y (64 * uu)
  /\ approx (f32_sub n (f32_div (f32_mul (f32_of_Z 200) (f32_sub FY FZ)) (f32_of_Z 200))) z (64 * uu).
Proof.
  intros [fx [F1 H1]] [fy [F2 H2]] [fz [F3 H3]] Hx Hy Hz HL n.
  apply Rabs_bd in H1. apply Rabs_bd in H2. apply Rabs_bd in H3.
  assert (A1 : approx (f32_mul (f32_of_Z 116) FY) (116 * fy) (128 * uu)).
  { apply (ap_mul 7 116 1.1001 _ _ _ _ 0 0); [apply (ap_Z 116); lia|apply fin_ap; exact F2|lia| | | |]; try (apply Rabs_le'); unfold uu in *; cbn; lra. }
  assert (A2 : approx (f32_sub (f32_mul (f32_of_Z 116) FY) (f32_of_Z 16)) (116 * fy - 16) (256 * uu)).
  { apply (ap_sub 7 _ _ _ _ (128 * uu) 0); [exact A1|apply (ap_Z 16); lia|lia| |]; [|unfold uu; cbn; lra].
    assert (Rabs (116 * fy - 16) <= 120) by (apply Rabs_le'; unfold uu in *; lra). unfold uu; cbn; lra. }
  assert (A3 : approx L (116 * fy - 16) (256 * uu)).
  { destruct A2 as [l [Fl Hl]]. exists l. split; [|exact Hl]. apply HL; [exact Fl|].
    apply Rabs_bd in Hl. apply Rabs_le'; unfold uu in *; lra. }
  assert (A4 : approx (f32_add L (f32_of_Z 16)) (116 * fy - 16 + 16) (384 * uu)).
  { apply (ap_add 7 _ _ _ _ (256 * uu) 0); [exact A3|apply (ap_Z 16); lia|lia| |]; [|unfold uu; cbn; lra].
    assert (Rabs (116 * fy - 16 + 16) <= 127.7) by (apply Rabs_le'; unfold uu in *; lra). unfold uu; cbn; lra. }
  assert (N : approx n fy (6 * uu)).
  { apply (ap_eq _ ((116 * fy - 16 + 16) / 116)); [|field]. unfold n.
    apply (ap_div_exact 1 _ _ _ _ (384 * uu)); [exact A4|apply (of_Z_isZ 116); lia|lia|lra| |unfold uu; cbn; lra].
    assert (Rabs (116 * fy - 16 + 16) <= 127.7) by (apply Rabs_le'; unfold uu in *; lra). unfold uu; cbn; lra. }
  assert (B : forall (k : Z) G H g h, (200 <= k <= 500)%Z -> fin G g -> fin H h -> 0.12 <= g <= 1.11 -> 0.12 <= h <= 1.11 ->
    approx (f32_div (f32_mul (f32_of_Z k) (f32_sub G H)) (f32_of_Z k)) (g - h) (6 * uu)).
  { intros k G H g h Hk FG FH Hg Hh. assert (200 <= IZR k <= 500) by (split; apply IZR_le; lia).
    assert (B1 : approx (f32_sub G H) (g - h) (1 * uu)).
    { apply (ap_sub 0 _ _ _ _ 0 0); [apply fin_ap; exact FG|apply fin_ap; exact FH|lia| |unfold uu; cbn; lra].
      assert (Rabs (g - h) <= 0.99) by (apply Rabs_le'; lra). cbn; lra. }
    assert (B2 : approx (f32_mul (f32_of_Z k) (f32_sub G H)) (IZR k * (g - h)) (IZR k * uu + 512 * uu)).
    { apply (ap_mul 9 (IZR k) 0.99 _ _ _ _ 0 (1 * uu)); [apply ap_Z; lia|exact B1|lia|rewrite Rabs_pos_eq; lra|apply Rabs_le'; lra| |cbn; lra].
      assert (IZR k * (0.99 + 1 * uu) <= 500 * (0.99 + 1 * uu)) by (apply Rmult_le_compat_r; unfold uu; lra). unfold uu in *; cbn; lra. }
    apply (ap_eq _ (IZR k * (g - h) / IZR k)); [|field; lra].
    assert (I : / IZR k <= / 200) by (apply Rinv_le_contravar; lra).
    apply (ap_div_exact 1 _ _ _ _ (IZR k * uu + 512 * uu)); [exact B2|apply of_Z_isZ; lia|lia|lra| |].
    - replace ((Rabs (IZR k * (g - h)) + (IZR k * uu + 512 * uu)) / IZR k) with (Rabs (g - h) + uu + 512 * uu * / IZR k).
      + assert (Rabs (g - h) <= 0.99) by (apply Rabs_le'; lra).
        assert (512 * uu * / IZR k <= 512 * uu * / 200) by (apply Rmult_le_compat_l; [unfold uu; lra|exact I]). unfold uu in *; cbn; lra.
      + rewrite Rabs_mult, (Rabs_pos_eq (IZR k)) by lra. field. lra.
    - replace ((IZR k * uu + 512 * uu) / IZR k) with (uu + 512 * uu * / IZR k) by (field; lra).
      assert (512 * uu * / IZR k <= 512 * uu * / 200) by (apply Rmult_le_compat_l; [unfold uu; lra|exact I]). unfold uu in *; cbn; lra. }
  pose proof (B 500%Z FX FY fx fy ltac:(lia) F1 F2 ltac:(unfold uu in *; lra) ltac:(unfold uu in *; lra)) as Ba.
  pose proof (B 200%Z FY FZ fy fz ltac:(lia) F2 F3 ltac:(unfold uu in *; lra) ltac:(unfold uu in *; lra)) as Bb.
  assert (G : forall V v v', approx V v (14 * uu) -> Rabs (v - v') <= 46 * uu -> approx V v' (64 * uu)).
  { intros V v v' [q [Fq Hq]] Hv. exists q. split; [exact Fq|]. replace (q - v') with ((q - v) + (v - v')) by ring.
    eapply Rle_trans; [apply Rabs_triang|]. unfold uu in *. lra. }
  split; [|split].
  - apply (G _ (fy + (fx - fy))); [|apply Rabs_le'; lra].
    apply (ap_add 1 _ _ _ _ (6 * uu) (6 * uu)); [exact N|exact Ba|lia| |unfold uu; cbn; lra].
    rewrite Rabs_pos_eq by (unfold uu in *; lra). unfold uu in *; cbn; lra.
  - apply (G _ fy); [|apply Rabs_le'; lra]. eapply ap_weaken; [exact N|unfold uu; lra].
  - apply (G _ (fy - (fy - fz))); [|apply Rabs_le'; lra].
    apply (ap_sub 1 _ _ _ _ (6 * uu) (6 * uu)); [exact N|exact Bb|lia| |unfold uu; cbn; lra].
    rewrite Rabs_pos_eq by (unfold uu in *; lra). unfold uu in *; cbn; lra.
Qed.

(** ** whole colours *)
Definition near (v v' : Z) : Prop := (Z.max 0 (v - 1) <= v' <= v)%Z.

Lemma xyz_round_trip pow r g b : pow_ok pow -> (0 <= r <= 255)%Z -> (0 <= g <= 255)%Z -> (0 <= b <= 255)%Z ->
  exists r' g' b', xyz_to_srgb pow (srgb_to_xyz pow [r; g; b]) = [r'; g'; b'] /\ near r r' /\ near g g' /\ near b b'.
Proof.
  intros HP Hr Hg Hb. destruct (xyz_ap pow r g b HP Hr Hg Hb) as [X [Y [Z [E [AX [AY AZ]]]]]]. rewrite E.
  destruct (lin_ap X Y Z _ _ _ (160 * uu) (160 * uu) (linear_range r Hr) (linear_range g Hg) (linear_range b Hb) AX AY AZ)
    as [A [B [C [EL [A1 [A2 A3]]]]]]; try (unfold uu; lra).
  unfold xyz_to_srgb. rewrite EL. eexists _, _, _. split; [reflexivity|].
  split; [|split]; apply encode_close; assumption.
Qed.

Lemma whites_ap : 
  (approx (f32_dec 964212 4) 96.4212 (128 * uu) /\ approx (f32_of_Z 100) 100 (128 * uu) /\ approx (f32_dec 825188 4) 82.5188 (128 * uu))
  /\ (approx (f32_dec 950489 4) 95.0489 (128 * uu) /\ approx (f32_of_Z 100) 100 (128 * uu) /\ approx (f32_dec 1088840 4) 108.884 (128 * uu)).
Proof.
  assert (H : approx (f32_of_Z 100) 100 (128 * uu)) by (eapply ap_weaken; [apply (ap_Z 100); lia|unfold uu; lra]).
  split; (split; [const_ap|split; [exact H|const_ap]]).
Qed.

(** any edit of L* that keeps its value *)
Lemma lab_round_trip pow w f r g b : pow_ok pow -> w = white_d50 \/ w = white_d65 ->
  (forall (L : f32) l, fin L l -> Rabs l <= 128 -> fin (f L) l) ->
  (0 <= r <= 255)%Z -> (0 <= g <= 255)%Z -> (0 <= b <= 255)%Z ->
  exists r' g' b', edit_lightness pow w f [r; g; b] = [r'; g'; b'] /\ near r r' /\ near g g' /\ near b b'.
Proof.
  intros HP Hw Hf Hr Hg Hb. destruct (xyz_ap pow r g b HP Hr Hg Hb) as [X [Y [Z [E [AX [AY AZ]]]]]].
  pose proof (linear_range r Hr) as Lr. pose proof (linear_range g Hg) as Lg. pose proof (linear_range b Hb) as Lb.
  assert (exists xn yn zn xw zw, w = (xn, yn, zn) /\ approx xn xw (128 * uu) /\ approx yn 100 (128 * uu) /\ approx zn zw (128 * uu)
    /\ 95 <= xw <= 97 /\ 82.5 <= zw <= 109) as [xn [yn [zn [xw [zw [Ew [Ax [Ay [Az [Bx Bz]]]]]]]]]].
  { destruct whites_ap as [[A1 [A2 A3]] [A4 [A5 A6]]]. destruct Hw as [->| ->]; eexists _, _, _; [exists 96.4212, 82.5188|exists 95.0489, 108.884];
      (split; [reflexivity|]; split; [assumption|]; split; [assumption|]; split; [assumption|lra]). }
  unfold edit_lightness, srgb_to_lab. rewrite E, Ew. clear E Ew. unfold xyz_to_lab. cbv zeta.
  assert (I : / 97 <= / xw <= / 95) by (split; apply Rinv_le_contravar; lra).
  assert (J : / 109 <= / zw <= / 82.5) by (split; apply Rinv_le_contravar; lra).
  destruct (component pow X xn _ xw HP AX Ax ltac:(lra)) as [fx [Hfx [Rx Bkx]]].
  { unfold xr. lra. }
  { unfold Rdiv. apply Rle_trans with (xr (linear_light r) (linear_light g) (linear_light b) * 100 * / 95); [apply Rmult_le_compat_l; unfold xr; lra|unfold xr; lra]. }
  { unfold xr. lra. }
  destruct (component pow Y yn _ 100 HP AY Ay ltac:(lra)) as [fy [Hfy [Ry Bky]]].
  { unfold yr. lra. } { unfold yr. lra. } { unfold yr. lra. }
  destruct (component pow Z zn _ zw HP AZ Az ltac:(lra)) as [fz [Hfz [Rz Bkz]]].
  { unfold zr. lra. }
  { unfold Rdiv. apply Rle_trans with (zr (linear_light r) (linear_light g) (linear_light b) * 100 * / 82.5); [apply Rmult_le_compat_l; unfold zr; lra|unfold zr; lra]. }
  { unfold zr. lra. }
  destruct (lab_coords _ _ _ fx fy fz _ Hfx Hfy Hfz Rx Ry Rz (Hf _)) as [Nx [Ny Nz]].
  unfold lab_to_srgb, lab_to_xyz. cbv zeta. apply Bkx in Nx. apply Bky in Ny. apply Bkz in Nz.
  assert (Nx' : approx (f32_div (f32_mul xn (lab_f_inv pow (f32_add (f32_div (f32_add (f (f32_sub (f32_mul (f32_of_Z 116) (lab_f pow (f32_div (f32_mul Y (f32_of_Z 100)) yn))) (f32_of_Z 16))) (f32_of_Z 16)) (f32_of_Z 116)) (f32_div (f32_mul (f32_of_Z 500) (f32_sub (lab_f pow (f32_div (f32_mul X (f32_of_Z 100)) xn)) (lab_f pow (f32_div (f32_mul Y (f32_of_Z 100)) yn)))) (f32_of_Z 500))))) (f32_of_Z 100)) (xr (linear_light r) (linear_light g) (linear_light b)) (482 * uu)).
  { eapply ap_weaken; [exact Nx|]. unfold uu. lra. }
  clear Nx.
  match type of Ny with approx ?V _ _ => assert (Ny' : approx V (yr (linear_light r) (linear_light g) (linear_light b)) (482 * uu)) by (eapply ap_weaken; [exact Ny|unfold uu; lra]) end.
  match type of Nz with approx ?V _ _ => assert (Nz' : approx V (zr (linear_light r) (linear_light g) (linear_light b)) (511 * uu)) by (eapply ap_weaken; [exact Nz|unfold uu; lra]) end.
  destruct (lin_ap _ _ _ _ _ _ (482 * uu) (511 * uu) Lr Lg Lb Nx' Ny' Nz') as [A [B [C [EL [A1 [A2 A3]]]]]]; try (unfold uu; lra).
  unfold xyz_to_srgb. rewrite EL. eexists _, _, _. split; [reflexivity|].
  split; [|split]; apply encode_close; assumption.
Qed.
