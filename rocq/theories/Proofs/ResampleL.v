(** * Error analysis of the bicubic kernel and of weighted sums *)
From Coq Require Import Lra.
From Verif.Model Require Import Base Float.
From Verif.Spec Require Import FloatS BsplineS ConvS ResampleS.
From Verif.Proofs Require Import BaseL FloatL ApproxL.
From Flocq Require Import Core BinarySingleNaN.
Open Scope R_scope.

(** ** the kernel over the reals *)
Definition pp (x : R) : R := Rmax 0 x.
Definition bsp (x : R) : R := (pp (x + 2) ^ 3 - 4 * pp (x + 1) ^ 3 + 6 * pp x ^ 3 - 4 * pp (x - 1) ^ 3) / 6.

Lemma pp_pos x : 0 <= x -> pp x = x. Proof. intros H. apply Rmax_right. exact H. Qed.
Lemma pp_neg x : x <= 0 -> pp x = 0. Proof. intros H. apply Rmax_left. exact H. Qed.
Ltac ppc := repeat first [rewrite pp_pos by lra | rewrite pp_neg by lra].

Lemma bsp_bspline x : -2 <= x <= 2 -> bsp x = bspline x.
Proof.
  intros H. unfold bspline.
  destruct (Rle_dec 0 x) as [P|N].
  - rewrite Rabs_pos_eq by exact P. destruct (Rle_dec x 1) as [A|A].
    + unfold bsp. ppc. field.
    + destruct (Rle_dec x 2) as [B|B]; [|lra]. unfold bsp. ppc. field.
  - rewrite Rabs_left by lra. destruct (Rle_dec (- x) 1) as [A|A].
    + unfold bsp. ppc. field.
    + destruct (Rle_dec (- x) 2) as [B|B]; [|lra]. unfold bsp. ppc. field.
Qed.
Lemma bspline_range x : 0 <= bspline x <= 2 / 3.
Proof.
  unfold bspline. pose proof (Rabs_pos x) as P. set (a := Rabs x) in *. clearbody a.
  destruct (Rle_dec a 1) as [A|A].
  - split.
    + assert (a * a <= 1) by (rewrite <- (Rmult_1_l 1); apply Rmult_le_compat; lra).
      assert (0 <= a * a * a) by (repeat apply Rmult_le_pos; lra).
      destruct (Rle_dec (a * a) (2 / 3)) as [S|S]; [cbn; lra|].
      assert (0 <= (1 - a) * (1 - a) * (1 + a)) by (repeat apply Rmult_le_pos; lra).
      cbn. nra.
    + assert (0 <= a * a) by (apply Rmult_le_pos; lra).
      assert (a * (a * a) <= 1 * (a * a)) by (apply Rmult_le_compat_r; lra). cbn. lra.
  - destruct (Rle_dec a 2) as [B|B]; [|lra].
    assert (H1 : 0 <= (2 - a) * (2 - a)) by (apply Rmult_le_pos; lra).
    assert (H2 : (2 - a) * (2 - a) <= 1 * 1) by (apply Rmult_le_compat; lra).
    assert (H3 : 0 <= (2 - a) * ((2 - a) * (2 - a))) by (apply Rmult_le_pos; lra).
    assert (H4 : (2 - a) * ((2 - a) * (2 - a)) <= 1 * 1) by (apply Rmult_le_compat; lra). cbn. lra.
Qed.
Lemma bspline_even x : bspline (- x) = bspline x.
Proof. unfold bspline. rewrite Rabs_Ropp. reflexivity. Qed.
(** partition of unity *)
Lemma bspline_sum d : 0 <= d <= 1 -> bspline (-1 - d) + bspline (0 - d) + bspline (1 - d) + bspline (2 - d) = 1.
Proof.
  intros H. rewrite <- !bsp_bspline by lra. unfold bsp. ppc. field.
Qed.

(** ** the kernel in f32 *)
Lemma ap_plus_cubed pow B T t e e' : cubes_ok pow -> approx T t e -> e <= / 100 -> Rabs t <= 4 -> t <= B -> 0 <= B ->
  3 * (B + e) * (B + e) * e + 512 * uu <= e' -> approx (plus_cubed pow T) (pp t ^ 3) e'.
Proof.
  intros HP [r [F H]] He Ht HB HB0 He'. apply Rabs_bd in H. apply Rabs_bd in Ht. unfold plus_cubed.
  assert (e0 : 0 <= e) by lra.
  set (X := if f32_leb T (f32_of_Z 0) then f32_of_Z 0 else T).
  assert (FX : fin X (pp r)).
  { unfold X. change (f32_leb T (f32_of_Z 0)) with (Bleb T (f32_of_Z 0)).
    assert (Z0 : fin (f32_of_Z 0) 0) by (apply (of_Z_isZ 0); lia).
    rewrite (leb_fin T (f32_of_Z 0) r 0 F Z0). destruct (Rle_bool_spec r 0) as [L|L].
    - rewrite pp_neg by exact L. exact Z0.
    - rewrite pp_pos by lra. exact F. }
  assert (Hpr : 0 <= pp r <= B + e).
  { split; [apply Rmax_l|]. apply Rmax_lub; lra. }
  assert (Hpt : 0 <= pp t <= B + e).
  { split; [apply Rmax_l|]. apply Rmax_lub; lra. }
  assert (D : Rabs (pp r - pp t) <= e).
  { unfold pp. apply Rabs_le'; unfold Rmax; repeat destruct (Rle_dec _ _); lra. }
  destruct (HP X (pp r) FX) as [q [Fq Hq]]. { split; [apply Rmax_l|]. apply Rmax_lub; lra. }
  exists q. split; [exact Fq|].
  replace (q - pp t ^ 3) with ((q - pp r ^ 3) + (pp r ^ 3 - pp t ^ 3)) by ring.
  eapply Rle_trans; [apply Rabs_triang|].
  replace (pp r ^ 3 - pp t ^ 3) with ((pp r - pp t) * (pp r * pp r + pp r * pp t + pp t * pp t)) by ring.
  rewrite Rabs_mult.
  assert (S : Rabs (pp r * pp r + pp r * pp t + pp t * pp t) <= 3 * (B + e) * (B + e)).
  { set (a := pp r) in *. set (b := pp t) in *. set (M := B + e) in *.
    assert (0 <= a * a <= M * M) by (split; [apply Rmult_le_pos|apply Rmult_le_compat]; lra).
    assert (0 <= a * b <= M * M) by (split; [apply Rmult_le_pos|apply Rmult_le_compat]; lra).
    assert (0 <= b * b <= M * M) by (split; [apply Rmult_le_pos|apply Rmult_le_compat]; lra).
    rewrite Rabs_pos_eq; lra. }
  assert (S2 : Rabs (pp r - pp t) * Rabs (pp r * pp r + pp r * pp t + pp t * pp t) <= e * (3 * (B + e) * (B + e))).
  { apply Rmult_le_compat; try apply Rabs_pos; assumption. }
  unfold uu in *. lra.
Qed.

Lemma pp_cube_range B t : 0 <= B -> t <= B -> 0 <= pp t ^ 3 <= B * B * B.
Proof.
  intros HB Ht. assert (0 <= pp t <= B) by (split; [apply Rmax_l|apply Rmax_lub; lra]).
  assert (0 <= pp t * pp t <= B * B) by (split; [apply Rmult_le_pos|apply Rmult_le_compat]; lra).
  cbn. rewrite Rmult_1_r. split; [apply Rmult_le_pos; lra|].
  rewrite (Rmult_comm (B * B)). apply Rmult_le_compat; lra.
Qed.

(** the weight of an offset *)
Lemma ap_b_spline pow X x : cubes_ok pow -> approx X x (2 * uu) -> -2 <= x <= 2 ->
  approx (b_spline pow X) (bspline x) (1660 * uu).
Proof.
  intros HP HX Hx. rewrite <- bsp_bspline by exact Hx.
  assert (Hb : 0 <= bsp x <= 2 / 3) by (rewrite bsp_bspline by exact Hx; apply bspline_range).
  unfold b_spline.
  assert (N : forall z, (Z.abs z <= 16777216)%Z -> approx (f32_of_Z z) (IZR z) 0) by (intros; apply ap_Z; assumption).
  assert (A2 : approx (f32_add X (f32_of_Z 2)) (x + 2) (10 * uu)).
  { apply (ap_add 3 _ _ _ _ (2 * uu) 0 _ HX (N 2%Z ltac:(lia))); [lia|rewrite Rabs_pos_eq by lra|]; unfold uu; cbn; lra. }
  assert (A1 : approx (f32_add X (f32_of_Z 1)) (x + 1) (6 * uu)).
  { apply (ap_add 2 _ _ _ _ (2 * uu) 0 _ HX (N 1%Z ltac:(lia))); [lia| |]; [assert (Rabs (x + 1) <= 3) by (apply Rabs_le'; lra)|]; unfold uu; cbn; lra. }
  assert (Am : approx (f32_sub X (f32_of_Z 1)) (x - 1) (6 * uu)).
  { apply (ap_sub 2 _ _ _ _ (2 * uu) 0 _ HX (N 1%Z ltac:(lia))); [lia| |]; [assert (Rabs (x - 1) <= 3) by (apply Rabs_le'; lra)|]; unfold uu; cbn; lra. }
  assert (C2 : approx (plus_cubed pow (f32_add X (f32_of_Z 2))) (pp (x + 2) ^ 3) (993 * uu)).
  { apply (ap_plus_cubed pow 4 _ _ (10 * uu) _ HP A2); try (apply Rabs_le'); unfold uu; lra. }
  assert (C1 : approx (plus_cubed pow (f32_add X (f32_of_Z 1))) (pp (x + 1) ^ 3) (675 * uu)).
  { apply (ap_plus_cubed pow 3 _ _ (6 * uu) _ HP A1); try (apply Rabs_le'); unfold uu; lra. }
  assert (C0 : approx (plus_cubed pow X) (pp x ^ 3) (537 * uu)).
  { apply (ap_plus_cubed pow 2 _ _ (2 * uu) _ HP HX); try (apply Rabs_le'); unfold uu; lra. }
  assert (Cm : approx (plus_cubed pow (f32_sub X (f32_of_Z 1))) (pp (x - 1) ^ 3) (531 * uu)).
  { apply (ap_plus_cubed pow 1 _ _ (6 * uu) _ HP Am); try (apply Rabs_le'); unfold uu; lra. }
  pose proof (pp_cube_range 4 (x + 2) ltac:(lra) ltac:(lra)) as R2.
  pose proof (pp_cube_range 3 (x + 1) ltac:(lra) ltac:(lra)) as R1.
  pose proof (pp_cube_range 2 x ltac:(lra) ltac:(lra)) as R0.
  pose proof (pp_cube_range 1 (x - 1) ltac:(lra) ltac:(lra)) as Rm.
  set (c2 := pp (x + 2) ^ 3) in *. set (c1 := pp (x + 1) ^ 3) in *. set (c0 := pp x ^ 3) in *. set (cm := pp (x - 1) ^ 3) in *.
  assert (E : bsp x = 1 / 6 * (c2 - 4 * c1 + 6 * c0 - 4 * cm)) by (unfold bsp, c2, c1, c0, cm; field).
  rewrite E in *. clearbody c2 c1 c0 cm. clear E.
  assert (M1 : approx (f32_mul (f32_of_Z 4) (plus_cubed pow (f32_add X (f32_of_Z 1)))) (4 * c1) (2829 * uu)).
  { apply (ap_mul 7 4 27 _ _ 4 c1 0 (675 * uu)); [apply (N 4%Z); lia|exact C1|lia| | | |]; try (rewrite Rabs_pos_eq by lra); unfold uu; cbn; lra. }
  assert (D1 : approx (f32_sub (plus_cubed pow (f32_add X (f32_of_Z 2))) (f32_mul (f32_of_Z 4) (plus_cubed pow (f32_add X (f32_of_Z 1)))))
                 (c2 - 4 * c1) (3950 * uu)).
  { apply (ap_sub 7 _ _ _ _ (993 * uu) (2829 * uu) _ C2 M1); [lia|assert (Rabs (c2 - 4 * c1) <= 108) by (apply Rabs_le'; lra)|]; unfold uu; cbn; lra. }
  assert (M0 : approx (f32_mul (f32_of_Z 6) (plus_cubed pow X)) (6 * c0) (3286 * uu)).
  { apply (ap_mul 6 6 8 _ _ 6 c0 0 (537 * uu)); [apply (N 6%Z); lia|exact C0|lia| | | |]; try (rewrite Rabs_pos_eq by lra); unfold uu; cbn; lra. }
  assert (D0 : approx (f32_add (f32_sub (plus_cubed pow (f32_add X (f32_of_Z 2))) (f32_mul (f32_of_Z 4) (plus_cubed pow (f32_add X (f32_of_Z 1)))))
                               (f32_mul (f32_of_Z 6) (plus_cubed pow X)))
                 (c2 - 4 * c1 + 6 * c0) (7492 * uu)).
  { apply (ap_add 8 _ _ _ _ (3950 * uu) (3286 * uu) _ D1 M0); [lia|assert (Rabs (c2 - 4 * c1 + 6 * c0) <= 200) by (apply Rabs_le'; lra)|]; unfold uu; cbn; lra. }
  assert (Mm : approx (f32_mul (f32_of_Z 4) (plus_cubed pow (f32_sub X (f32_of_Z 1)))) (4 * cm) (2132 * uu)).
  { apply (ap_mul 3 4 1 _ _ 4 cm 0 (531 * uu)); [apply (N 4%Z); lia|exact Cm|lia| | | |]; try (rewrite Rabs_pos_eq by lra); unfold uu; cbn; lra. }
  assert (S : approx (f32_sub (f32_add (f32_sub (plus_cubed pow (f32_add X (f32_of_Z 2))) (f32_mul (f32_of_Z 4) (plus_cubed pow (f32_add X (f32_of_Z 1)))))
                               (f32_mul (f32_of_Z 6) (plus_cubed pow X))) (f32_mul (f32_of_Z 4) (plus_cubed pow (f32_sub X (f32_of_Z 1)))))
                 (c2 - 4 * c1 + 6 * c0 - 4 * cm) (9880 * uu)).
  { apply (ap_sub 8 _ _ _ _ (7492 * uu) (2132 * uu) _ D0 Mm); [lia|rewrite Rabs_pos_eq by lra|]; unfold uu; cbn; lra. }
  assert (I6 : approx (f32_div (f32_of_Z 1) (f32_of_Z 6)) (1 / 6) uu).
  { apply (ap_div 0 1 _ _ 1 6 0 0); [apply (N 1%Z); lia|apply (N 6%Z); lia|lia| | | | |]; try (rewrite Rabs_pos_eq by lra); unfold uu; cbn; lra. }
  apply (ap_mul 0 (1 / 6) 4 _ _ (1 / 6) _ uu (9880 * uu)); [exact I6|exact S|lia| | | |]; try (rewrite Rabs_pos_eq by lra); unfold uu; cbn; lra.
Qed.

(** ** sums *)
Lemma fold_ap {A} k (X : A -> f32) (x ep : A -> R) l : (0 <= k <= 100)%Z ->
  (forall i, In i l -> approx (X i) (x i) (ep i)) ->
  forall (acc : f32) a e, approx acc a e ->
  Rabs a + e + sum_over l (fun i => Rabs (x i) + ep i + IZR (2 ^ k) * uu) <= IZR (2 ^ k) ->
  approx (fold_left (fun s i => f32_add s (X i)) l acc) (a + sum_over l x) (e + sum_over l (fun i => ep i + IZR (2 ^ k) * uu)).
Proof.
  intros Hk Hl. induction l as [|i l IH]; intros acc a e Ha HB.
  - cbn in *. rewrite !Rplus_0_r. exact Ha.
  - cbn in HB. cbn [fold_left sum_over fold_right].
    assert (Hi : approx (X i) (x i) (ep i)) by (apply Hl; left; reflexivity).
    assert (Hsum : 0 <= sum_over l (fun i => Rabs (x i) + ep i + IZR (2 ^ k) * uu)).
    { clear -Hl. assert (H : forall j, In j l -> approx (X j) (x j) (ep j)) by (intros j Hj; apply Hl; right; exact Hj). clear Hl.
      induction l as [|j l IH]; [cbn; lra|]. cbn. pose proof (ap_pos _ _ _ (H j (or_introl eq_refl))). pose proof (Rabs_pos (x j)).
      assert (0 <= IZR (2 ^ k) * uu). { apply Rmult_le_pos; [apply (IZR_le 0), Z.pow_nonneg; lia|unfold uu; lra]. }
      assert (0 <= sum_over l (fun i0 => Rabs (x i0) + ep i0 + IZR (2 ^ k) * uu)) by (apply IH; intros q Hq; apply H; right; exact Hq).
      unfold sum_over in *. lra. }
    unfold sum_over in *. pose proof (Rabs_triang a (x i)) as Ht.
    assert (Hu : 0 <= IZR (2 ^ k) * uu). { apply Rmult_le_pos; [apply (IZR_le 0), Z.pow_nonneg; lia|unfold uu; lra]. }
    pose proof (ap_pos _ _ _ Ha). pose proof (ap_pos _ _ _ Hi).
    assert (A1 : approx (f32_add acc (X i)) (a + x i) (e + ep i + IZR (2 ^ k) * uu)).
    { apply (ap_add k _ _ _ _ e (ep i) _ Ha Hi Hk); lra. }
    specialize (IH (fun j Hj => Hl j (or_intror Hj)) _ _ _ A1).
    eapply ap_weaken; [eapply ap_eq; [apply IH|]|]; lra.
Qed.
