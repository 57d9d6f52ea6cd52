(** * C73: the Gaussian functions and kernels against the real Gaussian *)
From Coq Require Import Lra.
From Flocq Require Import Core BinarySingleNaN.
From Verif.Model Require Import Util MathM Filter.
From Verif.Spec Require Import ImageS FloatS FilterS BsplineS RealFilterS GaussS PowS.
From Verif.Proofs Require Import BaseL ImageL ImageOps FloatL FloatL2 ApproxL PowL SrgbL SrgbL3 ExpPiL GaussL FilterL.
From Verif.Props Require Import MatP SpatialP FilterP FilterP3 FilterP4.
Open Scope Z_scope.

Section Close.
  Open Scope R_scope.
  Lemma close_frel X x t : 0 < x -> frel X x t -> t <= 2000 * uu -> close X x.
  Proof.
    intros Hx [r [F H]] Ht. exists r. split; [exact F|]. unfold rel in H. rewrite (Rabs_pos_eq x) by lra.
    assert (t * x <= 2000 * uu * x) by (apply Rmult_le_compat_r; lra). unfold uu in *. lra.
  Qed.
  Lemma close_mrel X x t : 0 < x -> mrel X x t -> t <= 2000 * uu -> close X (- x).
  Proof.
    intros Hx [r [F H]] Ht. exists (- r). split; [exact F|]. unfold rel in H. rewrite Rabs_Ropp, (Rabs_pos_eq x) by lra.
    replace (- r - - x) with (- (r - x)) by ring. rewrite Rabs_Ropp.
    assert (t * x <= 2000 * uu * x) by (apply Rmult_le_compat_r; lra). unfold uu in *. lra.
  Qed.
  Lemma gauss_eq g d : 0 < g -> gauss g d = 1 / (2 * PI * (g * g)) * exp (- (d / (2 * g * g))).
  Proof.
    intros Hg. unfold gauss. replace (2 * g ^ 2) with (2 * g * g) by ring. pose proof pi_bounds. field. lra.
  Qed.
  Lemma gauss_pos g d : 0 < g -> 0 < gauss g d.
  Proof.
    intros Hg. unfold gauss. pose proof pi_bounds. apply Rmult_lt_0_compat; [apply exp_pos|]. apply Rinv_0_lt_compat.
    apply Rmult_lt_0_compat; [lra|]. apply pow_lt. exact Hg.
  Qed.
  Lemma log_eq g d : 0 < g -> laplace_gauss_minus g d = - (1 / (PI * g ^ 4) * (1 + d / (2 * g * g)) * exp (- (d / (2 * g * g)))).
  Proof.
    intros Hg. unfold laplace_gauss_minus. replace (2 * g ^ 2) with (2 * g * g) by ring. unfold Rdiv. ring.
  Qed.
  Lemma log_pos g d : 0 < g -> 0 <= d -> 0 < 1 / (PI * g ^ 4) * (1 + d / (2 * g * g)) * exp (- (d / (2 * g * g))).
  Proof.
    intros Hg Hd. pose proof pi_bounds. assert (0 < g ^ 4) by (apply pow_lt; exact Hg).
    assert (0 <= d / (2 * g * g)) by (apply Rmult_le_pos; [exact Hd|]; left; apply Rinv_0_lt_compat; nra).
    apply Rmult_lt_0_compat; [|apply exp_pos]. apply Rmult_lt_0_compat; [|lra].
    apply Rmult_lt_0_compat; [lra|]. apply Rinv_0_lt_compat. apply Rmult_lt_0_compat; lra.
  Qed.
End Close.

(** gaussian_fn(x, sigma) is the two-dimensional Gaussian at distance x, to within 1/15000 *)
Theorem C73_gaussian_fn lm (x sigma : f32) r g :
  gauss_pow_ok (powf lm) -> fin sigma g -> (/ 256 <= g <= 256)%R -> fin x r -> (r = 0 \/ / 1024 <= Rabs r)%R -> (r ^ 2 / (2 * g ^ 2) <= 60)%R ->
  exists v, gaussian_fn lm x sigma = Ret v /\ close v (gauss g (r ^ 2)).
Proof.
  intros HP Fg Hg Fx Hr Hz. unfold gaussian_fn, check_non_neg.
  assert (Hs : n_ltb num_f32 sigma (n_zero num_f32) = false).
  { change (f32_ltb sigma f32_0 = false). unfold f32_ltb.
    change f32_0 with (f32_of_Z 0). rewrite (ltb_fin sigma (f32_of_Z 0) g 0 Fg (of_Z_isZ 0 ltac:(lia))). apply Rlt_bool_false. lra. }
  rewrite Hs. cbn [bind]. eexists. split; [reflexivity|].
  assert (Hg0 : (0 < g)%R) by lra.
  rewrite (gauss_eq g _ Hg0). eapply close_frel; [rewrite <- (gauss_eq g _ Hg0); apply gauss_pos; exact Hg0| |].
  - change f32_1 with (f32_of_Z 1).
    replace (2 * g ^ 2)%R with (2 * g * g)%R in Hz by ring.
    apply (gaussian_of_frel (powf lm) HP sigma g Fg Hg (f32_mul x x) (r ^ 2)); [| |exact Hz].
    + assert (Hg2 : (2 * g * g <= 131072)%R) by nra.
      assert (Hq : (0 <= r ^ 2 <= 7864320)%R).
      { split; [apply pow2_ge_0|]. replace (r ^ 2)%R with (r ^ 2 / (2 * g * g) * (2 * g * g))%R by (field; lra).
        replace 7864320%R with (60 * 131072)%R by lra. apply Rmult_le_compat; try lra; try nra.
        apply Rmult_le_pos; [apply pow2_ge_0|left; apply Rinv_0_lt_compat; nra]. }
      assert (Fm : fin (f32_mul x x) (rnd32 (r ^ 2))).
      { replace (r ^ 2)%R with (r * r)%R by ring. apply mul_fin; [exact Fx|exact Fx|]. apply big. rewrite Rabs_pos_eq; nra. }
      destruct Hr as [->|Hr].
      * exists 0%R. split; [|unfold rel; rewrite pow_ne_zero, Rminus_0_r, Rabs_R0 by lia; lra].
        replace (rnd32 (0 ^ 2)) with 0%R in Fm; [exact Fm|]. rewrite pow_ne_zero by lia. symmetry. unfold rnd32. apply (rnd_Z 0). cbn. lia.
      * apply (frel_round_w _ (r ^ 2) _ 0); [exact Fm| | | |].
        -- unfold rel. rewrite Rminus_diag_eq, Rabs_R0 by reflexivity. lra.
        -- pose proof tiny_small. rewrite <- Rabs_pos_eq with (x := (r ^ 2)%R) by lra. rewrite <- RPow_abs.
           apply Rle_trans with (/ 1024 * / 1024)%R; [lra|]. replace (Rabs r ^ 2)%R with (Rabs r * Rabs r)%R by ring. apply Rmult_le_compat; lra.
        -- lra.
        -- unfold uu. lra.
    + destruct Hr as [->|Hr]; [left; ring|right]. rewrite <- Rabs_pos_eq with (x := (r ^ 2)%R) by apply pow2_ge_0. rewrite <- RPow_abs.
      apply Rle_trans with (/ 1024 * / 1024)%R; [lra|]. replace (Rabs r ^ 2)%R with (Rabs r * Rabs r)%R by ring. apply Rmult_le_compat; lra.
  - unfold uu. lra.
Qed.

Lemma half_odd n : Z.odd n = true -> (n - 1) / 2 = n / 2.
Proof.
  intros Ho. assert (H : n = 2 * (n / 2) + 1) by (rewrite (Z.div_mod n 2) at 1 by lia; rewrite Zmod_odd, Ho; lia).
  rewrite H at 1. replace (2 * (n / 2) + 1 - 1) with ((n / 2) * 2) by lia. apply Z.div_mul. lia.
Qed.

(** every entry of the Gaussian kernel is the Gaussian at its distance from the centre *)
Theorem C73_gaussian_kernel p lm n sigma g :
  gauss_pow_ok (powf lm) -> fin sigma g -> (/ 256 <= g <= 256)%R -> 0 <= n -> n * n <= 2147483647 -> Z.odd n = true ->
  exists m, generate_gaussian_kernel p lm n sigma = Ret m /\ len m = n * n
    /\ forall i j, 0 <= i < n -> 0 <= j < n ->
       let d2 := (i - n / 2) ^ 2 + (j - n / 2) ^ 2 in
       d2 <= 2 ^ 24 -> (IZR d2 / (2 * g ^ 2) <= 60)%R -> close (weight m (i * n + j)) (gauss g (IZR d2)).
Proof.
  intros HP Fg Hg Hn Hnn Ho. destruct (C30_gaussian_kernel p lm n sigma Hn Hnn) as [HK _]. destruct (HK Ho) as [m [E [Hl Hm]]].
  exists m. split; [exact E|]. split; [exact Hl|]. intros i j Hi Hj d2 Hd Hz.
  unfold weight. rewrite (nth_error_nth _ _ _ (Hm i j Hi Hj)).
  assert (Ed : dist2 n i j = d2) by (unfold dist2, d2; rewrite (half_odd n Ho); ring). rewrite Ed.
  assert (Hg0 : (0 < g)%R) by lra. rewrite (gauss_eq g _ Hg0).
  eapply close_frel; [rewrite <- (gauss_eq g _ Hg0); apply gauss_pos; exact Hg0| |].
  - apply (kernel_value_frel (powf lm) HP sigma g Fg Hg d2).
    + split; [unfold d2; nia|exact Hd].
    + replace (2 * g * g)%R with (2 * g ^ 2)%R by ring. exact Hz.
  - unfold uu. lra.
Qed.

(** the entries do not sum to 1: the 3 x 3 kernel with sigma = 1 has total weight below 0.79 *)
Lemma exp_half : (exp (- (1 / 2)) <= 0.6067)%R /\ (exp (- 1) <= 0.3679)%R.
Proof.
  pose proof (exp_neg1_ineq 6) as H. unfold tg_alt in H. cbn [Nat.mul Nat.add sum_f_R0] in H.
  rewrite !fact_S in H. cbn [fact INR pow Z.of_nat Pos.of_succ_nat Pos.succ] in H.
  assert (E1 : (exp (- 1) <= 0.36787945)%R) by lra. clear H. split; [|lra].
  pose proof (exp_pos (- (1 / 2))) as P. apply Rnot_lt_le. intros C.
  assert (exp (- 1) = exp (- (1 / 2)) * exp (- (1 / 2)))%R by (rewrite <- exp_plus; f_equal; lra). nra.
Qed.
Lemma close_up X x y : close X x -> (0 < x <= y)%R -> (B2R X <= y * (15001 / 15000))%R.
Proof. intros [r [[_ F] H]] Hx. rewrite F. rewrite (Rabs_pos_eq x) in H by lra. apply Rabs_bd in H. lra. Qed.
Theorem C73_normalised_refuted p lm : gauss_pow_ok (powf lm) ->
  exists m, generate_gaussian_kernel p lm 3 (f32_of_Z 1) = Ret m /\ len m = 9 /\ (sum_over m B2R < 0.79)%R.
Proof.
  intros HP. destruct (C73_gaussian_kernel p lm 3 (f32_of_Z 1) 1 HP (of_Z_isZ 1 ltac:(lia)) ltac:(lra) ltac:(lia) ltac:(lia) eq_refl) as [m [E [Hl Hm]]].
  exists m. split; [exact E|]. split; [exact Hl|].
  destruct m as [|k0 [|k1 [|k2 [|k3 [|k4 [|k5 [|k6 [|k7 [|k8 [|k9 m]]]]]]]]]]; try discriminate Hl; [|unfold len in Hl; cbn [length] in Hl; lia].
  destruct exp_half as [X1 X2]. pose proof pi_bounds as PB.
  assert (Hi : (0 < / (2 * PI) <= 0.15916)%R).
  { split; [apply Rinv_0_lt_compat; lra|]. apply Rmult_le_reg_r with (2 * PI)%R; [lra|]. rewrite Rinv_l; lra. }
  assert (G : forall i j, 0 <= i < 3 -> 0 <= j < 3 -> let d2 := (i - 1) ^ 2 + (j - 1) ^ 2 in
     (B2R (weight [k0; k1; k2; k3; k4; k5; k6; k7; k8] (i * 3 + j)) <= exp (- (IZR d2 / 2)) * 0.15916 * (15001 / 15000))%R).
  { intros i j Ri Rj d2. specialize (Hm i j Ri Rj). cbv zeta in Hm. change (3 / 2) with 1 in Hm. fold d2 in Hm.
    assert (Rd : (0 <= d2 <= 2)%Z) by (unfold d2; nia).
    apply (close_up _ (gauss 1 (IZR d2))).
    - apply Hm; [lia|]. assert (IZR d2 <= 2)%R by (apply IZR_le; lia). lra.
    - split; [apply gauss_pos; lra|]. unfold gauss. replace (2 * 1 ^ 2)%R with 2%R by lra. unfold Rdiv at 1.
      apply Rmult_le_compat_l; [left; apply exp_pos|]. replace (2 * PI * 1 ^ 2)%R with (2 * PI)%R by ring. lra. }
  assert (Ed : exp (- (IZR 2 / 2)) = exp (- 1)) by (f_equal; lra).
  assert (Em : exp (- (IZR 0 / 2)) = 1%R) by (rewrite <- exp_0; f_equal; lra).
  pose proof (G 0 0 ltac:(lia) ltac:(lia)) as G0. pose proof (G 0 1 ltac:(lia) ltac:(lia)) as G1. pose proof (G 0 2 ltac:(lia) ltac:(lia)) as G2.
  pose proof (G 1 0 ltac:(lia) ltac:(lia)) as G3. pose proof (G 1 1 ltac:(lia) ltac:(lia)) as G4. pose proof (G 1 2 ltac:(lia) ltac:(lia)) as G5.
  pose proof (G 2 0 ltac:(lia) ltac:(lia)) as G6. pose proof (G 2 1 ltac:(lia) ltac:(lia)) as G7. pose proof (G 2 2 ltac:(lia) ltac:(lia)) as G8.
  clear G Hm E Hl. unfold sum_over. cbn [fold_right].
  change (weight _ _) with k0 in G0. change (weight _ _) with k1 in G1. change (weight _ _) with k2 in G2. change (weight _ _) with k3 in G3.
  change (weight _ _) with k4 in G4. change (weight _ _) with k5 in G5. change (weight _ _) with k6 in G6. change (weight _ _) with k7 in G7. change (weight _ _) with k8 in G8.
  cbv zeta in *. change ((0 - 1) ^ 2 + (0 - 1) ^ 2) with 2 in *. change ((0 - 1) ^ 2 + (1 - 1) ^ 2) with 1 in *. change ((0 - 1) ^ 2 + (2 - 1) ^ 2) with 2 in *.
  change ((1 - 1) ^ 2 + (0 - 1) ^ 2) with 1 in *. change ((1 - 1) ^ 2 + (1 - 1) ^ 2) with 0 in *. change ((1 - 1) ^ 2 + (2 - 1) ^ 2) with 1 in *.
  change ((2 - 1) ^ 2 + (0 - 1) ^ 2) with 2 in *. change ((2 - 1) ^ 2 + (1 - 1) ^ 2) with 1 in *. change ((2 - 1) ^ 2 + (2 - 1) ^ 2) with 2 in *.
  rewrite Ed in *. rewrite Em in *. lra.
Qed.

(** ** the Laplacian of Gaussian *)
Lemma log_weight lm n sigma g m i j :
  gauss_pow_ok (powf lm) -> fin sigma g -> (/ 256 <= g <= 256)%R -> Z.odd n = true -> radial_kernel n (log_value lm sigma) m ->
  0 <= i < n -> 0 <= j < n -> let d2 := (i - n / 2) ^ 2 + (j - n / 2) ^ 2 in
  d2 <= 2 ^ 24 -> (IZR d2 / (2 * g ^ 2) <= 60)%R -> close (weight m (i * n + j)) (laplace_gauss_minus g (IZR d2)).
Proof.
  intros HP Fg Hg Ho [Hl Hm] Hi Hj d2 Hd Hz.
  unfold weight. rewrite (nth_error_nth _ _ _ (Hm i j Hi Hj)).
  assert (Ed : dist2 n i j = d2) by (unfold dist2, d2; rewrite (half_odd n Ho); ring). rewrite Ed.
  assert (H0 : 0 <= d2) by (unfold d2; nia).
  assert (Hg0 : (0 < g)%R) by lra. rewrite (log_eq g _ Hg0).
  eapply close_mrel; [apply log_pos; [exact Hg0|apply IZR_le; exact H0]| |].
  - apply (log_value_mrel (powf lm) HP sigma g Fg Hg d2).
    + split; [exact H0|exact Hd].
    + replace (2 * g * g)%R with (2 * g ^ 2)%R by ring. exact Hz.
  - unfold uu. lra.
Qed.
(** every entry of the kernel is the formula with the sign of the middle factor flipped: 1 + d2/(2 sigma^2) for
    1 - d2/(2 sigma^2) *)
Theorem C73_log_kernel p lm n sigma g :
  gauss_pow_ok (powf lm) -> fin sigma g -> (/ 256 <= g <= 256)%R -> 0 <= n -> n * n <= 2147483647 -> Z.odd n = true ->
  exists m, generate_log_kernel p lm n sigma = Ret m /\ len m = n * n
    /\ forall i j, 0 <= i < n -> 0 <= j < n ->
       let d2 := (i - n / 2) ^ 2 + (j - n / 2) ^ 2 in
       d2 <= 2 ^ 24 -> (IZR d2 / (2 * g ^ 2) <= 60)%R -> close (weight m (i * n + j)) (laplace_gauss_minus g (IZR d2)).
Proof.
  intros HP Fg Hg Hn Hnn Ho. destruct (C30_log_kernel p lm n sigma Hn Hnn) as [HK _]. destruct (HK Ho) as [m [E Hm]].
  exists m. split; [exact E|]. split; [apply Hm|]. intros i j Hi Hj. apply (log_weight lm n sigma g m i j HP Fg Hg Ho Hm Hi Hj).
Qed.
(** the true Laplacian of Gaussian is positive outside the circle of radius sigma * sqrt 2; every entry is negative *)
Theorem C73_log_sign_refuted p lm n sigma g :
  gauss_pow_ok (powf lm) -> fin sigma g -> (/ 256 <= g <= 256)%R -> 0 <= n -> n * n <= 2147483647 -> Z.odd n = true ->
  exists m, generate_log_kernel p lm n sigma = Ret m
    /\ forall i j, 0 <= i < n -> 0 <= j < n ->
       let d2 := (i - n / 2) ^ 2 + (j - n / 2) ^ 2 in
       d2 <= 2 ^ 24 -> (IZR d2 / (2 * g ^ 2) <= 60)%R ->
       f32_ltb (weight m (i * n + j)) f32_0 = true /\ ((2 * g ^ 2 < IZR d2)%R -> (0 < laplace_gauss g (IZR d2))%R).
Proof.
  intros HP Fg Hg Hn Hnn Ho. destruct (C73_log_kernel p lm n sigma g HP Fg Hg Hn Hnn Ho) as [m [E [_ H]]].
  exists m. split; [exact E|]. intros i j Hi Hj d2 Hd Hz. assert (H0 : 0 <= d2) by (unfold d2; nia).
  assert (Hg0 : (0 < g)%R) by lra. split.
  - destruct (H i j Hi Hj Hd Hz) as [r [F Hr]]. fold d2 in Hr. rewrite (log_eq g _ Hg0) in Hr.
    pose proof (log_pos g (IZR d2) Hg0 (IZR_le 0 d2 H0)) as P. set (q := (1 / (PI * g ^ 4) * (1 + IZR d2 / (2 * g * g)) * exp (- (IZR d2 / (2 * g * g))))%R) in *.
    rewrite Rabs_Ropp, (Rabs_pos_eq q) in Hr by lra. apply Rabs_bd in Hr.
    unfold f32_ltb. change f32_0 with (f32_of_Z 0). rewrite (ltb_fin _ _ r 0 F (of_Z_isZ 0 ltac:(lia))). apply Rlt_bool_true. lra.
  - intros Hd2. unfold laplace_gauss. pose proof pi_bounds. assert (0 < g ^ 2)%R by (apply pow_lt; exact Hg0). assert (0 < g ^ 4)%R by (apply pow_lt; exact Hg0).
    apply Rmult_lt_0_compat; [|apply exp_pos].
    assert (1 < IZR d2 / (2 * g ^ 2))%R.
    { apply Rmult_lt_reg_r with (2 * g ^ 2)%R; [lra|]. unfold Rdiv. rewrite Rmult_assoc, Rinv_l by lra. lra. }
    assert (0 < / (PI * g ^ 4))%R by (apply Rinv_0_lt_compat, Rmult_lt_0_compat; lra). nra.
Qed.

(** ** sums of products that are all negative *)
Section Neg.
  Open Scope R_scope.
  Let P := bpow radix2 60.
  Lemma P_pos : 0 < P. Proof. apply bpow_gt_0. Qed.
  Lemma iP_fmt i : (0 <= i <= 16777216)%Z -> generic_format radix2 (SpecFloat.fexp 24 128) (- (IZR i * P)).
  Proof.
    intros Hi. apply generic_format_opp. destruct (Z.eq_dec i 16777216) as [->|Hne].
    - replace (16777216 * P) with (bpow radix2 84); [apply generic_format_bpow; vm_compute; discriminate|].
      unfold P. change 16777216 with (bpow radix2 24). rewrite <- bpow_plus. reflexivity.
    - apply generic_format_FLT. exists (Float radix2 i 60); [reflexivity| |]; cbn [Fnum Fexp]; [change (Z.pow_pos 2 24) with 16777216%Z; cbn; lia|vm_compute; discriminate].
  Qed.
  Lemma iP_big i x : (0 <= i <= 16777216)%Z -> - (IZR i * P) <= x <= 0 -> Rabs x <= bpow radix2 (128 - 1).
  Proof.
    intros Hi Hx. rewrite Rabs_left1 by lra. apply Rle_trans with (IZR i * P); [lra|].
    apply Rle_trans with (bpow radix2 24 * bpow radix2 60); [|rewrite <- bpow_plus; apply bpow_le; lia].
    apply Rmult_le_compat_r; [left; apply P_pos|]. change (bpow radix2 24) with 16777216. apply IZR_le. lia.
  Qed.
  (** the sum is finite and at most every single product *)
  Lemma neg_fold (kvs : list (f32 * f32)) : forall acc a i,
    (forall kv, In kv kvs -> exists q, fin (f32_mul (fst kv) (snd kv)) q /\ - P <= q <= 0) ->
    fin acc a -> (0 <= i)%Z -> (i + Z.of_nat (length kvs) <= 16777216)%Z -> - (IZR i * P) <= a <= 0 ->
    exists r, fin (fold_left (fun acc kv => f32_add acc (f32_mul (fst kv) (snd kv))) kvs acc) r /\ r <= a
      /\ forall kv q, In kv kvs -> fin (f32_mul (fst kv) (snd kv)) q -> r <= q.
  Proof.
    induction kvs as [|kv kvs IH]; intros acc a i H Fa Hi Hl Ha.
    - exists a. split; [exact Fa|]. split; [lra|]. intros kv q [].
    - cbn [fold_left length] in *. destruct (H kv (or_introl eq_refl)) as [q [Fq Hq]]. pose proof P_pos as PP.
      assert (Hs : - (IZR (i + 1) * P) <= a + q <= 0) by (rewrite plus_IZR; lra).
      assert (Fs : fin (f32_add acc (f32_mul (fst kv) (snd kv))) (rnd32 (a + q))).
      { apply add_fin; [exact Fa|exact Fq|]. apply (iP_big (i + 1)); [lia|exact Hs]. }
      assert (fm0 : generic_format radix2 (SpecFloat.fexp 24 128) 0) by apply generic_format_0.
      assert (La : rnd32 (a + q) <= a).
      { apply rnd_le_fmt; [lra|]. destruct Fa as [_ <-]. apply fmt_B2R. }
      assert (Lq : rnd32 (a + q) <= q).
      { apply rnd_le_fmt; [lra|]. destruct Fq as [_ <-]. apply fmt_B2R. }
      assert (Ls : - (IZR (i + 1) * P) <= rnd32 (a + q)).
      { apply rnd_ge_fmt; [lra|]. apply iP_fmt. lia. }
      destruct (IH _ _ (i + 1)%Z (fun kv' Hk => H kv' (or_intror Hk)) Fs) as [r [Fr [Hr Hall]]]; [lia|lia|lra|].
      exists r. split; [exact Fr|]. split; [lra|]. intros kv' q' [<-|Hin] Fq'.
      + assert (q' = q) as -> by (destruct Fq' as [_ <-]; apply Fq). lra.
      + apply (Hall kv' q' Hin Fq').
  Qed.
End Neg.

(** laplacian_of_gaussian of a non-negative image: every sample of the result is negative where the image is not zero, at
    most - v / (4 sigma^4), v the sample itself. (The true Laplacian of Gaussian of a constant image is 0.) *)
Theorem C73_log_negative p b lm (img : image f32) sz sigma g v x y c :
  wf img -> small (info_of img) -> scheduled b (info_of img) ->
  gauss_pow_ok (powf lm) -> fin sigma g -> (/ 256 <= g <= 256)%R ->
  0 <= sz -> Z.odd sz = true -> sz * sz <= 2 ^ 22 -> (IZR (sz / 2)%Z ^ 2 <= 60 * g ^ 2)%R ->
  real_image img v -> (forall x y c, inside img x y -> 0 <= c < channels (info_of img) -> (0 <= v x y c <= 1048576)%R) ->
  inside img x y -> 0 <= c < channels (info_of img) -> (v x y c = 0 \/ / 1099511627776 <= v x y c)%R ->
  exists out r, laplacian_of_gaussian p b lm img sz sigma = Ret out /\ info_of out = info_of img /\ fin (value out x y c) r
    /\ (r <= - (v x y c / (4 * g ^ 4)))%R.
Proof.
  intros Hwf Hsm Hb HP Fg Hg H0 Ho Hmax Hsz HV Hv Hin Hc Hvv.
  assert (Hs0 : 0 < sz) by (destruct (Z.eq_dec sz 0) as [->|]; [discriminate|lia]).
  assert (Hh : sz = 2 * (sz / 2) + 1) by (rewrite (Z.div_mod sz 2) at 1 by lia; rewrite Zmod_odd, Ho; lia).
  assert (Hg0 : (0 < g)%R) by lra.
  assert (Hg4 : (/ 4294967296 <= g ^ 4 <= 4294967296)%R).
  { assert (/ 65536 <= g * g <= 65536)%R by (split; [apply Rle_trans with (/ 256 * / 256)%R; [lra|apply Rmult_le_compat; lra]|
      apply Rle_trans with (256 * 256)%R; [apply Rmult_le_compat; lra|lra]]).
    replace (g ^ 4)%R with ((g * g) * (g * g))%R by ring.
    split; [apply Rle_trans with (/ 65536 * / 65536)%R; [lra|apply Rmult_le_compat; lra]|
      apply Rle_trans with (65536 * 65536)%R; [apply Rmult_le_compat; lra|lra]]. }
  pose proof pi_bounds as PB.
  assert (Hi4 : (/ 13500000000 <= / (PI * g ^ 4) <= 1431655766)%R).
  { assert (1.0 / 1431655766 <= PI * g ^ 4 <= 13500000000)%R.
    { split; [apply Rle_trans with (3.14159265 * / 4294967296)%R; [lra|apply Rmult_le_compat; lra]|
        apply Rle_trans with (3.14159266 * 4294967296)%R; [apply Rmult_le_compat; lra|lra]]. }
    split; [apply Rinv_le_contravar; lra|]. replace 1431655766%R with (/ (1.0 / 1431655766))%R by lra. apply Rinv_le_contravar; lra. }
  destruct (C50_gaussian_blur p b lm (fun _ _ => Panic) img sz sigma Hwf Hsm Hb H0 ltac:(lia)) as [_ HK]. destruct (HK Ho) as [_ (k & out & Hk & E & HC)].
  clear HK. pose proof (fun i j Hi Hj => log_weight lm sz sigma g k i j HP Fg Hg Ho Hk Hi Hj) as Hw.
  exists out. destruct HC as (HI & _ & HC). rewrite (HC x y c Hin Hc). clear HC. unfold correlation, weighted_sum.
  set (kvs := map (fun '(k0, dx, dy) => (k0, value img (padded (width (info_of img)) x dx) (padded (height (info_of img)) y dy) c)) (square sz k)).
  (** the weights *)
  assert (HW : forall i, 0 <= i < sz * sz -> let d2 := (i / sz - sz / 2) ^ 2 + (i mod sz - sz / 2) ^ 2 in
            exists w, fin (weight k i) w /\ (- (131072 * 1048576) <= w <= 0)%R /\ (d2 = 0 -> (w <= - (14999 / 15000 * / (PI * g ^ 4)))%R)).
  { intros i Ri d2.
    assert (Hd : 0 <= i / sz < sz) by (split; [apply Z.div_pos; lia|apply Z.div_lt_upper_bound; lia]).
    assert (Hm : 0 <= i mod sz < sz) by (apply Z.mod_pos_bound; lia).
    specialize (Hw (i / sz) (i mod sz) Hd Hm). cbv zeta in Hw. fold d2 in Hw.
    replace (i / sz * sz + i mod sz) with i in Hw by (rewrite (Z.div_mod i sz) at 1 by lia; lia).
    assert (Hdh : 0 <= d2 <= 2 * (sz / 2) ^ 2) by (unfold d2; nia).
    assert (Hz : (IZR d2 / (2 * g ^ 2) <= 60)%R).
    { assert (0 < g ^ 2)%R by (apply pow_lt; exact Hg0).
      assert (IZR d2 <= 2 * IZR (sz / 2)%Z ^ 2)%R by (rewrite pow_IZR; change (Z.of_nat 2) with 2; rewrite <- mult_IZR; apply IZR_le; lia).
      apply Rmult_le_reg_r with (2 * g ^ 2)%R; [lra|]. unfold Rdiv. rewrite Rmult_assoc, Rinv_l by lra. lra. }
    destruct (Hw ltac:(nia) Hz) as [w [Fw Bw]]. exists w. split; [exact Fw|].
    rewrite (log_eq g _ Hg0) in Bw. replace (2 * g * g)%R with (2 * g ^ 2)%R in Bw by ring.
    pose proof (log_pos g (IZR d2) Hg0 (IZR_le 0 d2 ltac:(lia))) as Q. replace (2 * g * g)%R with (2 * g ^ 2)%R in Q by ring.
    set (z := (IZR d2 / (2 * g ^ 2))%R) in *. replace (1 / (PI * g ^ 4))%R with (/ (PI * g ^ 4))%R in Bw, Q by (unfold Rdiv; ring).
    assert (Hz0 : (0 <= z)%R).
    { unfold z. apply Rmult_le_pos; [apply IZR_le; lia|]. left. apply Rinv_0_lt_compat. assert (0 < g ^ 2)%R by (apply pow_lt; exact Hg0). lra. }
    assert (Hex : (0 < exp (- z) <= 1)%R).
    { split; [apply exp_pos|]. rewrite <- exp_0. destruct (Req_dec z 0) as [->|]; [right; f_equal; lra|left; apply exp_increasing; lra]. }
    set (u := (/ (PI * g ^ 4))%R) in *. set (q := (u * (1 + z) * exp (- z))%R) in *.
    assert (Hq : (q <= 1431655766 * 61)%R).
    { unfold q. apply Rle_trans with (u * (1 + z) * 1)%R; [apply Rmult_le_compat_l; [apply Rmult_le_pos; lra|lra]|].
      rewrite Rmult_1_r. apply Rmult_le_compat; lra. }
    rewrite Rabs_Ropp, (Rabs_pos_eq q) in Bw by lra. apply Rabs_bd in Bw.
    split; [lra|]. intros Ed. assert (Ez : z = 0%R) by (unfold z; rewrite Ed; lra).
    assert (Eq : q = u) by (unfold q; rewrite Ez, Ropp_0, exp_0; ring). lra. }
  assert (Hin' : forall dx dy, inside img (padded (width (info_of img)) x dx) (padded (height (info_of img)) y dy)).
  { intros dx dy. destruct Hin as [? ?]. unfold padded. split.
    - destruct (Z.leb_spec 0 (x + dx)), (Z.ltb_spec (x + dx) (width (info_of img))); cbn [andb]; lia.
    - destruct (Z.leb_spec 0 (y + dy)), (Z.ltb_spec (y + dy) (height (info_of img))); cbn [andb]; lia. }
  assert (Hprod : forall kv, In kv kvs -> exists q, fin (f32_mul (fst kv) (snd kv)) q /\ (- bpow radix2 60 <= q <= 0)%R).
  { intros kv Hkv. unfold kvs in Hkv. apply in_map_iff in Hkv as [t [<- Ht]]. unfold square in Ht.
    apply in_map_iff in Ht as [i [<- Hi]]. apply in_zrange in Hi. destruct (HW i ltac:(lia)) as [w [Fw [Bw _]]]. cbn [fst snd].
    set (dx := i mod sz - sz / 2). set (dy := i / sz - sz / 2).
    pose proof (HV _ _ c (Hin' dx dy) Hc) as Fv. pose proof (Hv _ _ c (Hin' dx dy) Hc) as Bv.
    set (vv := v (padded (width (info_of img)) x dx) (padded (height (info_of img)) y dy) c) in *. assert (Bp : (- bpow radix2 60 <= w * vv <= 0)%R).
    { change (bpow radix2 60) with 1152921504606846976%R. clear - Bw Bv.
      assert (0 <= - w * vv)%R by (apply Rmult_le_pos; lra).
      assert (- w * vv <= 131072 * 1048576 * 1048576)%R by (apply Rmult_le_compat; lra). lra. }
    exists (rnd32 (w * vv)). split.
    - apply mul_fin; [exact Fw|exact Fv|]. rewrite Rabs_left1 by lra. apply Rle_trans with (bpow radix2 60); [lra|apply bpow_le; lia].
    - split; [apply rnd_ge_fmt; [lra|]|apply rnd_le_fmt; [lra|apply generic_format_0]].
      apply generic_format_opp, generic_format_bpow. vm_compute. discriminate. }
  assert (Hlen : (Z.of_nat (length kvs) <= 16777216)%Z).
  { unfold kvs, square. rewrite !map_length, zrange_length. lia. }
  destruct (neg_fold kvs f32_0 0 0 Hprod (of_Z_isZ 0 ltac:(lia)) ltac:(lia) ltac:(lia) ltac:(lra)) as [r [Fr [Hr0 Hall]]].
  exists r. split; [exact E|]. split; [exact HI|]. split; [exact Fr|].
  destruct Hvv as [Hvv|Hvv]; [rewrite Hvv; lra|].
  (** the centre tap *)
  set (i := sz / 2 * sz + sz / 2).
  assert (Ri : 0 <= i < sz * sz) by (unfold i; nia).
  assert (Ed : i / sz = sz / 2) by (unfold i; rewrite Z.div_add_l by lia; rewrite (Z.div_small (sz / 2) sz) by lia; lia).
  assert (Em : i mod sz = sz / 2) by (unfold i; rewrite Z.add_comm, Z.mod_add by lia; apply Z.mod_small; lia).
  destruct (HW i Ri) as [w [Fw [Bw Cw]]]. rewrite Ed, Em in Cw. specialize (Cw ltac:(lia)).
  pose proof (HV x y c Hin Hc) as Fv. pose proof (Hv x y c Hin Hc) as Bv.
  assert (Hp : fin (f32_mul (weight k i) (value img x y c)) (rnd32 (w * v x y c))).
  { apply mul_fin; [exact Fw|exact Fv|]. assert (0 <= - w * v x y c)%R by (apply Rmult_le_pos; lra).
    assert (- w * v x y c <= 131072 * 1048576 * 1048576)%R by (apply Rmult_le_compat; lra).
    rewrite Rabs_left1 by lra. apply Rle_trans with (bpow radix2 60); [|apply bpow_le; lia].
    change (bpow radix2 60) with 1152921504606846976%R. lra. }
  assert (Hr : (r <= rnd32 (w * v x y c))%R).
  { apply (Hall (weight k i, value img x y c)); [|exact Hp]. unfold kvs. apply in_map_iff.
    exists (weight k i, 0, 0). split.
    - f_equal. destruct Hin. unfold padded. rewrite !Z.add_0_r.
      destruct (Z.leb_spec 0 x), (Z.ltb_spec x (width (info_of img))); try lia; destruct (Z.leb_spec 0 y), (Z.ltb_spec y (height (info_of img))); try lia; reflexivity.
    - unfold square. apply in_map_iff. exists i. split; [|apply in_zrange; lia]. rewrite Ed, Em, !Z.sub_diag. reflexivity. }
  set (vv := v x y c) in *.
  assert (Hwv : (w * vv <= - (14999 / 15000 * / (PI * g ^ 4) * vv))%R) by nra.
  assert (Hbig : (14999 / 15000 * / 13500000000 * / 1099511627776 <= - (w * vv))%R).
  { apply Rle_trans with (14999 / 15000 * / (PI * g ^ 4) * vv)%R; [|lra]. apply Rmult_le_compat; try lra; nra. }
  pose proof (rel_err (w * vv)) as RE. rewrite (Rabs_left1 (w * vv)) in RE by lra.
  assert (Hra : (bpow radix2 (-126) <= - (w * vv))%R).
  { apply Rle_trans with (bpow radix2 (-80)); [apply bpow_le; lia|]. apply Rle_trans with (/ 1208925819614629174706176)%R; [cbn; lra|]. lra. }
  specialize (RE Hra). change (bpow radix2 (-24)) with (/ 16777216)%R in RE. apply Rabs_bd in RE.
  apply Rle_trans with (- (14999 / 15000 * / (PI * g ^ 4) * vv) * (16777215 / 16777216))%R; [lra|].
  assert (Hfin : (/ (4 * g ^ 4) <= 14999 / 15000 * (16777215 / 16777216) * / (PI * g ^ 4))%R).
  { rewrite !Rinv_mult. assert (0 < / g ^ 4)%R by (apply Rinv_0_lt_compat; lra).
    assert (/ 4 <= 14999 / 15000 * (16777215 / 16777216) * / PI)%R.
    { apply Rmult_le_reg_r with PI; [lra|]. rewrite Rmult_assoc, Rinv_l by lra. lra. }
    rewrite <- Rmult_assoc. apply Rmult_le_compat_r; lra. }
  unfold Rdiv at 3. apply Ropp_le_cancel. rewrite Ropp_involutive.
  apply Rle_trans with (vv * (14999 / 15000 * (16777215 / 16777216) * / (PI * g ^ 4)))%R; [|lra].
  unfold Rdiv at 1. apply Rmult_le_compat_l; lra.
Qed.

(** ** the distance matrix used by the bilateral filter: 0 in the centre, the Gaussian everywhere else *)
Theorem C73_spatial_mat p lm n sigma g :
  gauss_pow_ok (powf lm) -> fin sigma g -> (/ 256 <= g <= 256)%R -> 0 <= n -> n * n <= 4294967295 -> Z.odd n = true ->
  exists m, generate_spatial_mat p lm n sigma = Ret m /\ len m = n * n
    /\ forall i j, 0 <= i < n -> 0 <= j < n ->
       let d2 := (i - n / 2) ^ 2 + (j - n / 2) ^ 2 in
       (d2 = 0 -> weight m (i * n + j) = f32_0)
       /\ (0 < d2 <= 2 ^ 24 -> (IZR d2 / (2 * g ^ 2) <= 60)%R -> close (weight m (i * n + j)) (gauss g (IZR d2))).
Proof.
  intros HP Fg Hg Hn Hnn Ho.
  assert (Hs : f32_ltb sigma f32_0 = false).
  { unfold f32_ltb. change f32_0 with (f32_of_Z 0). rewrite (ltb_fin sigma (f32_of_Z 0) g 0 Fg (of_Z_isZ 0 ltac:(lia))). apply Rlt_bool_false. lra. }
  destruct (C31_spatial_mat p lm n sigma Hn Hnn Ho Hs) as [m [E [Hl Hm]]].
  exists m. split; [exact E|]. split; [exact Hl|]. intros i j Hi Hj d2.
  unfold weight. rewrite (nth_error_nth _ _ _ (Hm i j Hi Hj)). unfold spatial_entry. split.
  - intros Hd. assert (i = n / 2 /\ j = n / 2) as [-> ->] by (unfold d2 in Hd; nia). rewrite !Z.eqb_refl. reflexivity.
  - intros Hd Hz. destruct ((i =? n / 2) && (j =? n / 2)) eqn:Eb.
    + apply andb_true_iff in Eb as [E1 E2]. apply Z.eqb_eq in E1, E2. exfalso. unfold d2 in Hd. rewrite E1, E2 in Hd. nia.
    + assert (Hg0 : (0 < g)%R) by lra. rewrite (gauss_eq g _ Hg0).
      eapply close_frel; [rewrite <- (gauss_eq g _ Hg0); apply gauss_pos; exact Hg0| |].
      * unfold gaussian_of.
        assert (Ed : (j - n / 2) * (j - n / 2) + (i - n / 2) * (i - n / 2) = d2) by (unfold d2; ring).
        pose proof (C31_distance (j - n / 2) (i - n / 2) ltac:(lia)) as FD. rewrite Ed in FD.
        assert (D1 : (1 <= IZR d2 <= 16777216)%R) by (split; apply IZR_le; lia).
        assert (S1 : (1 <= sqrt (IZR d2) <= 4096)%R).
        { split; [rewrite <- sqrt_1; apply sqrt_le_1_alt; lra|]. replace 4096%R with (sqrt 16777216).
          - apply sqrt_le_1_alt; lra.
          - replace 16777216%R with (4096 * 4096)%R by lra. apply sqrt_square. lra. }
        pose proof tiny_small as TS. pose proof huge_big as HB.
        assert (FR : frel (dist_value (j - n / 2) (i - n / 2)) (sqrt (IZR d2)) (2.1 * uu)).
        { apply (frel_round_w _ (sqrt (IZR d2)) _ 0); [exact FD| |lra|lra|lra].
          unfold rel. rewrite Rminus_diag_eq, Rabs_R0 by reflexivity. lra. }
        assert (SS : (sqrt (IZR d2) * sqrt (IZR d2) = IZR d2)%R) by (apply sqrt_sqrt; lra).
        apply (gaussian_of_frel (powf lm) HP sigma g Fg Hg (f32_mul _ _) (IZR d2)).
        -- rewrite <- SS at 1. apply (frel_mul_w _ _ _ _ (2.1 * uu) (2.1 * uu)); try assumption; try lra; try (rewrite SS; lra); unfold uu; lra.
        -- right. lra.
        -- replace (2 * g * g)%R with (2 * g ^ 2)%R by ring. exact Hz.
      * unfold uu. lra.
Qed.

(** ** witness: a power function as required exists; the hypotheses hold for sigma = 3/2, size 5 *)
Lemma Rpower_range_gauss r s : (2 <= r <= 3 /\ -64 <= s <= 0)%R \/ (/ 256 <= r <= 256 /\ s = 4)%R ->
  (bpow radix2 (-128 + 2) <= Rpower r s <= bpow radix2 33)%R.
Proof.
  intros [[Hr Hs]|[Hr ->]].
  - assert (L3 : (0 < ln r <= 1.2)%R).
    { split; [rewrite <- ln_1; apply ln_increasing; lra|]. apply Rnot_lt_le. intros C. apply exp_increasing in C. rewrite exp_ln in C by lra.
      pose proof e_bounds. assert (exp 1.2 = exp 1 * exp 0.2)%R by (rewrite <- exp_plus; f_equal; lra).
      pose proof (exp_ineq1 0.2 ltac:(lra)). nra. }
    unfold Rpower. split.
    + apply Rle_trans with (exp (- (1.2 * 64))); [|].
      * assert (E : exp (1.2 * 64) = (exp 1.2 ^ 64)%R).
        { rewrite <- Rpower_pow by apply exp_pos. unfold Rpower. rewrite ln_exp. f_equal. rewrite INR_IZR_INZ. change (Z.of_nat 64) with 64. lra. }
        rewrite exp_Ropp, E. change (-128 + 2) with (- (126)). rewrite bpow_opp. apply Rinv_le_contravar; [apply pow_lt, exp_pos|].
        assert (H5 : (exp 1.2 <= 3.5)%R).
        { assert (exp 1.2 ^ 5 = exp 1 ^ 6)%R.
          { rewrite <- !Rpower_pow by apply exp_pos. unfold Rpower. rewrite !ln_exp. f_equal. rewrite !INR_IZR_INZ. change (Z.of_nat 5) with 5. change (Z.of_nat 6) with 6. lra. }
          pose proof e_bounds as EB. apply Rnot_lt_le. intros C.
          assert (3.5 ^ 5 <= exp 1.2 ^ 5)%R by (apply pow_incr; lra).
          assert (exp 1 ^ 6 <= 2.71828184 ^ 6)%R by (apply pow_incr; lra). lra. }
        apply Rle_trans with (3.5 ^ 64)%R; [apply pow_incr; pose proof (exp_pos 1.2); lra|].
        change (bpow radix2 126) with 85070591730234615865843651857942052864%R. lra.
      * assert (- (1.2 * 64) <= s * ln r)%R by nra. destruct (Rle_lt_or_eq_dec _ _ H) as [L|Eq]; [left; apply exp_increasing; exact L|rewrite Eq; lra].
    + apply Rle_trans with 1%R; [|change (bpow radix2 33) with 8589934592%R; lra]. rewrite <- exp_0.
      assert (s * ln r <= 0)%R by nra. destruct (Rle_lt_or_eq_dec _ _ H) as [L|E]; [left; apply exp_increasing; exact L|rewrite E; lra].
  - replace 4%R with (INR 4) by (rewrite INR_IZR_INZ; reflexivity). rewrite Rpower_pow by lra. split.
    + apply Rle_trans with (bpow radix2 (-32)); [apply bpow_le; lia|]. apply Rle_trans with ((/ 256) ^ 4)%R; [cbn; lra|]. apply pow_incr; lra.
    + apply Rle_trans with (256 ^ 4)%R; [apply pow_incr; lra|]. change (bpow radix2 33) with 8589934592%R. lra.
Qed.
Theorem C73_example :
  let lm := Libm ideal_pow (fun x => x) (fun x => x) in
  let sigma := f32_div (f32_of_Z 3) (f32_of_Z 2) in
  gauss_pow_ok (powf lm) /\ fin sigma 1.5%R
  /\ exists m, generate_gaussian_kernel Debug lm 5 sigma = Ret m
      /\ close (weight m 0) (gauss 1.5 8) /\ close (weight m 12) (gauss 1.5 0) /\ close (weight m 13) (gauss 1.5 1).
Proof.
  intros lm sigma.
  assert (HP : gauss_pow_ok (powf lm)).
  { intros x y r s [_ <-] [_ <-] H. pose proof (Rpower_range_gauss _ _ H) as B.
    pose proof (bpow_gt_0 radix2 (-128 + 2)) as B0. exists (rnd32 (Rpower (B2R x) (B2R y))). split.
    - apply round_to_fin. rewrite Rabs_pos_eq by lra. apply Rle_trans with (bpow radix2 33); [lra|apply bpow_le; lia].
    - eapply Rle_trans; [apply rel_err; rewrite Rabs_pos_eq by lra; apply B|]. rewrite Rabs_pos_eq by lra.
      change (bpow radix2 (-24)) with (/ 16777216)%R. lra. }
  assert (Fs : fin sigma 1.5%R).
  { unfold sigma. replace 1.5%R with (rnd32 (3 / 2)).
    - apply div_fin; [apply of_Z_isZ; lia|apply of_Z_isZ; lia|lra|]. rewrite Rabs_pos_eq by lra. apply Rle_trans with (bpow radix2 1); [cbn; lra|apply bpow_le; lia].
    - replace (3 / 2)%R with 1.5%R by lra. apply rnd_fmt. apply generic_format_FLT. exists (Float radix2 3 (-1)); [unfold F2R; cbn; lra| |]; vm_compute; [reflexivity|discriminate]. }
  split; [exact HP|]. split; [exact Fs|].
  destruct (C73_gaussian_kernel Debug lm 5 sigma 1.5 HP Fs ltac:(lra) ltac:(lia) ltac:(lia) eq_refl) as [m [E [_ H]]].
  exists m. split; [exact E|].
  pose proof (H 0 0 ltac:(lia) ltac:(lia)) as A. pose proof (H 2 2 ltac:(lia) ltac:(lia)) as B. pose proof (H 2 3 ltac:(lia) ltac:(lia)) as C.
  cbv zeta in *. change ((0 - 5 / 2) ^ 2 + (0 - 5 / 2) ^ 2) with 8 in A. change ((2 - 5 / 2) ^ 2 + (2 - 5 / 2) ^ 2) with 0 in B. change ((2 - 5 / 2) ^ 2 + (3 - 5 / 2) ^ 2) with 1 in C.
  split; [apply A; [lia|lra]|]. split; [apply B; [lia|lra]|apply C; [lia|lra]].
Qed.
Theorem C73_log_example p :
  let lm := Libm ideal_pow (fun x => x) (fun x => x) in
  let sigma := f32_div (f32_of_Z 3) (f32_of_Z 2) in
  exists out r, laplacian_of_gaussian p Seq lm ex_avg 5 sigma = Ret out /\ fin (value out 1 1 0) r /\ (r <= - (40 / 20.25))%R.
Proof.
  intros lm sigma. destruct C73_example as [HP [Fs _]]. destruct ex_avg_real as [Hwf HV].
  destruct (C73_log_negative p Seq lm ex_avg 5 sigma 1.5 (fun x y _ => IZR (nth (Z.to_nat (y * 3 + x)) [0; 10; 20; 30; 40; 50; 60; 70; 255] 0)) 1 1 0 Hwf)
    as (out & r & E & _ & F & H); try (split; cbn; lia); try lia; try exact HV; try exact HP; try exact Fs; try reflexivity; try exact I.
  - lra.
  - change (5 / 2)%Z with 2. lra.
  - intros x y c [Hx Hy] Hc. cbn [ex_avg info_of width height channels] in *.
    assert (x = 0 \/ x = 1 \/ x = 2) as [->|[->| ->]] by lia; assert (y = 0 \/ y = 1 \/ y = 2) as [->|[->| ->]] by lia;
      split; apply IZR_le; vm_compute; discriminate.
  - right. change (nth (Z.to_nat (1 * 3 + 1)) [0; 10; 20; 30; 40; 50; 60; 70; 255] 0) with 40. lra.
  - exists out, r. split; [exact E|]. split; [exact F|].
    change (nth (Z.to_nat (1 * 3 + 1)) [0; 10; 20; 30; 40; 50; 60; 70; 255] 0) with 40 in H. lra.
Qed.
