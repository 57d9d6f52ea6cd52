(** * Correctly rounded powers: existence, and the round trip of one byte *)
From Coq Require Import Lra.
From Verif.Model Require Import Base Float.
From Verif.Spec Require Import FloatS PowS ConvS.
From Verif.Proofs Require Import BaseL FloatL FloatL2 ApproxL PowL SrgbL.
From Flocq Require Import Core BinarySingleNaN.
Open Scope R_scope.

(** ** a correctly rounded power function exists *)
Notation fexp32 := (SpecFloat.fexp 24 128).
Definition round_to_f32 (x : R) : f32 :=
  binary_normalize 24 128 eq_refl eq_refl mode_NE (ZnearestE (scaled_mantissa radix2 fexp32 x)) (cexp radix2 fexp32 x) false.
Lemma round_to_fin x : Rabs x <= bpow radix2 100 -> fin (round_to_f32 x) (rnd32 x).
Proof.
  intros H.
  assert (E : F2R (Float radix2 (ZnearestE (scaled_mantissa radix2 fexp32 x)) (cexp radix2 fexp32 x)) = rnd32 x) by reflexivity.
  assert (B : Rabs (rnd32 x) <= bpow radix2 100).
  { apply abs_round_le_generic; [apply (fexp_correct 24 128 eq_refl)|apply valid_rnd_N| |exact H].
    apply generic_format_bpow. cbv. discriminate. }
  assert (RR : rnd32 (rnd32 x) = rnd32 x).
  { apply round_generic; [apply valid_rnd_N|]. apply generic_format_round; [apply (fexp_correct 24 128 eq_refl)|apply valid_rnd_N]. }
  rewrite <- RR. change (rnd32 (rnd32 x)) with (@rnd 24 128 (F2R (Float radix2 (ZnearestE (scaled_mantissa radix2 fexp32 x)) (cexp radix2 fexp32 x)))).
  apply norm_fin. rewrite E. eapply Rle_trans; [exact B|apply bpow_le; lia].
Qed.
Definition ideal_pow (x y : f32) : f32 := round_to_f32 (Rpower (B2R x) (B2R y)).
Lemma power_range r s : / 1024 <= r <= 2 -> 0 < s <= 3 -> / 1073741824 <= Rpower r s <= 8.
Proof.
  intros Hr Hs. split.
  - destruct (Rle_lt_dec r 1) as [L|G].
    + apply Rle_trans with (Rpower (/ 1024) 3); [|].
      * rewrite Rpower_3 by lra. cbn. lra.
      * apply Rle_trans with (Rpower r 3); [apply Rle_Rpower_l; lra|apply Rpower_antitone; lra].
    + pose proof (Rpower_ge_1 r s ltac:(lra) ltac:(lra)). lra.
  - destruct (Rle_lt_dec r 1) as [L|G].
    + pose proof (Rpower_le_1 r s ltac:(lra) ltac:(lra)). lra.
    + apply Rle_trans with (Rpower r 3); [apply Rle_Rpower; lra|]. apply Rle_trans with (Rpower 2 3); [apply Rle_Rpower_l; lra|].
      rewrite Rpower_3 by lra. cbn. lra.
Qed.
Lemma ideal_correct : correctly_rounded ideal_pow.
Proof.
  intros x y r s [_ <-] [_ <-] Hr Hs. pose proof (power_range _ _ Hr Hs) as Hp. apply round_to_fin. rewrite Rabs_pos_eq by lra.
  apply Rle_trans with (bpow radix2 3); [cbn; lra|apply bpow_le; lia].
Qed.
Lemma correct_ok pow : correctly_rounded pow -> pow_ok pow.
Proof.
  intros H x y r s Fx Fy Hr Hs. exists (rnd32 (Rpower r s)). split; [apply H; assumption|].
  pose proof (power_range r s Hr Hs) as Hp.
  eapply Rle_trans; [apply rel_err|].
  - rewrite Rabs_pos_eq by lra. apply Rle_trans with (bpow radix2 (-30)); [apply bpow_le; lia|]. cbn. lra.
  - rewrite Rabs_pos_eq by lra. cbn. lra.
Qed.

(** ** byte 124 comes back as 123 *)
(** rounding to a known neighbour *)
Lemma rnd32_to m e x : (8388608 <= m < 16777216)%Z -> (-149 <= e)%Z ->
  (IZR m - / 2) * bpow radix2 e < x < (IZR m + / 2) * bpow radix2 e -> 
  (8388608 <= m - 1)%Z -> rnd32 x = IZR m * bpow radix2 e.
Proof.
  intros Hm He Hx Hm'. unfold rnd32, rnd, round. pose proof (bpow_gt_0 radix2 e) as P.
  assert (Mr : 8388609 <= IZR m <= 16777215) by (split; [apply (IZR_le 8388609)|apply (IZR_le m 16777215)]; lia).
  assert (Mag : mag radix2 x = (e + 24)%Z :> Z).
  { apply mag_unique. replace (e + 24 - 1)%Z with (23 + e)%Z by ring. replace (e + 24)%Z with (24 + e)%Z by ring.
    rewrite !bpow_plus. replace (bpow radix2 23) with 8388608 by (cbn; lra). replace (bpow radix2 24) with 16777216 by (cbn; lra).
    assert (8388608 * bpow radix2 e <= (IZR m - / 2) * bpow radix2 e) by (apply Rmult_le_compat_r; lra).
    assert ((IZR m + / 2) * bpow radix2 e <= 16777216 * bpow radix2 e) by (apply Rmult_le_compat_r; lra).
    rewrite Rabs_pos_eq by lra. lra. }
  assert (C : cexp radix2 fexp32 x = e).
  { unfold cexp. rewrite Mag. unfold SpecFloat.fexp, SpecFloat.emin. lia. }
  rewrite C. unfold scaled_mantissa. rewrite C. unfold F2R. cbn [Fnum Fexp]. f_equal. f_equal.
  assert (S : IZR m - / 2 < x * bpow radix2 (- e) < IZR m + / 2).
  { rewrite bpow_opp. split.
    - apply Rmult_lt_reg_r with (bpow radix2 e); [exact P|]. rewrite Rmult_assoc, Rinv_l, Rmult_1_r by lra. lra.
    - apply Rmult_lt_reg_r with (bpow radix2 e); [exact P|]. rewrite Rmult_assoc, Rinv_l, Rmult_1_r by lra. lra. }
  apply Znearest_imp. apply Rabs_def1; lra.
Qed.

Lemma ln_mono a b : 0 < a -> a <= b -> ln a <= ln b.
Proof. intros Ha [H| ->]; [left; apply ln_increasing; assumption|lra]. Qed.
Lemma exp_ge_16 x : -16 < x -> (1 + x / 16) ^ 16 <= exp x.
Proof.
  intros H. replace (exp x) with (exp (x / 16) ^ 16).
  - apply pow_incr. split; [lra|]. pose proof (exp_ineq1_le (x / 16)). lra.
  - rewrite <- (Rpower_pow 16) by apply exp_pos. unfold Rpower. rewrite ln_exp. f_equal. cbn. lra.
Qed.
(** a root times a power with a tiny exponent *)
Lemma power_split x (m n : nat) d u1 u2 y Y : 0 < x -> u1 <= d * ln x <= u2 -> 0 < y -> 0 < Y -> (0 < n)%nat ->
  y ^ n <= x ^ m -> x ^ m <= Y ^ n -> -1 < u1 -> u2 < 1 ->
  y * (1 + u1) <= Rpower x (INR m / INR n + d) <= Y * / (1 - u2).
Proof.
  intros Hx Hu Hy HY Hn H1 H2 Hu1 Hu2. rewrite Rpower_plus.
  pose proof (Rpower_ge_root x y m n Hx Hy Hn H1) as A. pose proof (Rpower_le_root x Y m n Hx HY Hn H2) as B.
  assert (E1 : 1 + u1 <= Rpower x d). { unfold Rpower. pose proof (exp_ineq1_le (d * ln x)). lra. }
  assert (E2 : Rpower x d <= / (1 - u2)).
  { unfold Rpower. replace (d * ln x) with (- - (d * ln x)) by ring. rewrite exp_Ropp. apply Rinv_le_contravar; [lra|].
    pose proof (exp_ineq1_le (- (d * ln x))). lra. }
  pose proof (Rpower_pos x d). split.
  - apply Rmult_le_compat; lra.
  - apply Rmult_le_compat; try lra.
Qed.
Lemma ln_between x l L : exp l <= x <= exp L -> l <= ln x <= L.
Proof.
  intros H. pose proof (exp_pos l). split; [rewrite <- (ln_exp l)|rewrite <- (ln_exp L)]; apply ln_mono; lra.
Qed.
Lemma exp_le_inv16 x : x < 16 -> exp x <= / (1 - x / 16) ^ 16.
Proof.
  intros H. replace x with (- - x) at 1 by ring. rewrite exp_Ropp. apply Rinv_le_contravar; [apply pow_lt; lra|].
  replace (1 - x / 16) with (1 + - x / 16) by lra. apply exp_ge_16. lra.
Qed.

(** dyadic constants *)
Definition b124 : f32 := f32_div (f32_add (f32_of_Z 124) (f32_dec 14025 3)) (f32_dec 269025 3).
Definition dyad (m e : Z) : f32 := binary_normalize 24 128 eq_refl eq_refl mode_NE m e false.
Ltac const_val := match goal with
  | |- fin ?X ?x =>
    let v := eval vm_compute in (B2SF X) in
    match v with SpecFloat.S754_finite ?s ?m (Zneg ?p) =>
      let H := fresh in
      assert (H : B2SF X = SpecFloat.S754_finite s m (Zneg p)) by (vm_compute; reflexivity);
      replace x with (IZR (cond_Zopp s (Zpos m)) / IZR (2 ^ Zpos p)); [exact (const_fin X s m p H)|cbn; lra]
    end end.
Lemma b124_val : fin b124 (4303829 / 8388608). Proof. const_val. Qed.
Lemma gamma_val : fin (f32_dec 22 1) (9227469 / 4194304). Proof. const_val. Qed.
Lemma inv_gamma_val : fin (f32_div (f32_of_Z 1) (f32_dec 22 1)) (7626007 / 16777216). Proof. const_val. Qed.
Lemma x124_val : fin (dyad 15457637 (-26)) (15457637 / 67108864). Proof. const_val. Qed.
Lemma y124_val : fin (dyad 8607658 (-24)) (8607658 / 16777216). Proof. const_val. Qed.

Lemma fin_same (X Y : f32) r : fin X r -> fin Y r -> r <> 0 -> X = Y.
Proof.
  intros [FX EX] [FY EY] Hr. apply (B2R_inj 24 128); [| |congruence].
  - destruct X; try discriminate; [|reflexivity]. cbn in EX. lra.
  - destruct Y; try discriminate; [|reflexivity]. cbn in EY. lra.
Qed.

Lemma power1 : rnd32 (Rpower (4303829 / 8388608) (9227469 / 4194304)) = 15457637 / 67108864.
Proof.
  assert (L : -0.7 <= ln (4303829 / 8388608) <= -0.6).
  { apply ln_between. split.
    - eapply Rle_trans; [apply exp_le_inv16; lra|]. cbn. lra.
    - eapply Rle_trans; [|apply exp_ge_16; lra]. cbn. lra. }
  set (d := 9227469 / 4194304 - 11 / 5). assert (Ed : d = 1 / 20971520) by (unfold d; lra).
  replace (9227469 / 4194304) with (INR 11 / INR 5 + d) by (unfold d; cbn; lra).
  destruct (power_split (4303829 / 8388608) 11 5 d (d * -0.7) (d * -0.6) (253257935713 / 1099511627776) (253257935714 / 1099511627776)) as [A B];
    try lra; try lia; [split; apply Rmult_le_compat_l; lra|].
  assert (I : / (1 - d * -0.6) <= 1 - 0.000000028).
  { rewrite Ed. apply Rmult_le_reg_r with (1 - 1 / 20971520 * -0.6); [lra|]. rewrite Rinv_l; lra. }
  rewrite (rnd32_to 15457637 (-26)); [cbn; lra|lia|lia| |lia].
  replace (bpow radix2 (-26)) with (/ 67108864) by (cbn; lra). split.
  - eapply Rlt_le_trans; [|exact A]. rewrite Ed. lra.
  - eapply Rle_lt_trans; [exact B|]. eapply Rle_lt_trans; [apply Rmult_le_compat_l; [lra|exact I]|]. lra.
Qed.
Lemma power2 : rnd32 (Rpower (15457637 / 67108864) (7626007 / 16777216)) = 8607658 / 16777216.
Proof.
  assert (L : -2 <= ln (15457637 / 67108864) <= -1).
  { apply ln_between. split.
    - eapply Rle_trans; [apply exp_le_inv16; lra|]. cbn. lra.
    - eapply Rle_trans; [|apply exp_ge_16; lra]. cbn. lra. }
  set (d := 7626007 / 16777216 - 5 / 11). assert (Ed : -0.0000000163 <= d <= -0.0000000162) by (unfold d; lra).
  replace (7626007 / 16777216) with (INR 5 / INR 11 + d) by (unfold d; cbn; lra).
  assert (U : 0.0000000162 <= d * ln (15457637 / 67108864) <= 0.0000000326).
  { replace (d * ln (15457637 / 67108864)) with (- d * - ln (15457637 / 67108864)) by ring. split.
    - apply Rle_trans with (- d * 1); [lra|apply Rmult_le_compat_l; lra].
    - apply Rle_trans with (- d * 2); [apply Rmult_le_compat_l; lra|lra]. }
  destruct (power_split (15457637 / 67108864) 5 11 d _ _ (564111463443 / 1099511627776) (564111463444 / 1099511627776) ltac:(lra) U) as [A B];
    try lra; try lia.
  assert (I : / (1 - 0.0000000326) <= 1 + 0.00000004).
  { apply Rmult_le_reg_r with (1 - 0.0000000326); [lra|]. rewrite Rinv_l; lra. }
  rewrite (rnd32_to 8607658 (-24)); [cbn; lra|lia|lia| |lia].
  replace (bpow radix2 (-24)) with (/ 16777216) by (cbn; lra). split.
  - eapply Rlt_le_trans; [|exact A]. lra.
  - eapply Rle_lt_trans; [exact B|]. eapply Rle_lt_trans; [apply Rmult_le_compat_l; [lra|exact I]|]. lra.
Qed.

Lemma trip124 pow : correctly_rounded pow -> srgb_encode pow (srgb_decode pow 124) = 123%Z.
Proof.
  intros HP. unfold srgb_decode. replace (124 <=? 10)%Z with false by reflexivity.
  change (f32_div (f32_add (f32_of_Z 124) (f32_dec 14025 3)) (f32_dec 269025 3)) with b124.
  assert (P1 : pow b124 (f32_dec 22 1) = dyad 15457637 (-26)).
  { apply (fin_same _ _ (15457637 / 67108864)); [|exact x124_val|lra]. rewrite <- power1. apply HP; [exact b124_val|exact gamma_val|lra|lra]. }
  rewrite P1. unfold srgb_encode.
  assert (P2 : pow (dyad 15457637 (-26)) (f32_div (f32_of_Z 1) (f32_dec 22 1)) = dyad 8607658 (-24)).
  { apply (fin_same _ _ (8607658 / 16777216)); [|exact y124_val|lra]. rewrite <- power2. apply HP; [exact x124_val|exact inv_gamma_val|lra|lra]. }
  rewrite P2.
  assert (G : f32_leb (dyad 15457637 (-26)) (f32_dec 31308 7) = false) by (vm_compute; reflexivity). rewrite G. vm_compute. reflexivity.
Qed.

(** bytes up to 10 do not use powers and come back unchanged *)
Lemma dark_exact pow v : (0 <= v <= 10)%Z -> srgb_encode pow (srgb_decode pow v) = v.
Proof.
  intros H.
  assert (T : forallb (fun v => (srgb_encode pow (srgb_decode pow v) =? v)%Z) (zrange 0 11) = true) by (vm_compute; reflexivity).
  rewrite forallb_forall in T. apply Z.eqb_eq, T, in_zrange. lia.
Qed.
(** if powers of one are exact, white comes back *)
Lemma white_exact pow : (forall y, pow f32_1 y = f32_1) -> srgb_encode pow (srgb_decode pow 255) = 255%Z.
Proof.
  intros H. unfold srgb_decode. replace (255 <=? 10)%Z with false by reflexivity.
  assert (E : f32_div (f32_add (f32_of_Z 255) (f32_dec 14025 3)) (f32_dec 269025 3) = f32_1).
  { apply (B2SF_inj 24 128). vm_compute. reflexivity. }
  rewrite E, H. unfold srgb_encode. rewrite H.
  assert (G : f32_leb f32_1 (f32_dec 31308 7) = false) by (vm_compute; reflexivity). rewrite G. vm_compute. reflexivity.
Qed.

(** ** the encoder is not monotone at its threshold *)
Lemma dip pow : pow_ok pow -> srgb_encode pow (f32_dec 31308 7) = 10%Z /\ srgb_encode pow (f32_dec 31309 7) = 5%Z.
Proof.
  intros HP. split; [vm_compute; reflexivity|]. unfold srgb_encode.
  assert (G : f32_leb (f32_dec 31309 7) (f32_dec 31308 7) = false) by (vm_compute; reflexivity). rewrite G. clear G.
  assert (A : approx (f32_dec 31309 7) 0.0031309 (uu / 100)) by const_ap. destruct A as [r [Fr Hr]].
  assert (A3 : approx (f32_div (f32_of_Z 1) (f32_dec 22 1)) (5 / 11) (2 * uu)) by const_ap. destruct A3 as [s [Fs Hs]].
  destruct (pow_rel pow _ _ 0.0031309 (5 / 11) (4 * uu) (2 * uu) r s HP Fr Fs) as [q [Fq Hq]]; try (unfold uu in *; lra).
  { unfold rel, uu in *. lra. }
  { apply Rabs_bd in Hs. unfold uu in Hs. lra. }
  assert (B1 : 0.0726 <= Rpower 0.0031309 (5 / 11)).
  { replace (5 / 11) with (INR 5 / INR 11) by (cbn; lra). apply Rpower_ge_root; try lra; try lia; cbn; lra. }
  assert (B2 : Rpower 0.0031309 (5 / 11) <= 0.0729).
  { replace (5 / 11) with (INR 5 / INR 11) by (cbn; lra). apply Rpower_le_root; try lra; try lia; cbn; lra. }
  assert (Q : approx (pow (f32_dec 31309 7) (f32_div (f32_of_Z 1) (f32_dec 22 1))) 0.07275 0.0002).
  { exists q. split; [exact Fq|]. unfold rel in Hq.
    assert ((33 * uu + 5 * (4 * uu) + 22 * (2 * uu)) * Rpower 0.0031309 (5 / 11) <= (33 * uu + 5 * (4 * uu) + 22 * (2 * uu)) * 0.0729) by (apply Rmult_le_compat_l; unfold uu; lra).
    apply Rabs_bd in Hq. apply Rabs_le'; unfold uu in *; lra. }
  assert (C1 : approx (f32_dec 269025 3) 269.025 (512 * uu)) by const_ap.
  assert (C2 : approx (f32_dec 14025 3) 14.025 (28 * uu)) by const_ap.
  assert (M : approx (f32_mul (f32_dec 269025 3) (pow (f32_dec 31309 7) (f32_div (f32_of_Z 1) (f32_dec 22 1)))) (269.025 * 0.07275) 0.06).
  { apply (ap_mul 9 269.025 1 _ _ _ _ (512 * uu) 0.0002); [exact C1|exact Q|lia| | | |]; try (rewrite Rabs_pos_eq by lra); unfold uu; cbn; lra. }
  assert (S : approx (f32_sub (f32_mul (f32_dec 269025 3) (pow (f32_dec 31309 7) (f32_div (f32_of_Z 1) (f32_dec 22 1)))) (f32_dec 14025 3)) (269.025 * 0.07275 - 14.025) 0.07).
  { apply (ap_sub 9 _ _ _ _ 0.06 (28 * uu)); [exact M|exact C2|lia| |]; [rewrite Rabs_pos_eq by lra|]; unfold uu; cbn; lra. }
  destruct S as [z [Fz Hz]]. apply Rabs_bd in Hz. unfold f32_to_int. rewrite (to_int_fin U8 _ z ltac:(cbn; lia) Fz).
  assert (T : Ztrunc z = 5%Z).
  { rewrite Ztrunc_floor by lra. apply Zfloor_imp. cbn. lra. }
  rewrite T. reflexivity.
Qed.
