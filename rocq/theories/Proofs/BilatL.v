(** * The weights of the bilateral filter against the real Gaussian *)
From Coq Require Import Lra.
From Verif.Model Require Import Base Float Image.
From Verif.Spec Require Import ImageS FloatS FilterS PowS GaussS BilateralS BilatRealS BsplineS.
From Verif.Proofs Require Import BaseL FloatL FloatL2 ApproxL PowL SrgbL ExpPiL GaussL RotL WmeanL.
From Verif.Props Require Import SpatialP.
From Flocq Require Import Core BinarySingleNaN.
Open Scope R_scope.

Lemma exp_frel_abs pow (Y : f32) s z : gauss_pow_ok pow -> fin Y (- s) -> 0 <= s -> Rabs (s - z) <= 780 * uu -> 0 <= z <= 60 ->
  frel (pow f32_e Y) (exp (- z)) (1860 * uu).
Proof.
  intros HP FY P Hs Hz. destruct e_log as (re & Fe & Hre & Hln). pose proof (Rabs_bd _ _ Hs) as Hsz.
  destruct (HP f32_e Y re (- s) Fe FY) as [q [Fq Hq]]; [left; split; [lra|unfold uu in Hsz; lra]|].
  exists q. split; [exact Fq|].
  assert (E : Rpower re (- s) = exp (- z) * exp (- (s * ln re - z))) by (unfold Rpower; rewrite <- exp_plus; f_equal; ring).
  assert (Hu : Rabs (- (s * ln re - z)) <= 903 * uu).
  { rewrite Rabs_Ropp. replace (s * ln re - z) with (s * (ln re - 1) + (s - z)) by ring. eapply Rle_trans; [apply Rabs_triang|].
    rewrite Rabs_mult, (Rabs_pos_eq s P).
    assert (s * Rabs (ln re - 1) <= 61 * (2 * uu)) by (apply Rmult_le_compat; try apply Rabs_pos; try lra; unfold uu in Hsz; lra).
    unfold uu in *. lra. }
  set (w := - (s * ln re - z)) in *. pose proof (exp_near w ltac:(unfold uu in Hu; lra)) as Hw.
  rewrite E in Hq. pose proof (exp_pos (- z)) as Pz. set (ez := exp (- z)) in *.
  assert (Hw' : Rabs (exp w - 1) <= 1806 * uu) by lra. pose proof (Rabs_bd _ _ Hw') as B.
  unfold rel. replace (q - ez) with ((q - ez * exp w) + ez * (exp w - 1)) by ring. eapply Rle_trans; [apply Rabs_triang|].
  rewrite Rabs_mult, (Rabs_pos_eq ez) by lra.
  assert (ez * Rabs (exp w - 1) <= ez * (1806 * uu)) by (apply Rmult_le_compat_l; lra).
  assert (ez * exp w / 1048576 <= ez * (33 * uu)).
  { unfold Rdiv. rewrite Rmult_assoc. apply Rmult_le_compat_l; [lra|]. unfold uu in *. lra. }
  unfold uu in *. nra.
Qed.

Section Gauss.
  Context (lm : libm) (HP : gauss_pow_ok (powf lm)) (sg : f32) (g : R) (Fg : fin sg g) (Hg : / 256 <= g <= 256).
  Notation K := (1 / (2 * PI * (g * g))).
  Lemma K_range : / 500000 <= K <= 65536.
  Proof using All.
    pose proof (g2_range g Hg) as G2. pose proof pi_bounds as PB.
    assert (Hx : / 65536 <= 2 * PI * (g * g) <= 500000).
    { split; [|replace 500000 with (500000 / 65536 * 65536) by lra; apply Rmult_le_compat; lra].
      replace (/ 65536) with (1 * / 65536) by lra. apply Rmult_le_compat; lra. }
    unfold Rdiv. rewrite Rmult_1_l. split; [apply Rinv_le_contravar; lra|].
    replace 65536 with (/ / 65536) by lra. apply Rinv_le_contravar; lra.
  Qed.
  Lemma coef_frel : frel (f32_div (F32 1) (f32_mul (f32_mul (F32 2) f32_pi) (f32_mul sg sg))) K (14 * uu)
    /\ frel (f32_mul (F32 2) (f32_mul sg sg)) (2 * (g * g)) (4.3 * uu).
  Proof using All.
    pose proof (sg_frel sg g Fg) as SG. pose proof two_frel as TW. pose proof one_frel as ON. pose proof pi_frel as PF.
    pose proof (g2_range g Hg) as G2. pose proof pi_bounds as PB. pose proof tiny_small as TS. pose proof huge_big as HB.
    assert (A1 : frel (f32_mul (f32_of_Z 2) f32_pi) (2 * PI) (4 * uu)).
    { apply (frel_mul_w _ _ _ _ 0 uu); try assumption; unfold uu; lra. }
    assert (S2 : frel (f32_mul sg sg) (g * g) (2.1 * uu)).
    { apply (frel_mul_w _ _ _ _ 0 0); try assumption; unfold uu; lra. }
    assert (R3 : / 65536 <= 2 * PI * (g * g) <= 500000).
    { split; [replace (/ 65536) with (1 * / 65536) by lra; apply Rmult_le_compat; lra|].
      replace 500000 with (500000 / 65536 * 65536) by lra. apply Rmult_le_compat; lra. }
    assert (A3 : frel (f32_mul (f32_mul (f32_of_Z 2) f32_pi) (f32_mul sg sg)) (2 * PI * (g * g)) (9 * uu)).
    { apply (frel_mul_w _ _ _ _ (4 * uu) (2.1 * uu)); try assumption; try (unfold uu; lra). }
    split.
    - apply (frel_div_w _ _ _ _ 0 (9 * uu)); try assumption; try (unfold uu; lra).
      unfold Rdiv. rewrite Rmult_1_l. split; [apply Rle_trans with (/ 500000); [lra|apply Rinv_le_contravar; lra]|].
      apply Rle_trans with (/ / 65536); [apply Rinv_le_contravar; lra|lra].
    - apply (frel_mul_w _ _ _ _ 0 (2.1 * uu)); try assumption; try (unfold uu; lra).
  Qed.
  Lemma tail_abs (Y : f32) s z : fin Y (- s) -> 0 <= s -> Rabs (s - z) <= 780 * uu -> 0 <= z <= 60 ->
    frel (f32_mul (f32_div (F32 1) (f32_mul (f32_mul (F32 2) f32_pi) (f32_mul sg sg))) (powf lm f32_e Y)) (K * exp (- z)) (1900 * uu).
  Proof using All.
    intros FY Hs0 Hs Hz. pose proof (exp_frel_abs _ Y s z HP FY Hs0 Hs Hz) as HE. pose proof K_range as Hd.
    assert (He1 : exp (- z) <= 1) by (rewrite <- exp_0; destruct (Req_dec z 0) as [->|]; [rewrite Ropp_0; lra|left; apply exp_increasing; lra]).
    pose proof (exp_low z ltac:(lra)) as He0.
    apply (frel_mul_w _ _ _ _ (14 * uu) (1860 * uu)); try apply coef_frel; try assumption; try (unfold uu; lra); try apply exp_pos.
    split.
    - apply Rle_trans with (/ 500000 * bpow radix2 (-87)); [|apply Rmult_le_compat; try lra; apply bpow_ge_0].
      apply Rle_trans with (bpow radix2 (-20) * bpow radix2 (-87)); [unfold tiny; rewrite <- bpow_plus; apply bpow_le; lia|].
      apply Rmult_le_compat_r; [apply bpow_ge_0|]. cbn. lra.
    - pose proof huge_big. pose proof (exp_pos (- z)). nra.
  Qed.

  (** the range weight: any difference with a moderate exponent *)
  Lemma range_frel (A B : f32) a b : fin A a -> fin B b -> (a - b) ^ 2 / (2 * g ^ 2) <= 60 ->
    frel (BilateralS.gauss lm sg (f32_abs (f32_sub A B))) (K * exp (- ((a - b) ^ 2 / (2 * g ^ 2)))) (1900 * uu).
  Proof using All.
    intros FA FB Hz. set (d := a - b) in *. pose proof (g2_range g Hg) as G2.
    assert (Eg : 2 * g ^ 2 = 2 * (g * g)) by ring. rewrite Eg in *.
    assert (Hz0 : 0 <= d ^ 2 / (2 * (g * g))) by (apply Rmult_le_pos; [apply pow2_ge_0|left; apply Rinv_0_lt_compat; lra]).
    assert (Hd2 : d ^ 2 <= 7864320).
    { replace (d ^ 2) with (d ^ 2 / (2 * (g * g)) * (2 * (g * g))) by (field; lra).
      replace 7864320 with (60 * 131072) by lra. apply Rmult_le_compat; lra. }
    assert (Hd : Rabs d <= 4096).
    { apply Rnot_lt_le. intros C. assert (4096 ^ 2 <= Rabs d ^ 2) by (apply pow_incr; lra). rewrite RPow_abs, (Rabs_pos_eq (d ^ 2)) in H by apply pow2_ge_0. lra. }
    assert (FD : fin (f32_abs (f32_sub A B)) (Rabs (rnd32 d))).
    { apply abs_fin. apply sub_fin; [exact FA|exact FB|]. apply huge_fit. fold d. pose proof huge_big. lra. }
    destruct coef_frel as [_ C2]. unfold BilateralS.gauss.
    destruct (Rle_lt_dec (bpow radix2 (-50)) (Rabs d)) as [Hbig|Hsm].
    - (* relative error *)
      assert (R1 : frel (f32_abs (f32_sub A B)) (Rabs d) (2.1 * uu)).
      { exists (Rabs (rnd32 d)). split; [exact FD|]. unfold rel.
        eapply Rle_trans; [apply Rabs_triang_inv2|]. pose proof (rel_err d) as E. rewrite two_uu in E.
        assert (bpow radix2 (-126) <= Rabs d) by (eapply Rle_trans; [apply bpow_le|exact Hbig]; lia). specialize (E H).
        assert (0 <= uu * Rabs d) by (apply Rmult_le_pos; [unfold uu; lra|apply Rabs_pos]). lra. }
      assert (Dp : 0 < Rabs d) by (pose proof (bpow_gt_0 radix2 (-50)); lra).
      assert (Hdd : Rabs d * Rabs d = d ^ 2) by (rewrite <- Rabs_mult, Rabs_pos_eq by nra; ring).
      assert (Lo : bpow radix2 (-100) <= d ^ 2).
      { rewrite <- Hdd. change (-100)%Z with (-50 + -50)%Z. rewrite bpow_plus. apply Rmult_le_compat; try apply bpow_ge_0; exact Hbig. }
      assert (R2 : frel (f32_mul (f32_abs (f32_sub A B)) (f32_abs (f32_sub A B))) (d ^ 2) (6.4 * uu)).
      { rewrite <- Hdd at 1. apply (frel_mul_w _ _ _ _ (2.1 * uu) (2.1 * uu)); try assumption; try (unfold uu; lra).
        rewrite Hdd. split; [apply Rle_trans with (2 := Lo); apply bpow_le; lia|]. pose proof huge_big. lra. }
      destruct (frel_negdiv _ _ (d ^ 2) (2 * (g * g)) (6.4 * uu) (4.3 * uu) R2 C2) as [s [Fs Hs]].
      + lra.
      + right. pose proof (bpow_gt_0 radix2 (-100)). lra.
      + intros _. apply Rle_trans with (bpow radix2 (-100) / 131072).
        * unfold tiny. replace (bpow radix2 (-100) / 131072) with (bpow radix2 (-117)); [apply bpow_le; lia|].
          change (-117)%Z with (-100 + -17)%Z. rewrite bpow_plus. reflexivity.
        * apply Rmult_le_compat; try lra; [apply bpow_ge_0|]. apply Rinv_le_contravar; lra.
      + pose proof huge_big. lra.
      + unfold uu; lra.
      + unfold uu; lra.
      + set (z := d ^ 2 / (2 * (g * g))) in *. unfold rel in Hs.
        assert (Ht : 1.01 * (6.4 * uu + 4.3 * uu) + 2.1 * uu <= 13 * uu) by (unfold uu; lra).
        assert (Hs' : Rabs (s - z) <= 13 * uu * z) by (eapply Rle_trans; [exact Hs|]; apply Rmult_le_compat_r; lra).
        apply (tail_abs _ s z Fs); [| |lra].
        * apply Rabs_bd in Hs'. assert (13 * uu * z <= / 2 * z) by (apply Rmult_le_compat_r; [lra|unfold uu; lra]). lra.
        * eapply Rle_trans; [exact Hs'|]. replace (780 * uu) with (13 * uu * 60) by ring. apply Rmult_le_compat_l; [unfold uu; lra|lra].
    - (* absolutely small *)
      set (z := d ^ 2 / (2 * (g * g))) in *. destruct C2 as [yy [FY HY]].
      pose proof (rel_bounds yy (2 * (g * g)) _ ltac:(lra) HY ltac:(unfold uu; lra)) as By.
      set (r := rnd32 (Rabs (rnd32 d) * Rabs (rnd32 d))).
      assert (Br : 0 <= Rabs (rnd32 d) <= bpow radix2 (-50)).
      { split; [apply Rabs_pos|]. unfold rnd32, rnd. apply abs_round_le_generic; try apply vexp; try apply valid_rnd_N.
        - apply generic_format_bpow. unfold SpecFloat.fexp, SpecFloat.emin. lia.
        - lra. }
      assert (Bm : 0 <= Rabs (rnd32 d) * Rabs (rnd32 d) <= bpow radix2 (-100)).
      { split; [apply Rmult_le_pos; lra|]. change (-100)%Z with (-50 + -50)%Z. rewrite bpow_plus. apply Rmult_le_compat; lra. }
      assert (Br2 : 0 <= r <= bpow radix2 (-100)).
      { unfold r, rnd32, rnd. split.
        - apply round_ge_generic; try apply vexp; try apply valid_rnd_N; [apply generic_format_0|apply Bm].
        - apply round_le_generic; try apply vexp; try apply valid_rnd_N; [|apply Bm]. apply generic_format_bpow. unfold SpecFloat.fexp, SpecFloat.emin. lia. }
      assert (One : bpow radix2 (-100) <= 1) by (change 1 with (bpow radix2 0); apply bpow_le; lia).
      pose proof huge_big as HB.
      assert (FR : fin (f32_mul (f32_abs (f32_sub A B)) (f32_abs (f32_sub A B))) r).
      { apply mul_fin; [exact FD|exact FD|]. apply huge_fit. rewrite Rabs_pos_eq by lra. lra. }
      assert (Iy : 0 < / yy <= 65536).
      { split; [apply Rinv_0_lt_compat; lra|]. replace 65536 with (/ / 65536) by lra. apply Rinv_le_contravar; lra. }
      assert (Bq : 0 <= r / yy <= bpow radix2 (-84)).
      { split; [apply Rmult_le_pos; lra|]. change (-84)%Z with (-100 + 16)%Z. rewrite bpow_plus. change (bpow radix2 16) with 65536. apply Rmult_le_compat; lra. }
      assert (Q1 : bpow radix2 (-84) <= uu) by (change uu with (bpow radix2 (-25)); apply bpow_le; lia).
      assert (Fq : fin (f32_div (f32_neg (f32_mul (f32_abs (f32_sub A B)) (f32_abs (f32_sub A B)))) (f32_mul (F32 2) (f32_mul sg sg))) (- rnd32 (r / yy))).
      { apply neg_div; [exact FR|exact FY|lra|]. apply huge_fit. rewrite Rabs_pos_eq by lra. unfold uu in Q1. lra. }
      assert (Bs : 0 <= rnd32 (r / yy) <= bpow radix2 (-84)).
      { unfold rnd32, rnd. split.
        - apply round_ge_generic; try apply vexp; try apply valid_rnd_N; [apply generic_format_0|apply Bq].
        - apply round_le_generic; try apply vexp; try apply valid_rnd_N; [|apply Bq]. apply generic_format_bpow. unfold SpecFloat.fexp, SpecFloat.emin. lia. }
      apply (tail_abs _ (rnd32 (r / yy)) z Fq); [lra| |lra].
      assert (Bz : z <= uu).
      { unfold z. apply Rle_trans with (bpow radix2 (-100) * 65536).
        - apply Rmult_le_compat; try lra; [apply pow2_ge_0|left; apply Rinv_0_lt_compat; lra| |].
          + replace (d ^ 2) with (Rabs d * Rabs d) by (rewrite <- Rabs_mult, Rabs_pos_eq by nra; ring).
            change (-100)%Z with (-50 + -50)%Z. rewrite bpow_plus. apply Rmult_le_compat; try apply Rabs_pos; lra.
          + replace 65536 with (/ / 65536) by lra. apply Rinv_le_contravar; lra.
        - change 65536 with (bpow radix2 16). rewrite <- bpow_plus. change uu with (bpow radix2 (-25)). apply bpow_le. lia. }
      apply Rabs_le'; unfold uu in *; lra.
  Qed.

  (** the spatial weight *)
  Lemma spatial_frel dx dy : ((dx =? 0) && (dy =? 0))%Z = false -> (dx ^ 2 + dy ^ 2 <= 16777216)%Z -> IZR (dx ^ 2 + dy ^ 2) / (2 * g ^ 2) <= 60 ->
    frel (closeness lm sg dx dy) (K * exp (- (IZR (dx ^ 2 + dy ^ 2) / (2 * g ^ 2)))) (1900 * uu).
  Proof using All.
    intros H0 Hd Hz. unfold closeness. rewrite H0. set (d2 := (dx ^ 2 + dy ^ 2)%Z) in *.
    assert (Hp : (1 <= d2)%Z) by (unfold d2; apply andb_false_iff in H0 as [H0|H0]; apply Z.eqb_neq in H0; nia).
    replace (2 * g ^ 2) with (2 * g * g) in * by ring.
    assert (Ed : (dx * dx + dy * dy = d2)%Z) by (unfold d2; ring).
    pose proof (C31_distance dx dy ltac:(lia)) as FD. rewrite Ed in FD.
    assert (D1 : 1 <= IZR d2 <= 16777216) by (split; apply IZR_le; lia).
    assert (S1 : 1 <= sqrt (IZR d2) <= 4096).
    { split; [rewrite <- sqrt_1; apply sqrt_le_1_alt; lra|]. replace 4096 with (sqrt 16777216).
      - apply sqrt_le_1_alt; lra.
      - replace 16777216 with (4096 * 4096) by lra. apply sqrt_square. lra. }
    pose proof tiny_small as TS. pose proof huge_big as HB.
    assert (FR : frel (length2 dx dy) (sqrt (IZR d2)) (2.1 * uu)).
    { apply (frel_round_w _ (sqrt (IZR d2)) _ 0); [exact FD| |lra|lra|lra].
      unfold rel. rewrite Rminus_diag_eq, Rabs_R0 by reflexivity. lra. }
    assert (SS : sqrt (IZR d2) * sqrt (IZR d2) = IZR d2) by (apply sqrt_sqrt; lra).
    apply (gaussian_of_frel (powf lm) HP sg g Fg Hg (f32_mul _ _) (IZR d2)).
    - rewrite <- SS at 1. apply (frel_mul_w _ _ _ _ (2.1 * uu) (2.1 * uu)); try assumption; try lra; try (rewrite SS; lra); unfold uu; lra.
    - right. lra.
    - exact Hz.
  Qed.
End Gauss.
