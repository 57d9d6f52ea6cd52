(** * More on floats: order on non-NaN values, remainder by 1, square roots of integers. *)
From Verif.Model Require Import Base Float.
From Verif.Proofs Require Import BaseL FloatL.
From Flocq Require Import Core BinarySingleNaN Relative.
Open Scope Z_scope.

(** a real number standing for a non-NaN float, infinities included *)
Definition ext (x : f32) : R :=
  match x with B754_infinity s => (if s then - bpow radix2 128 else bpow radix2 128)%R | _ => B2R x end.

Lemma B2R_bound (x : f32) : (- bpow radix2 128 < B2R x < bpow radix2 128)%R.
Proof. pose proof (abs_B2R_lt_emax 24 128 x) as H. apply Rabs_def2 in H. lra. Qed.

Lemma bpow128 : (0 < bpow radix2 128)%R. Proof. apply bpow_gt_0. Qed.

Lemma ltb_ext (x y : f32) : is_nan x = false -> is_nan y = false -> f32_ltb x y = Rlt_bool (ext x) (ext y).
Proof.
  intros Hx Hy. unfold f32_ltb. pose proof bpow128. pose proof (B2R_bound x). pose proof (B2R_bound y).
  destruct (is_finite x) eqn:Fx; destruct (is_finite y) eqn:Fy.
  - rewrite Bltb_correct by assumption. destruct x, y; try discriminate; reflexivity.
  - destruct y as [|[]| |]; try discriminate; destruct x as [|[]| |[]]; try discriminate; cbn in *; symmetry;
      first [apply Rlt_bool_true; lra | apply Rlt_bool_false; lra].
  - destruct x as [|[]| |]; try discriminate; destruct y as [|[]| |[]]; try discriminate; cbn in *; symmetry;
      first [apply Rlt_bool_true; lra | apply Rlt_bool_false; lra].
  - destruct x as [|[]| |]; try discriminate; destruct y as [|[]| |]; try discriminate; cbn in *; symmetry;
      first [apply Rlt_bool_true; lra | apply Rlt_bool_false; lra].
Qed.
Lemma leb_ext (x y : f32) : is_nan x = false -> is_nan y = false -> f32_leb x y = Rle_bool (ext x) (ext y).
Proof.
  intros Hx Hy. unfold f32_leb. pose proof bpow128. pose proof (B2R_bound x). pose proof (B2R_bound y).
  destruct (is_finite x) eqn:Fx; destruct (is_finite y) eqn:Fy.
  - rewrite Bleb_correct by assumption. destruct x, y; try discriminate; reflexivity.
  - destruct y as [|[]| |]; try discriminate; destruct x as [|[]| |[]]; try discriminate; cbn in *; symmetry;
      first [apply Rle_bool_true; lra | apply Rle_bool_false; lra].
  - destruct x as [|[]| |]; try discriminate; destruct y as [|[]| |[]]; try discriminate; cbn in *; symmetry;
      first [apply Rle_bool_true; lra | apply Rle_bool_false; lra].
  - destruct x as [|[]| |]; try discriminate; destruct y as [|[]| |]; try discriminate; cbn in *; symmetry;
      first [apply Rle_bool_true; lra | apply Rle_bool_false; lra].
Qed.
Lemma ltb_nan_l (x y : f32) : is_nan x = true -> f32_ltb x y = false.
Proof. destruct x; try discriminate. intros _. destruct y; reflexivity. Qed.
Lemma ltb_nan_r (x y : f32) : is_nan y = true -> f32_ltb x y = false.
Proof. destruct y; try discriminate. intros _. destruct x as [|[]| |[]]; reflexivity. Qed.

Lemma IZR_pow2 k : 0 <= k -> IZR (2 ^ k) = bpow radix2 k.
Proof. intros. apply (IZR_Zpower radix2). assumption. Qed.

(** ** remainder by 1 *)
Lemma f32_1_form : exists H, f32_1 = B754_finite false 8388608 (-23) H.
Proof.
  assert (H : SpecFloat.bounded 24 128 8388608 (-23) = true) by reflexivity.
  exists H. apply (fin_inj f32_1 (B754_finite false 8388608 (-23) H) 1).
  - apply isZ_1.
  - split; [reflexivity|]. cbn. unfold F2R. cbn. lra.
  - lra.
Qed.

Lemma rem_1 (x : f32) : is_finite x = true ->
  f32_eqb (f32_rem x f32_1) f32_0 = true <-> exists k, B2R x = IZR k.
Proof.
  intros F. destruct f32_1_form as [H1 ->]. unfold f32_rem, float_rem.
  destruct x as [s| | |s m ex Hx]; try discriminate.
  - split; [intros _; exists 0; reflexivity|reflexivity].
  - set (e := Z.min ex (-23)). set (M := Z.pos m * 2 ^ (ex - e)).
    assert (He : -149 <= e <= -23).
    { pose proof Hx as Hx'. unfold SpecFloat.bounded, SpecFloat.canonical_mantissa in Hx'. apply andb_prop in Hx' as [Hx' _].
      apply Zeq_bool_eq in Hx'. unfold SpecFloat.fexp, SpecFloat.emin in Hx'. lia. }
    assert (HD : Z.pos 8388608 * 2 ^ (-23 - e) = 2 ^ (- e)).
    { replace (- e) with (23 + (-23 - e)) by lia. rewrite Z.pow_add_r by lia. reflexivity. }
    rewrite HD. set (D := 2 ^ (- e)). assert (0 < D) by (apply Z.pow_pos_nonneg; lia).
    assert (0 <= M) by (unfold M; apply Z.mul_nonneg_nonneg; [lia|apply Z.pow_nonneg; lia]).
    assert (HMD : forall r, (IZR r * bpow radix2 e = IZR r / IZR D)%R).
    { intros r. unfold D. rewrite (IZR_pow2 (- e)) by lia. rewrite bpow_opp. field. 
      apply Rgt_not_eq. apply bpow_gt_0. }
    assert (HDR : (0 < IZR D)%R) by (apply IZR_lt; lia).
    assert (Hval : B2R (B754_finite s m ex Hx) = (IZR (cond_Zopp s M) / IZR D)%R).
    { change (F2R (Float radix2 (cond_Zopp s (Z.pos m)) ex) = (IZR (cond_Zopp s M) / IZR D)%R). unfold F2R. cbn [Fnum Fexp]. rewrite <- HMD.
      assert (Hb : bpow radix2 ex = (IZR (2 ^ (ex - e)) * bpow radix2 e)%R).
      { rewrite (IZR_pow2 (ex - e)) by (unfold e; lia). rewrite <- bpow_plus. f_equal. lia. }
      rewrite Hb. assert (HMr : IZR M = (IZR (Z.pos m) * IZR (2 ^ (ex - e)))%R) by (unfold M; apply mult_IZR).
      clearbody M. destruct s; cbn [cond_Zopp].
      - rewrite !opp_IZR, HMr. ring.
      - rewrite HMr. ring. }
    set (r := M mod D). pose proof (Z.mod_pos_bound M D ltac:(lia)) as Hr. fold r in Hr.
    assert (Hsm : forall z, Z.abs z < D ->
              fin (binary_normalize 24 128 prec24 prec24_128 mode_NE z e s) (rnd32 (F2R (Float radix2 z e)))).
    { intros z Hz. apply norm_fin. unfold F2R. cbn [Fnum Fexp]. rewrite HMD.
      unfold Rdiv. rewrite Rabs_mult, Rabs_inv, (Rabs_pos_eq (IZR D)) by lra. 
      apply Rle_trans with 1%R; [|change 1%R with (bpow radix2 0); apply bpow_le; lia].
      apply Rmult_le_reg_r with (IZR D); [lra|]. rewrite Rmult_assoc, Rinv_l, Rmult_1_r, Rmult_1_l by lra.
      rewrite <- abs_IZR. apply IZR_le. lia. }
    split.
    + intros E. exists (cond_Zopp s (M / D)). rewrite Hval.
      assert (r = 0) as R0.
      { destruct (Z.eq_dec r 0) as [|Hn]; [assumption|exfalso].
        set (z := if s then - r else r) in *. assert (Z.abs z < D /\ z <> 0) as [Hz Hz0] by (unfold z; destruct s; lia).
        specialize (Hsm z Hz). unfold f32_eqb in E. rewrite (eqb_fin _ _ _ _ Hsm isZ_0) in E.
        destruct (Req_bool_spec (rnd32 (F2R (Float radix2 z e))) 0) as [E'|]; [|discriminate].
        assert (Hfm : generic_format radix2 (SpecFloat.fexp 24 128) (bpow radix2 e)).
        { apply generic_format_bpow. unfold SpecFloat.fexp, SpecFloat.emin. lia. }
        unfold F2R in E'. cbn [Fnum Fexp] in E'. pose proof (bpow_gt_0 radix2 e).
        destruct (Z_lt_le_dec z 0).
        - assert (IZR z <= -1)%R by (apply IZR_le; lia).
          assert (rnd32 (IZR z * bpow radix2 e) <= - bpow radix2 e)%R.
          { apply rnd_le_fmt; [nra|]. apply generic_format_opp. exact Hfm. }
          lra.
        - assert (1 <= IZR z)%R by (apply IZR_le; lia).
          assert (bpow radix2 e <= rnd32 (IZR z * bpow radix2 e))%R.
          { apply rnd_ge_fmt; [nra|]. exact Hfm. }
          lra. }
      assert (HM : M = D * (M / D)) by (rewrite (Z.div_mod M D) at 1 by lia; fold r; lia).
      apply Rmult_eq_reg_r with (IZR D); [|lra]. unfold Rdiv. rewrite Rmult_assoc, Rinv_l, Rmult_1_r by lra.
      rewrite <- mult_IZR. f_equal. destruct s; cbn [cond_Zopp]; lia.
    + intros [k Hk]. rewrite Hval in Hk.
      assert (cond_Zopp s M = k * D) as HkD.
      { apply eq_IZR. rewrite mult_IZR, <- Hk. field. lra. }
      assert (r = 0) as R0.
      { unfold r. destruct s; cbn [cond_Zopp] in HkD.
        - assert (HM : M = (- k) * D) by lia. rewrite HM. apply Z.mod_mul. lia.
        - rewrite HkD. apply Z.mod_mul. lia. }
      rewrite R0. replace (if s then - 0 else 0) with 0 by (destruct s; reflexivity).
      specialize (Hsm 0 ltac:(lia)). unfold f32_eqb. rewrite (eqb_fin _ _ _ _ Hsm isZ_0).
      apply Req_bool_true. unfold F2R. cbn [Fnum Fexp]. rewrite Rmult_0_l. apply (@rnd_Z 24 128 _ _ 0). lia.
Qed.

(** ** square roots of integers *)
Lemma rel_err (v : R) : (bpow radix2 (-126) <= Rabs v)%R -> (Rabs (rnd32 v - v) <= bpow radix2 (-24) * Rabs v)%R.
Proof.
  intros H. pose proof (relative_error_N_FLT radix2 (-149) 24 ltac:(reflexivity) (fun x => negb (Z.even x)) v H) as E.
  replace (bpow radix2 (-24)) with (/ 2 * bpow radix2 (- (24) + 1))%R; [exact E|].
  cbn. lra.
Qed.

Lemma sqrt_square_iff n : 0 <= n <= 16777216 ->
  (exists k, rnd32 (sqrt (IZR n)) = IZR k) <-> exists k, n = k * k.
Proof.
  intros Hn. split.
  - intros [k Hk]. exists k.
    destruct (Z.eq_dec n 0) as [->|Hn0].
    { rewrite sqrt_0 in Hk. unfold rnd32 in Hk. rewrite (@rnd_Z 24 128 _ _ 0) in Hk by lia. apply eq_IZR in Hk. lia. }
    set (v := sqrt (IZR n)) in *.
    assert (Hnr : (1 <= IZR n <= 16777216)%R) by (split; apply IZR_le; lia).
    assert (Hvv : (v * v = IZR n)%R) by (apply sqrt_sqrt; lra).
    assert (Hv1 : (1 <= v)%R) by (unfold v; rewrite <- sqrt_1; apply sqrt_le_1; lra).
    assert (Hv2 : (v <= 4096)%R) by nra.
    destruct (Req_dec v 4096) as [E4|E4].
    { assert (IZR k = 4096)%R as Ek by (rewrite <- Hk, E4; apply (@rnd_Z 24 128 _ _ 4096); lia).
      apply eq_IZR. rewrite mult_IZR, Ek, <- Hvv, E4. reflexivity. }
    pose proof (error_le_half_ulp radix2 (SpecFloat.fexp 24 128) (fun x => negb (Z.even x)) v) as Hre.
    change (round radix2 (SpecFloat.fexp 24 128) ZnearestE v) with (rnd32 v) in Hre. rewrite Hk in Hre.
    rewrite ulp_neq_0 in Hre by lra. unfold cexp in Hre.
    set (mg := mag radix2 v : Z) in *.
    assert (Hm1 : (v < bpow radix2 mg)%R).
    { pose proof (bpow_mag_gt radix2 v) as Hg. rewrite Rabs_pos_eq in Hg by lra. exact Hg. }
    assert (Hm12 : mg <= 12).
    { apply mag_le_bpow; [lra|]. rewrite Rabs_pos_eq by lra. change (bpow radix2 12) with 4096%R. lra. }
    assert (Hm0 : 1 <= mg).
    { apply mag_ge_bpow. rewrite Rabs_pos_eq by lra. change (bpow radix2 (1 - 1)) with 1%R. exact Hv1. }
    assert (Hmk : (IZR k <= bpow radix2 mg)%R).
    { rewrite <- Hk. apply rnd_le_fmt; [lra|]. apply generic_format_bpow. unfold SpecFloat.fexp, SpecFloat.emin. lia. }
    assert (Hk1 : (1 <= IZR k)%R) by (rewrite <- Hk; apply (@rnd_ge_Z 24 128 _ _ v 1); [exact Hv1|lia]).
    replace (SpecFloat.fexp 24 128 mg) with (mg - 24) in Hre by (unfold SpecFloat.fexp, SpecFloat.emin; lia).
    assert (Hd : (Rabs (IZR k * IZR k - IZR n) < 1)%R).
    { rewrite <- Hvv. replace (IZR k * IZR k - v * v)%R with ((IZR k - v) * (IZR k + v))%R by ring.
      rewrite Rabs_mult, (Rabs_pos_eq (IZR k + v)) by lra.
      pose proof (bpow_gt_0 radix2 (mg - 24)) as G1.
      apply Rle_lt_trans with (/ 2 * bpow radix2 (mg - 24) * (IZR k + v))%R; [apply Rmult_le_compat_r; lra|].
      apply Rlt_le_trans with (/ 2 * bpow radix2 (mg - 24) * (2 * bpow radix2 mg))%R.
      - apply Rmult_lt_compat_l; lra.
      - replace (/ 2 * bpow radix2 (mg - 24) * (2 * bpow radix2 mg))%R
          with (bpow radix2 (mg - 24) * bpow radix2 mg)%R by field.
        rewrite <- bpow_plus. change 1%R with (bpow radix2 0). apply bpow_le. lia. }
    rewrite <- mult_IZR, <- minus_IZR, <- abs_IZR in Hd. apply lt_IZR in Hd. lia.
  - intros [k ->]. exists (Z.abs k). replace (k * k) with (Z.abs k * Z.abs k) by lia. rewrite mult_IZR.
    rewrite sqrt_square by (apply IZR_le; lia). apply rnd_Z. nia.
Qed.
