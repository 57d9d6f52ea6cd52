(** Rounding a quotient of integers: float division followed by round and conversion to u8. *)
From Verif.Model Require Import Base Float.
From Verif.Proofs Require Import BaseL FloatL FloatL2.
From Verif.Props Require Import FloatP.
From Flocq Require Import Core BinarySingleNaN.
From Coq Require Import Reals Lra.
Open Scope Z_scope.

Lemma half_ulp_256 v : (0 <= v < 256)%R -> (Rabs (rnd32 v - v) <= bpow radix2 (-17))%R.
Proof.
  intros [H0 H1]. destruct (Req_dec v 0) as [->|Hn].
  - unfold rnd32, rnd. rewrite round_0 by typeclasses eauto. rewrite Rminus_0_r, Rabs_R0. apply bpow_ge_0.
  - pose proof (error_le_half_ulp radix2 (SpecFloat.fexp 24 128) (fun x => negb (Z.even x)) v) as E.
    eapply Rle_trans; [exact E|].
    rewrite ulp_neq_0 by exact Hn. unfold cexp.
    assert (Hm : (mag radix2 v <= 8)%Z).
    { apply mag_le_bpow; [exact Hn|]. rewrite Rabs_pos_eq by lra. replace (bpow radix2 8) with 256%R by (cbn; lra). lra. }
    assert (He : (SpecFloat.fexp 24 128 (mag radix2 v) <= -16)%Z).
    { unfold SpecFloat.fexp, SpecFloat.emin. lia. }
    apply (bpow_le radix2) in He.
    replace (bpow radix2 (-17)) with (/ 2 * bpow radix2 (-16))%R by (cbn; lra).
    apply Rmult_le_compat_l; lra.
Qed.

Lemma rnd_half k : 0 <= k <= 256 -> rnd32 (IZR k - / 2) = (IZR k - / 2)%R.
Proof.
  intros Hk. apply rnd_fmt. replace (IZR k - / 2)%R with (F2R (Float radix2 (2 * k - 1) (-1))).
  - apply generic_format_FLT. exists (Float radix2 (2 * k - 1) (-1)); cbn [Fnum Fexp]; [reflexivity| |unfold SpecFloat.emin; lia].
    change (Zpower radix2 24) with 16777216. lia.
  - unfold F2R. cbn [Fnum Fexp bpow]. rewrite minus_IZR, mult_IZR. cbn. lra.
Qed.

(** the quotient of sums of up to 65535 bytes, rounded half up *)
Lemma mean_byte s n : 0 < n <= 65535 -> 0 <= s <= 255 * n ->
  f32_to_int U8 (f32_round (f32_div (f32_of_Z s) (f32_of_Z n))) = (2 * s + n) / (2 * n).
Proof.
  intros Hn Hs. unfold f32_to_int, f32_round. rewrite (round_to_byte (f32_div (f32_of_Z s) (f32_of_Z n))).
  assert (HnR : (0 < IZR n)%R) by (apply IZR_lt; lia).
  assert (Hv : (0 <= IZR s / IZR n <= 255)%R).
  { split.
    - apply Rmult_le_pos; [apply IZR_le; lia|]. left. apply Rinv_0_lt_compat. exact HnR.
    - apply Rmult_le_reg_r with (IZR n); [exact HnR|]. unfold Rdiv. rewrite Rmult_assoc, Rinv_l by lra. rewrite Rmult_1_r, <- mult_IZR. apply IZR_le. lia. }
  assert (F : fin (f32_div (f32_of_Z s) (f32_of_Z n)) (rnd32 (IZR s / IZR n))).
  { apply div_fin.
    - apply of_Z_isZ. lia.
    - apply of_Z_isZ. lia.
    - lra.
    - rewrite Rabs_pos_eq by lra. eapply Rle_trans; [apply Hv|]. change 255%R with (IZR 255). eapply Rle_trans; [apply RRle_abs|]. apply bigZ. lia. }
  set (k := (2 * s + n) / (2 * n)).
  assert (Hk : 2 * n * k <= 2 * s + n < 2 * n * k + 2 * n).
  { pose proof (Z.div_mod (2 * s + n) (2 * n) ltac:(lia)). pose proof (Z.mod_pos_bound (2 * s + n) (2 * n) ltac:(lia)). fold k in H. lia. }
  assert (Hk0 : 0 <= k <= 255) by nia.
  assert (V1 : (IZR k - / 2 <= IZR s / IZR n)%R).
  { apply Rmult_le_reg_r with (IZR n); [exact HnR|]. unfold Rdiv. rewrite Rmult_assoc, Rinv_l by lra. rewrite Rmult_1_r.
    assert (IZR (2 * n * k) <= IZR (2 * s + n))%R by (apply IZR_le; lia). rewrite plus_IZR, !mult_IZR in H. lra. }
  assert (V2 : (IZR s / IZR n <= IZR k + / 2 - / (2 * IZR n))%R).
  { apply Rmult_le_reg_r with (IZR n); [exact HnR|]. unfold Rdiv. rewrite Rmult_assoc, Rinv_l by lra. rewrite Rmult_1_r.
    assert (IZR (2 * s + n) <= IZR (2 * n * k + 2 * n - 1))%R by (apply IZR_le; lia).
    rewrite minus_IZR, !plus_IZR, !mult_IZR in H. replace ((IZR k + / 2 - / (2 * IZR n)) * IZR n)%R with (IZR k * IZR n + / 2 * IZR n - / 2)%R by (field; lra). lra. }
  assert (R1 : (IZR k - / 2 <= rnd32 (IZR s / IZR n))%R).
  { rewrite <- rnd_half by lia. apply rnd_le. exact V1. }
  assert (R2 : (rnd32 (IZR s / IZR n) < IZR k + / 2)%R).
  { pose proof (half_ulp_256 (IZR s / IZR n) ltac:(lra)) as E. apply Rabs_le_inv in E.
    assert (bpow radix2 (-17) < / (2 * IZR n))%R; [|lra].
    replace (bpow radix2 (-17)) with (/ IZR 131072)%R by (cbn; lra). rewrite <- mult_IZR. apply Rinv_lt_contravar.
    - apply Rmult_lt_0_compat; apply IZR_lt; lia.
    - apply IZR_lt. lia. }
  assert (B : byte_of (f32_div (f32_of_Z s) (f32_of_Z n)) = byte_of_real (rnd32 (IZR s / IZR n))).
  { destruct F as [F1 F2]. rewrite <- F2. destruct (f32_div (f32_of_Z s) (f32_of_Z n)); try discriminate; reflexivity. }
  rewrite B. unfold byte_of_real. rewrite (Zfloor_imp k); [lia|]. rewrite plus_IZR. lra.
Qed.
