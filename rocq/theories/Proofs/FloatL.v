(** * Lemmas on IEEE floats: real values, exactness on integers, comparisons. *)
From Coq Require Export Reals Lra Psatz.
From Verif.Model Require Import Base Float.
From Verif.Spec Require Export FloatS.
From Verif.Proofs Require Import BaseL.
From Flocq Require Import Core BinarySingleNaN Relative.
Open Scope Z_scope.

Definition clampZ (t : ity) (z : Z) : Z := Z.max (lo t) (Z.min (hi t) z).

Lemma round_FIX0 (rnd : R -> Z) r : round radix2 (FIX_exp 0) rnd r = IZR (rnd r).
Proof.
  unfold round, F2R, scaled_mantissa, cexp, FIX_exp. cbn.
  rewrite Rmult_1_r, Rmult_1_r. reflexivity.
Qed.

Section Gen.
  Context {prec emax : Z} {Hp : Prec_gt_0 prec} {He : Prec_lt_emax prec emax}.
  Notation bf := (binary_float prec emax).
  Notation fexp := (SpecFloat.fexp prec emax).
  Notation rnd := (@rnd prec emax).

  Instance vexp : Valid_exp fexp := FLT_exp_valid _ _.
  Instance mexp : Monotone_exp fexp := FLT_exp_monotone _ _.

  Lemma fmt_Z z : Z.abs z <= 2 ^ prec -> generic_format radix2 fexp (IZR z).
  Proof.
    intros Hz. pose proof He as He'. unfold Prec_lt_emax in He'. pose proof Hp as Hp'. unfold Prec_gt_0 in Hp'.
    destruct (Z.eq_dec (Z.abs z) (2 ^ prec)) as [E|E].
    - assert (generic_format radix2 fexp (bpow radix2 prec)) as Hb.
      { apply generic_format_bpow. unfold SpecFloat.fexp, SpecFloat.emin. lia. }
      destruct (Z.abs_spec z) as [[_ A]|[_ A]].
      + replace (IZR z) with (bpow radix2 prec); [exact Hb|]. rewrite <- IZR_Zpower by lia. f_equal. cbn. lia.
      + replace (IZR z) with (- bpow radix2 prec)%R; [apply generic_format_opp; exact Hb|].
        rewrite <- IZR_Zpower by lia. rewrite <- opp_IZR. f_equal. cbn. lia.
    - apply generic_format_FLT. exists (Float radix2 z 0).
      + unfold F2R. cbn. ring.
      + cbn. lia.
      + cbn. unfold SpecFloat.emin. lia.
  Qed.
  Lemma rnd_fmt r : generic_format radix2 fexp r -> rnd r = r.
  Proof. intros. apply round_generic; [apply valid_rnd_N|assumption]. Qed.
  Lemma rnd_Z z : Z.abs z <= 2 ^ prec -> rnd (IZR z) = IZR z.
  Proof. intros. apply rnd_fmt, fmt_Z. assumption. Qed.
  Lemma rnd_le a b : (a <= b)%R -> (rnd a <= rnd b)%R.
  Proof. intros. apply round_le; [apply vexp|apply valid_rnd_N|assumption]. Qed.
  Lemma rnd_le_fmt a b : (a <= b)%R -> generic_format radix2 fexp b -> (rnd a <= b)%R.
  Proof. intros. apply round_le_generic; [apply vexp|apply valid_rnd_N|assumption|assumption]. Qed.
  Lemma rnd_ge_fmt a b : (a <= b)%R -> generic_format radix2 fexp a -> (a <= rnd b)%R.
  Proof. intros. apply round_ge_generic; [apply vexp|apply valid_rnd_N|assumption|assumption]. Qed.
  Lemma rnd_le_Z a z : (a <= IZR z)%R -> Z.abs z <= 2 ^ prec -> (rnd a <= IZR z)%R.
  Proof. intros. apply rnd_le_fmt; [assumption|]. apply fmt_Z. assumption. Qed.
  Lemma rnd_ge_Z a z : (IZR z <= a)%R -> Z.abs z <= 2 ^ prec -> (IZR z <= rnd a)%R.
  Proof. intros. apply rnd_ge_fmt; [assumption|]. apply fmt_Z. assumption. Qed.

  Lemma fmt_B2R (x : bf) : generic_format radix2 fexp (B2R x).
  Proof. apply generic_format_B2R. Qed.

  (** no overflow *)
  Lemma rnd_lt_emax r : (Rabs r <= bpow radix2 (emax - 1))%R -> Rlt_bool (Rabs (rnd r)) (bpow radix2 emax) = true.
  Proof.
    intros H. apply Rlt_bool_true. apply Rle_lt_trans with (bpow radix2 (emax - 1)).
    - apply abs_round_le_generic; [apply vexp|apply valid_rnd_N| |assumption].
      pose proof He as He'. unfold Prec_lt_emax in He'. pose proof Hp as Hp'. unfold Prec_gt_0 in Hp'.
      apply generic_format_bpow. unfold SpecFloat.fexp, SpecFloat.emin. lia.
    - apply bpow_lt. lia.
  Qed.
  Lemma bound_Z z k : Z.abs z <= 2 ^ k -> 0 <= k -> (Rabs (IZR z) <= bpow radix2 k)%R.
  Proof. intros H Hk. rewrite <- abs_IZR, <- IZR_Zpower by exact Hk. apply IZR_le. exact H. Qed.

  Lemma add_fin (x y : bf) a b : fin x a -> fin y b -> (Rabs (a + b) <= bpow radix2 (emax - 1))%R ->
    fin (Bplus mode_NE x y) (rnd (a + b)).
  Proof.
    intros [Fx Ex] [Fy Ey] H. pose proof (Bplus_correct prec emax _ _ mode_NE x y Fx Fy) as C.
    rewrite Ex, Ey in C. change (round radix2 fexp (round_mode mode_NE)) with rnd in C.
    rewrite rnd_lt_emax in C by exact H. destruct C as [C1 [C2 _]]. split; assumption.
  Qed.
  Lemma sub_fin (x y : bf) a b : fin x a -> fin y b -> (Rabs (a - b) <= bpow radix2 (emax - 1))%R ->
    fin (Bminus mode_NE x y) (rnd (a - b)).
  Proof.
    intros [Fx Ex] [Fy Ey] H. pose proof (Bminus_correct prec emax _ _ mode_NE x y Fx Fy) as C.
    rewrite Ex, Ey in C. change (round radix2 fexp (round_mode mode_NE)) with rnd in C.
    rewrite rnd_lt_emax in C by exact H. destruct C as [C1 [C2 _]]. split; assumption.
  Qed.
  Lemma mul_fin (x y : bf) a b : fin x a -> fin y b -> (Rabs (a * b) <= bpow radix2 (emax - 1))%R ->
    fin (Bmult mode_NE x y) (rnd (a * b)).
  Proof.
    intros [Fx Ex] [Fy Ey] H. pose proof (Bmult_correct prec emax _ _ mode_NE x y) as C.
    rewrite Ex, Ey in C. change (round radix2 fexp (round_mode mode_NE)) with rnd in C.
    rewrite rnd_lt_emax in C by exact H. destruct C as [C1 [C2 _]]. split; [|assumption].
    rewrite C2, Fx, Fy. reflexivity.
  Qed.
  Lemma div_fin (x y : bf) a b : fin x a -> fin y b -> b <> 0%R -> (Rabs (a / b) <= bpow radix2 (emax - 1))%R ->
    fin (Bdiv mode_NE x y) (rnd (a / b)).
  Proof.
    intros [Fx Ex] [Fy Ey] Hb H. pose proof (Bdiv_correct prec emax _ _ mode_NE x y) as C.
    rewrite Ex, Ey in C. specialize (C Hb). change (round radix2 fexp (round_mode mode_NE)) with rnd in C.
    rewrite rnd_lt_emax in C by exact H. destruct C as [C1 [C2 _]]. split; [|assumption].
    rewrite C2, Fx. reflexivity.
  Qed.
  Lemma sqrt_fin (x : bf) a : fin x a -> (0 <= a)%R -> fin (Bsqrt mode_NE x) (rnd (sqrt a)).
  Proof.
    intros [Fx Ex] H. pose proof (Bsqrt_correct prec emax _ _ mode_NE x) as [C1 [C2 _]].
    rewrite Ex in C1. split; [|exact C1]. rewrite C2. destruct x as [s| | |s m e Hm]; cbn in *; auto; try discriminate.
    destruct s; [|reflexivity]. exfalso. unfold F2R in Ex. cbn in Ex.
    assert (0 < bpow radix2 e)%R by apply bpow_gt_0. assert (IZR (Z.neg m) <= -1)%R by (apply IZR_le; lia). nra.
  Qed.
  Lemma opp_fin (x : bf) a : fin x a -> fin (Bopp x) (- a).
  Proof. intros [Fx Ex]. split; [rewrite is_finite_Bopp; exact Fx|rewrite B2R_Bopp, Ex; reflexivity]. Qed.
  Lemma abs_fin (x : bf) a : fin x a -> fin (Babs x) (Rabs a).
  Proof. intros [Fx Ex]. split; [rewrite is_finite_Babs; exact Fx|rewrite B2R_Babs, Ex; reflexivity]. Qed.
  Lemma norm_fin m e s : (Rabs (F2R (Float radix2 m e)) <= bpow radix2 (emax - 1))%R ->
    fin (binary_normalize prec emax Hp He mode_NE m e s) (rnd (F2R (Float radix2 m e))).
  Proof.
    intros H. pose proof (binary_normalize_correct prec emax _ _ mode_NE m e s) as C. cbv zeta in C.
    change (round radix2 fexp (round_mode mode_NE)) with rnd in C.
    rewrite rnd_lt_emax in C by exact H. destruct C as [C1 [C2 _]]. split; assumption.
  Qed.
  Lemma of_Z_fin z : Z.abs z <= 2 ^ (emax - 1) ->
    fin (binary_normalize prec emax Hp He mode_NE z 0 false) (rnd (IZR z)).
  Proof.
    intros H. pose proof He as He'. unfold Prec_lt_emax in He'. pose proof Hp as Hp'. unfold Prec_gt_0 in Hp'.
    replace (IZR z) with (F2R (Float radix2 z 0)) by (unfold F2R; cbn; ring). apply norm_fin.
    unfold F2R. cbn [Fnum Fexp bpow]. rewrite Rmult_1_r. apply bound_Z; [exact H|lia].
  Qed.
  Lemma nearby_fin md (x : bf) a : fin x a -> fin (Bnearbyint md x) (IZR (round_mode md a)).
  Proof.
    intros [Fx Ex]. pose proof (Bnearbyint_correct prec emax _ md x) as [C1 [C2 _]].
    split; [rewrite C2; exact Fx|]. rewrite C1, Ex. apply round_FIX0.
  Qed.
  Lemma trunc_fin (x : bf) a : fin x a -> Btrunc x = Ztrunc a.
  Proof.
    intros [Fx Ex]. apply eq_IZR. rewrite Btrunc_correct, Ex; [apply round_FIX0|exact He].
  Qed.
  Lemma to_int_fin t (x : bf) a : lo t <= 0 <= hi t -> fin x a -> float_to_int t x = clampZ t (Ztrunc a).
  Proof.
    intros Ht H. pose proof (trunc_fin x a H) as Tr. destruct H as [Fx _]. unfold float_to_int, clampZ.
    destruct x; cbn in Fx; try discriminate; rewrite Tr; generalize (Ztrunc a); intros z;
      destruct (Z.ltb_spec z (lo t)); try lia; destruct (Z.ltb_spec (hi t) z); try lia.
  Qed.
  Lemma ltb_fin (x y : bf) a b : fin x a -> fin y b -> Bltb x y = Rlt_bool a b.
  Proof. intros [Fx Ex] [Fy Ey]. rewrite Bltb_correct by assumption. rewrite Ex, Ey. reflexivity. Qed.
  Lemma leb_fin (x y : bf) a b : fin x a -> fin y b -> Bleb x y = Rle_bool a b.
  Proof. intros [Fx Ex] [Fy Ey]. rewrite Bleb_correct by assumption. rewrite Ex, Ey. reflexivity. Qed.
  Lemma eqb_fin (x y : bf) a b : fin x a -> fin y b -> Beqb x y = Req_bool a b.
  Proof. intros [Fx Ex] [Fy Ey]. rewrite Beqb_correct by assumption. rewrite Ex, Ey. reflexivity. Qed.
  (** two finite floats with the same non-zero value are equal *)
  Lemma fin_inj (x y : bf) a : fin x a -> fin y a -> a <> 0%R -> x = y.
  Proof.
    intros [_ Ex] [_ Ey] Ha. apply B2R_inj; [apply is_finite_strict_B2R; congruence|apply is_finite_strict_B2R; congruence|congruence].
  Qed.
End Gen.

(** ** f32 *)
Lemma p24 : 2 ^ 24 = 16777216. Proof. reflexivity. Qed.

(** exact integers *)
Lemma of_Z_isZ z : Z.abs z <= 16777216 -> isZ (f32_of_Z z) z.
Proof.
  intros H. unfold isZ. rewrite <- (@rnd_Z 24 128 _ _ z H). apply of_Z_fin.
  assert (2 ^ 24 <= 2 ^ (128 - 1)) by (apply Z.pow_le_mono_r; lia). change (2 ^ 24) with 16777216 in *. lia.
Qed.
Lemma isZ_0 : isZ f32_0 0. Proof. split; reflexivity. Qed.
Lemma isZ_1 : isZ f32_1 1. Proof. apply of_Z_isZ. lia. Qed.

Lemma bigZ z : Z.abs z <= 16777216 -> (Rabs (IZR z) <= bpow radix2 (128 - 1))%R.
Proof.
  intros H. apply bound_Z; [|lia].
  assert (2 ^ 24 <= 2 ^ (128 - 1)) by (apply Z.pow_le_mono_r; lia). change (2 ^ 24) with 16777216 in *. lia.
Qed.
Lemma add_isZ (x y : f32) a b : isZ x a -> isZ y b -> Z.abs (a + b) <= 16777216 -> isZ (f32_add x y) (a + b).
Proof.
  intros Hx Hy H. unfold isZ. rewrite <- (@rnd_Z 24 128 _ _ (a + b) H), plus_IZR. apply add_fin; auto.
  rewrite <- plus_IZR. apply bigZ. exact H.
Qed.
Lemma sub_isZ (x y : f32) a b : isZ x a -> isZ y b -> Z.abs (a - b) <= 16777216 -> isZ (f32_sub x y) (a - b).
Proof.
  intros Hx Hy H. unfold isZ. rewrite <- (@rnd_Z 24 128 _ _ (a - b) H), minus_IZR. apply sub_fin; auto.
  rewrite <- minus_IZR. apply bigZ. exact H.
Qed.
Lemma mul_isZ (x y : f32) a b : isZ x a -> isZ y b -> Z.abs (a * b) <= 16777216 -> isZ (f32_mul x y) (a * b).
Proof.
  intros Hx Hy H. unfold isZ. rewrite <- (@rnd_Z 24 128 _ _ (a * b) H), mult_IZR. apply mul_fin; auto.
  rewrite <- mult_IZR. apply bigZ. exact H.
Qed.
Lemma neg_isZ (x : f32) a : isZ x a -> isZ (f32_neg x) (- a).
Proof. intros H. unfold isZ. rewrite opp_IZR. apply opp_fin. exact H. Qed.
Lemma abs_isZ (x : f32) a : isZ x a -> isZ (f32_abs x) (Z.abs a).
Proof. intros H. unfold isZ. rewrite abs_IZR. apply abs_fin. exact H. Qed.

Lemma rmode_Z md z : round_mode md (IZR z) = z.
Proof.
  destruct md; cbn.
  - apply Znearest_imp. rewrite Rminus_diag_eq by reflexivity. rewrite Rabs_R0. lra.
  - apply Ztrunc_IZR.
  - apply Zfloor_IZR.
  - apply Zceil_IZR.
  - apply Znearest_imp. rewrite Rminus_diag_eq by reflexivity. rewrite Rabs_R0. lra.
Qed.
Lemma nearby_isZ {prec emax} {He : Prec_lt_emax prec emax} md (x : binary_float prec emax) a :
  isZ x a -> isZ (Bnearbyint md x) a.
Proof. intros Hx. unfold isZ. pose proof (nearby_fin (He := He) md x _ Hx) as E. rewrite rmode_Z in E. exact E. Qed.
Lemma round_isZ (x : f32) a : isZ x a -> isZ (f32_round x) a. Proof. apply nearby_isZ. Qed.
Lemma floor_isZ (x : f32) a : isZ x a -> isZ (f32_floor x) a. Proof. apply nearby_isZ. Qed.
Lemma ceil_isZ (x : f32) a : isZ x a -> isZ (f32_ceil x) a. Proof. apply nearby_isZ. Qed.
Lemma to_int_isZ t (x : f32) a : isZ x a -> lo t <= a <= hi t -> lo t <= 0 <= hi t -> f32_to_int t x = a.
Proof.
  intros H Ha Ht. unfold f32_to_int. rewrite (to_int_fin t x (IZR a) Ht H), Ztrunc_IZR. unfold clampZ. lia.
Qed.
Lemma ltb_isZ (x y : f32) a b : isZ x a -> isZ y b -> f32_ltb x y = (a <? b).
Proof.
  intros Hx Hy. unfold f32_ltb. rewrite (ltb_fin x y _ _ Hx Hy).
  destruct (Rlt_bool_spec (IZR a) (IZR b)) as [H|H]; [apply lt_IZR in H|apply le_IZR in H]; lia.
Qed.
Lemma leb_isZ (x y : f32) a b : isZ x a -> isZ y b -> f32_leb x y = (a <=? b).
Proof.
  intros Hx Hy. unfold f32_leb. rewrite (leb_fin x y _ _ Hx Hy).
  destruct (Rle_bool_spec (IZR a) (IZR b)) as [H|H]; [apply le_IZR in H|apply lt_IZR in H]; lia.
Qed.
Lemma eqb_isZ (x y : f32) a b : isZ x a -> isZ y b -> f32_eqb x y = (a =? b).
Proof.
  intros Hx Hy. unfold f32_eqb. rewrite (eqb_fin x y _ _ Hx Hy).
  destruct (Req_bool_spec (IZR a) (IZR b)) as [H|H]; [apply eq_IZR in H; lia|].
  destruct (Z.eqb_spec a b) as [->|?]; [congruence|reflexivity].
Qed.
Lemma gtb_isZ (x y : f32) a b : isZ x a -> isZ y b -> f32_gtb x y = (b <? a).
Proof. intros Hx Hy. apply (ltb_isZ y x b a Hy Hx). Qed.
Lemma geb_isZ (x y : f32) a b : isZ x a -> isZ y b -> f32_geb x y = (b <=? a).
Proof. intros Hx Hy. apply (leb_isZ y x b a Hy Hx). Qed.

(** the float of an integer is determined up to the sign of zero *)
Lemma isZ_inj (x : f32) a : isZ x a -> a <> 0 -> Z.abs a <= 16777216 -> x = f32_of_Z a.
Proof.
  intros Hx Ha H. apply (fin_inj x (f32_of_Z a) (IZR a) Hx); [apply of_Z_isZ; exact H|].
  intros E. apply eq_IZR in E. lia.
Qed.
Lemma isZ_unique {prec emax} (x : binary_float prec emax) a b : isZ x a -> isZ x b -> a = b.
Proof. intros [_ E1] [_ E2]. apply eq_IZR. congruence. Qed.
