(** * Lemmas for rotations: monotone rounding, and truncation after a rounded subtraction of 1 *)
From Coq Require Import Lra.
From Verif.Model Require Import Base Float MathM.
From Verif.Spec Require Import FloatS.
From Verif.Proofs Require Import BaseL FloatL FloatL2 ApproxL.
From Flocq Require Import Core Sterbenz BinarySingleNaN.
Open Scope R_scope.

Notation fmt := (generic_format radix2 (SpecFloat.fexp 24 128)).
Lemma fmt_Zb z e : (Z.abs z <= 16777216)%Z -> (-149 <= e <= 90)%Z -> fmt (IZR z * bpow radix2 e).
Proof.
  intros Hz He. destruct (Z.eq_dec (Z.abs z) 16777216) as [E|E].
  - assert (fmt (16777216 * bpow radix2 e)) as F.
    { change 16777216 with (bpow radix2 24). rewrite <- bpow_plus. apply generic_format_bpow. unfold SpecFloat.fexp, SpecFloat.emin. lia. }
    assert (z = 16777216 \/ z = -16777216)%Z as [->| ->] by lia; [exact F|].
    replace (-16777216 * bpow radix2 e) with (- (16777216 * bpow radix2 e)) by lra. apply generic_format_opp. exact F.
  - apply generic_format_FLT. exists (Float radix2 z e); [reflexivity| |]; cbn [Fnum Fexp]; [cbn; lia|unfold SpecFloat.emin; lia].
Qed.
(** numbers of [0, 1/2) lose at most 2^-25 when 1 is subtracted; larger ones nothing *)
Lemma sub1_exact M : fmt M -> / 2 <= M -> M <= 16777216 -> rnd32 (M - 1) = M - 1.
Proof.
  intros F H1 H2. apply rnd_fmt. destruct (Rle_lt_dec M 2) as [L|L].
  - apply (sterbenz radix2 (SpecFloat.fexp 24 128)); [exact F|apply (fmt_Z (prec:=24) (emax:=128) 1); cbn; lia|lra].
  - (* M = mant * 2^e, 2 < M *)
    pose proof F as F'. unfold generic_format in F'. set (e := cexp radix2 (SpecFloat.fexp 24 128) M) in *. set (z := Ztrunc (scaled_mantissa radix2 (SpecFloat.fexp 24 128) M)) in *.
    unfold F2R in F'. cbn [Fnum Fexp] in F'.
    assert (Hm : (2 <= mag radix2 M <= 25)%Z).
    { split.
      - apply mag_ge_bpow. rewrite Rabs_pos_eq by lra. cbn. lra.
      - apply mag_le_bpow; [lra|]. rewrite Rabs_pos_eq by lra. apply Rle_lt_trans with 16777216; [exact H2|]. change (bpow radix2 25) with 33554432. lra. }
    assert (He : (-22 <= e <= 1)%Z).
    { unfold e, cexp, SpecFloat.fexp, SpecFloat.emin. lia. }
    destruct (Z.eq_dec e 1) as [E1|E1].
    + (* M >= 2^24 *)
      assert (M = 16777216).
      { assert (mag radix2 M = 25%Z :> Z) as Em by (unfold e, cexp, SpecFloat.fexp, SpecFloat.emin in E1; lia).
        assert (bpow radix2 (25 - 1) <= Rabs M). { rewrite <- Em. apply bpow_mag_le. lra. }
        rewrite Rabs_pos_eq in H by lra. change (bpow radix2 (25 - 1)) with 16777216 in H. lra. }
      rewrite H. replace (16777216 - 1) with (IZR 16777215) by lra. apply (fmt_Z (prec:=24) (emax:=128)). cbn. lia.
    + assert (E : 1 = IZR (2 ^ (- e)) * bpow radix2 e).
      { change (IZR (2 ^ (- e))) with (IZR (Zpower radix2 (- e))). rewrite IZR_Zpower by lia. rewrite <- bpow_plus. replace (- e + e)%Z with 0%Z by lia. reflexivity. }
      replace (M - 1) with (IZR (z - 2 ^ (- e)) * bpow radix2 e) by (rewrite minus_IZR, Rmult_minus_distr_r, <- F', <- E; reflexivity).
      apply fmt_Zb; [|lia].
      assert (P : 0 < bpow radix2 e) by apply bpow_gt_0.
      assert (Hz : (0 <= z)%Z). { apply le_IZR. apply Rmult_le_reg_r with (bpow radix2 e); [exact P|]. rewrite <- F'. lra. }
      assert (Hz2 : (z <= 16777216)%Z).
      { apply le_IZR. apply Rmult_le_reg_r with (bpow radix2 e); [exact P|]. rewrite <- F'.
        pose proof (bpow_mag_gt radix2 M) as G. rewrite Rabs_pos_eq in G by lra.
        change 16777216 with (bpow radix2 24). rewrite <- bpow_plus.
        apply Rlt_le. eapply Rlt_le_trans; [exact G|]. apply bpow_le. unfold e, cexp, SpecFloat.fexp, SpecFloat.emin. lia. }
      assert (0 < 2 ^ (- e))%Z by (apply Z.pow_pos_nonneg; lia).
      assert (2 ^ (- e) <= 2 ^ 24)%Z by (apply Z.pow_le_mono_r; lia). lia.
Qed.

(** the floor of n <= r < n + 1 in binary32 *)
Lemma rnd_at r k : (-1 <= k <= 22)%Z -> bpow radix2 k <= r < bpow radix2 (k + 1) ->
  rnd32 r = IZR (ZnearestE (r * bpow radix2 (23 - k))) * bpow radix2 (k - 23).
Proof.
  intros Hk [H1 H2]. pose proof (bpow_gt_0 radix2 k) as P. unfold rnd32, rnd, round, scaled_mantissa, cexp, F2R. cbn [Fnum Fexp].
  rewrite (mag_unique_pos radix2 r (k + 1)) by (rewrite Z.add_simpl_r; split; assumption).
  unfold SpecFloat.fexp, SpecFloat.emin. replace (Z.max (k + 1 - 24) (3 - 128 - 24)) with (k - 23)%Z by lia.
  replace (- (k - 23))%Z with (23 - k)%Z by lia. reflexivity.
Qed.
(** if the rounding of r stays below n + 1, then the rounding of r - 1 stays below n *)
Lemma below_half r n k : (0 <= k <= 22)%Z -> (2 ^ k <= n < 2 ^ (k + 1))%Z -> IZR n <= r < IZR n + 1 -> rnd32 r < IZR n + 1 ->
  r < IZR n + 1 - bpow radix2 (k - 24).
Proof.
  intros Hk Hn Hr Hlt.
  assert (Bk : bpow radix2 k <= IZR n) by (rewrite <- IZR_Zpower by lia; apply IZR_le; apply Hn).
  assert (Bk1 : IZR n + 1 <= bpow radix2 (k + 1)).
  { rewrite <- IZR_Zpower by lia. rewrite <- plus_IZR. apply IZR_le. change (Zpower radix2 (k + 1)) with (2 ^ (k + 1))%Z. lia. }
  rewrite (rnd_at r k) in Hlt by (try lia; lra).
  apply Rnot_le_lt. intros C.
  set (sc := bpow radix2 (23 - k)) in *. assert (Ps : 0 < sc) by apply bpow_gt_0.
  assert (SS : bpow radix2 (k - 23) * sc = 1) by (unfold sc; rewrite <- bpow_plus; replace (k - 23 + (23 - k))%Z with 0%Z by lia; reflexivity).
  (* N = (n+1) * sc, even *)
  set (N := ((n + 1) * 2 ^ (23 - k))%Z).
  assert (EN : IZR N = (IZR n + 1) * sc).
  { unfold N. rewrite mult_IZR, plus_IZR. f_equal. unfold sc. rewrite <- IZR_Zpower by lia. reflexivity. }
  assert (Ev : Z.even N = true).
  { unfold N. rewrite Z.even_mul. replace (23 - k)%Z with (1 + (22 - k))%Z by lia. rewrite Z.pow_add_r by lia. rewrite Z.even_mul. cbn. apply orb_true_r. }
  assert (HN : (ZnearestE (r * sc) < N)%Z).
  { apply lt_IZR. apply Rmult_lt_reg_r with (bpow radix2 (k - 23)); [apply bpow_gt_0|].
    eapply Rlt_le_trans; [exact Hlt|]. rewrite EN. rewrite Rmult_assoc, (Rmult_comm sc), SS. lra. }
  assert (Hge : IZR N - / 2 <= r * sc).
  { rewrite EN. replace (/ 2) with (bpow radix2 (k - 24) * sc).
    - rewrite <- Rmult_minus_distr_r. apply Rmult_le_compat_r; lra.
    - unfold sc. rewrite <- bpow_plus. replace (k - 24 + (23 - k))%Z with (-1)%Z by lia. reflexivity. }
  assert (Hlt2 : r * sc < IZR N) by (rewrite EN; apply Rmult_lt_compat_r; lra).
  assert (Fl : Zfloor (r * sc) = (N - 1)%Z).
  { apply Zfloor_imp. rewrite minus_IZR. replace (N - 1 + 1)%Z with N by lia. split; lra. }
  unfold Znearest in HN. rewrite Fl in HN. rewrite minus_IZR in HN.
  assert (Cl : Zceil (r * sc) = N).
  { apply Zceil_imp. rewrite minus_IZR. split; lra. }
  rewrite Cl in HN. destruct (Rcompare_spec (r * sc - (IZR N - 1)) (/ 2)) as [L|E|G]; [lra| |lia].
  assert (Z.even (N - 1) = false) as E1 by (rewrite Z.even_sub, Ev; reflexivity). rewrite E1 in HN. cbn in HN. lia.
Qed.
Lemma rnd_below z k : (-1 <= k <= 24)%Z -> z < bpow radix2 k - bpow radix2 (k - 25) -> rnd32 z < bpow radix2 k.
Proof.
  intros Hk H.
  assert (Fp : pred radix2 (SpecFloat.fexp 24 128) (bpow radix2 k) = bpow radix2 k - bpow radix2 (k - 24)).
  { rewrite pred_bpow. unfold SpecFloat.fexp, SpecFloat.emin. replace (Z.max (k - 24) (3 - 128 - 24)) with (k - 24)%Z by lia. reflexivity. }
  assert (Fb : fmt (bpow radix2 k)) by (apply generic_format_bpow; unfold SpecFloat.fexp, SpecFloat.emin; lia).
  assert (Fq : fmt (pred radix2 (SpecFloat.fexp 24 128) (bpow radix2 k))) by (apply generic_format_pred; [apply vexp|exact Fb]).
  apply Rle_lt_trans with (pred radix2 (SpecFloat.fexp 24 128) (bpow radix2 k)).
  - unfold rnd32, rnd. apply round_N_le_midp; [apply vexp|exact Fq|].
    rewrite succ_pred by (try apply vexp; exact Fb). rewrite Fp.
    replace ((bpow radix2 k - bpow radix2 (k - 24) + bpow radix2 k) / 2) with (bpow radix2 k - bpow radix2 (k - 25)); [exact H|].
    replace (k - 24)%Z with (k - 25 + 1)%Z by lia. rewrite bpow_plus. change (bpow radix2 1) with 2. field.
  - rewrite Fp. pose proof (bpow_gt_0 radix2 (k - 24)). lra.
Qed.
Lemma pow_bracket n : (1 <= n < 8388608)%Z -> exists k, (0 <= k <= 22)%Z /\ (2 ^ k <= n < 2 ^ (k + 1))%Z.
Proof.
  intros Hn. exists (Z.log2 n). pose proof (Z.log2_spec n ltac:(lia)) as H. rewrite <- Z.add_1_r in H. split; [|exact H].
  split; [apply Z.log2_nonneg|]. assert (Z.log2 n <= Z.log2 8388607)%Z by (apply Z.log2_le_mono; lia). change (Z.log2 8388607) with 22%Z in H0. exact H0.
Qed.
(** rounding r below n + 1 rounds r - 1 below n *)
Lemma sub1_below r n : (1 <= n < 8388608)%Z -> r < IZR n + 1 -> rnd32 r < IZR n + 1 -> rnd32 (r - 1) < IZR n.
Proof.
  intros Hn Hr Hlt. destruct (Rlt_le_dec r (IZR n)) as [L|G].
  - apply Rle_lt_trans with (IZR (n - 1)); [|apply IZR_lt; lia]. apply rnd_le_Z; [rewrite minus_IZR; lra|cbn; lia].
  - destruct (pow_bracket n Hn) as [k [Hk Bk]]. pose proof (below_half r n k Hk Bk (conj G Hr) Hlt) as B.
    assert (Ek : IZR (2 ^ k) = bpow radix2 k) by (apply (IZR_Zpower radix2); lia).
    destruct (Z.eq_dec n (2 ^ k)) as [E|E].
    + rewrite E, Ek in *. apply rnd_below; [lia|]. replace (k - 24)%Z with (k - 25 + 1)%Z in B by lia. rewrite bpow_plus in B. change (bpow radix2 1) with 2 in B.
      pose proof (bpow_gt_0 radix2 (k - 25)). lra.
    + destruct (Rlt_le_dec (r - 1) (bpow radix2 k)) as [L2|G2].
      * apply Rle_lt_trans with (IZR (2 ^ k)); [|apply IZR_lt; lia]. apply rnd_le_Z; [rewrite Ek; lra|].
        assert (0 < 2 ^ k)%Z by (apply Z.pow_pos_nonneg; lia). change (2 ^ 24)%Z with 16777216%Z. lia.
      * assert (Bk1 : IZR n + 1 <= bpow radix2 (k + 1)).
        { rewrite <- IZR_Zpower by lia. rewrite <- plus_IZR. apply IZR_le. change (Zpower radix2 (k + 1)) with (2 ^ (k + 1))%Z. lia. }
        rewrite (rnd_at (r - 1) k) by (try lia; lra).
        set (sc := bpow radix2 (23 - k)) in *. assert (Ps : 0 < sc) by apply bpow_gt_0.
        assert (SS : bpow radix2 (k - 23) * sc = 1) by (unfold sc; rewrite <- bpow_plus; replace (k - 23 + (23 - k))%Z with 0%Z by lia; reflexivity).
        assert (ES : IZR (2 ^ (23 - k)) = sc) by (apply (IZR_Zpower radix2); lia).
        assert (HN : (ZnearestE ((r - 1) * sc) <= n * 2 ^ (23 - k) - 1)%Z).
        { rewrite <- (Znearest_imp (fun x => negb (Z.even x)) (IZR (n * 2 ^ (23 - k) - 1)) (n * 2 ^ (23 - k) - 1)) by (rewrite Rminus_diag_eq, Rabs_R0 by reflexivity; lra).
          destruct (Rle_lt_dec ((r - 1) * sc) (IZR (n * 2 ^ (23 - k) - 1))) as [C|C]; [apply (@Zrnd_le (Znearest (fun x => negb (Z.even x))) (valid_rnd_N _)); exact C|].
          apply Zeq_le. rewrite (Znearest_imp _ _ (n * 2 ^ (23 - k) - 1)); [symmetry; apply Znearest_imp; rewrite Rminus_diag_eq, Rabs_R0 by reflexivity; lra|].
          rewrite Rabs_pos_eq by lra. rewrite minus_IZR, mult_IZR, ES.
          assert ((r - 1) * sc < (IZR n - bpow radix2 (k - 24)) * sc) by (apply Rmult_lt_compat_r; lra).
          replace ((IZR n - bpow radix2 (k - 24)) * sc) with (IZR n * sc - / 2) in H; [lra|].
          rewrite Rmult_minus_distr_r. f_equal. unfold sc. rewrite <- bpow_plus. replace (k - 24 + (23 - k))%Z with (-1)%Z by lia. reflexivity. }
        apply Rle_lt_trans with (IZR (n * 2 ^ (23 - k) - 1) * bpow radix2 (k - 23)).
        -- apply Rmult_le_compat_r; [apply bpow_ge_0|apply IZR_le; exact HN].
        -- rewrite minus_IZR, mult_IZR, ES, Rmult_minus_distr_r, Rmult_assoc, (Rmult_comm sc), SS. pose proof (bpow_gt_0 radix2 (k - 23)). lra.
Qed.
(** the largest column that rotate writes to lies inside the image *)
Lemma coord_lt M m : fmt M -> 0 <= M -> 0 <= m -> 1 <= M + m <= 8388606 -> (M < / 2 -> M + m < 2.99) ->
  rnd32 (m + rnd32 (M - 1)) < IZR (Zfloor (rnd32 (M + m))).
Proof.
  intros FM HM Hm Hr Hs. set (r := M + m) in *. set (n := Zfloor (rnd32 r)).
  assert (B1 : 1 <= rnd32 r) by (apply (rnd_ge_Z r 1); [lra|cbn; lia]).
  assert (B2 : rnd32 r <= 8388606) by (apply (rnd_le_Z r 8388606); [lra|cbn; lia]).
  assert (Hn : (1 <= n <= 8388606)%Z).
  { split; [apply Zfloor_lub; exact B1|]. apply le_IZR. eapply Rle_trans; [apply Zfloor_lb|exact B2]. }
  pose proof (Zfloor_lb (rnd32 r)) as L1. pose proof (Zfloor_ub (rnd32 r)) as L2. fold n in L1, L2.
  assert (Hrn : r < IZR n + 1).
  { apply Rnot_le_lt. intros C. assert (IZR (n + 1) <= rnd32 r) by (apply rnd_ge_Z; [rewrite plus_IZR; lra|cbn; lia]). rewrite plus_IZR in H. lra. }
  destruct (Rle_lt_dec (/ 2) M) as [H2|H2].
  - rewrite (sub1_exact M FM H2) by (unfold r in *; lra). replace (m + (M - 1)) with (r - 1) by (unfold r; ring).
    apply sub1_below; [lia|exact Hrn|exact L2].
  - specialize (Hs H2).
    assert (D : Rabs (rnd32 (M - 1) - (M - 1)) <= uu).
    { replace uu with (IZR (2 ^ 0) * uu) by (cbn; lra). apply rnd_err; [lia|]. change (IZR (2 ^ 0)) with 1. apply Rabs_le'; lra. }
    apply Rabs_bd in D.
    assert (B3 : rnd32 r < 3).
    { assert (E : Rabs (rnd32 r - r) <= IZR (2 ^ 2) * uu) by (apply rnd_err; [lia|]; change (IZR (2 ^ 2)) with 4; apply Rabs_le'; lra).
      change (IZR (2 ^ 2)) with 4 in E. apply Rabs_bd in E. unfold uu in E. lra. }
    assert (n = 1 \/ n = 2)%Z as En.
    { assert (n < 3)%Z by (apply lt_IZR; lra). lia. }
    assert (Hz : m + rnd32 (M - 1) < IZR n - bpow radix2 (Z.log2 n - 25)).
    { destruct (Rle_lt_dec (IZR n) r) as [G|L].
      - pose proof (below_half r n (Z.log2 n)) as B.
        destruct En as [E|E]; rewrite E in *; cbn [Z.log2] in *; specialize (B ltac:(cbn; lia) ltac:(cbn; lia) (conj G Hrn) L2); cbn in B |- *; unfold uu, r in *; lra.
      - destruct En as [E|E]; rewrite E in *; cbn in L |- *; unfold uu, r in *; lra. }
    destruct En as [E|E]; rewrite E in *; cbn [Z.log2] in Hz.
    + apply (rnd_below _ 0); [lia|exact Hz].
    + apply (rnd_below _ 1); [lia|exact Hz].
Qed.

(** ** one row of a matrix times a vector *)
Definition T (m0 m1 a b : R) : R := rnd32 (rnd32 (m0 * a) + rnd32 (m1 * b)).
Lemma rnd_0 : rnd32 0 = 0. Proof. apply (rnd_Z 0). cbn. lia. Qed.
Lemma rnd_rnd x : rnd32 (rnd32 x) = rnd32 x.
Proof. apply rnd_fmt. unfold rnd32, rnd. apply generic_format_round; [apply vexp|apply valid_rnd_N]. Qed.
Lemma rnd_opp' x : rnd32 (- x) = - rnd32 x.
Proof. unfold rnd32, rnd. apply round_NE_opp. Qed.
Lemma T_opp m0 m1 a b : T m0 m1 (- a) (- b) = - T m0 m1 a b.
Proof. unfold T. rewrite !Ropp_mult_distr_r_reverse, !rnd_opp', <- Ropp_plus_distr, rnd_opp'. reflexivity. Qed.
Lemma T_le m0 m1 a b a' b' : m0 * a <= m0 * a' -> m1 * b <= m1 * b' -> T m0 m1 a b <= T m0 m1 a' b'.
Proof. intros H1 H2. unfold T. apply rnd_le. apply Rplus_le_compat; apply rnd_le; assumption. Qed.
Lemma T_0 m0 m1 : T m0 m1 0 0 = 0.
Proof. unfold T. rewrite !Rmult_0_r, !rnd_0, Rplus_0_r. apply rnd_0. Qed.
Lemma box_le m0 m1 a1 a2 b1 b2 M a b : a1 <= a <= a2 -> b1 <= b <= b2 ->
  T m0 m1 a1 b1 <= M -> T m0 m1 a2 b1 <= M -> T m0 m1 a1 b2 <= M -> T m0 m1 a2 b2 <= M -> T m0 m1 a b <= M.
Proof.
  intros Ha Hb H1 H2 H3 H4.
  destruct (Rle_lt_dec 0 m0), (Rle_lt_dec 0 m1);
    [eapply Rle_trans; [|exact H4]|eapply Rle_trans; [|exact H2]|eapply Rle_trans; [|exact H3]|eapply Rle_trans; [|exact H1]]; apply T_le; nra.
Qed.
Lemma box_ge m0 m1 a1 a2 b1 b2 M a b : a1 <= a <= a2 -> b1 <= b <= b2 ->
  M <= T m0 m1 a1 b1 -> M <= T m0 m1 a2 b1 -> M <= T m0 m1 a1 b2 -> M <= T m0 m1 a2 b2 -> M <= T m0 m1 a b.
Proof.
  intros Ha Hb H1 H2 H3 H4.
  destruct (Rle_lt_dec 0 m0), (Rle_lt_dec 0 m1);
    [eapply Rle_trans; [exact H1|]|eapply Rle_trans; [exact H3|]|eapply Rle_trans; [exact H2|]|eapply Rle_trans; [exact H4|]]; apply T_le; nra.
Qed.
Lemma unit_mul m a K : Rabs m <= 1 -> Rabs a <= K -> Rabs (m * a) <= K.
Proof. intros Hm Ha. rewrite Rabs_mult. pose proof (Rabs_pos m). pose proof (Rabs_pos a). apply Rle_trans with (1 * Rabs a); [apply Rmult_le_compat_r; lra|lra]. Qed.
Lemma T_err k m0 m1 a b : (0 <= k <= 24)%Z -> Rabs m0 <= 1 -> Rabs m1 <= 1 -> Rabs a + Rabs b <= IZR (2 ^ k) ->
  Rabs (T m0 m1 a b - (m0 * a + m1 * b)) <= 4 * IZR (2 ^ k) * uu.
Proof.
  intros Hk H0 H1 Hab. set (K := IZR (2 ^ k)) in *. pose proof (Rabs_pos a). pose proof (Rabs_pos b).
  assert (HK : 0 <= K) by lra.
  pose proof (unit_mul m0 a (Rabs a) H0 ltac:(lra)) as A1. pose proof (unit_mul m1 b (Rabs b) H1 ltac:(lra)) as B1.
  pose proof (rnd_err k (m0 * a) ltac:(lia) ltac:(fold K; lra)) as E1. pose proof (rnd_err k (m1 * b) ltac:(lia) ltac:(fold K; lra)) as E2.
  fold K in E1, E2. unfold T. set (s := rnd32 (m0 * a) + rnd32 (m1 * b)).
  assert (Es : Rabs (s - (m0 * a + m1 * b)) <= 2 * K * uu).
  { unfold s. replace (rnd32 (m0 * a) + rnd32 (m1 * b) - (m0 * a + m1 * b)) with ((rnd32 (m0 * a) - m0 * a) + (rnd32 (m1 * b) - m1 * b)) by ring.
    eapply Rle_trans; [apply Rabs_triang|]. lra. }
  assert (Bs : Rabs s <= IZR (2 ^ (k + 1))).
  { rewrite Z.pow_add_r, mult_IZR by lia. fold K. change (IZR (2 ^ 1)) with 2.
    replace s with ((s - (m0 * a + m1 * b)) + (m0 * a + m1 * b)) by ring. eapply Rle_trans; [apply Rabs_triang|].
    pose proof (Rabs_triang (m0 * a) (m1 * b)). unfold uu in Es. lra. }
  pose proof (rnd_err (k + 1) s ltac:(lia) Bs) as E3. rewrite Z.pow_add_r, mult_IZR in E3 by lia. fold K in E3. change (IZR (2 ^ 1)) with 2 in E3.
  replace (rnd32 s - (m0 * a + m1 * b)) with ((rnd32 s - s) + (s - (m0 * a + m1 * b))) by ring.
  eapply Rle_trans; [apply Rabs_triang|]. lra.
Qed.
Lemma row_fin (m0 m1 a b : f32) c0 c1 x y : fin m0 c0 -> fin m1 c1 -> fin a x -> fin b y ->
  Rabs c0 <= 1 -> Rabs c1 <= 1 -> Rabs x + Rabs y <= 16777216 ->
  fin (f32_add (f32_add f32_0 (f32_mul m0 a)) (f32_mul m1 b)) (T c0 c1 x y).
Proof.
  intros F0 F1 Fa Fb H0 H1 Hxy. pose proof (Rabs_pos x). pose proof (Rabs_pos y).
  change 16777216 with (IZR (2 ^ 24)) in Hxy.
  assert (Fm0 : fin (f32_mul m0 a) (rnd32 (c0 * x))).
  { apply mul_fin; [exact F0|exact Fa|]. apply (small_bpow 24); [lia|]. apply (unit_mul c0 x); [exact H0|lra]. }
  assert (Fm1 : fin (f32_mul m1 b) (rnd32 (c1 * y))).
  { apply mul_fin; [exact F1|exact Fb|]. apply (small_bpow 24); [lia|]. apply (unit_mul c1 y); [exact H1|lra]. }
  pose proof (rnd_err 24 (c0 * x) ltac:(lia) ltac:(apply (unit_mul c0 x); [exact H0|lra])) as E1.
  pose proof (rnd_err 24 (c1 * y) ltac:(lia) ltac:(apply (unit_mul c1 y); [exact H1|lra])) as E2.
  pose proof (unit_mul c0 x _ H0 (Rle_refl _)) as U0. pose proof (unit_mul c1 y _ H1 (Rle_refl _)) as U1.
  assert (B0 : Rabs (rnd32 (c0 * x)) <= Rabs x + 1).
  { replace (rnd32 (c0 * x)) with ((rnd32 (c0 * x) - c0 * x) + c0 * x) by ring. eapply Rle_trans; [apply Rabs_triang|]. unfold uu in E1. change (IZR (2 ^ 24)) with 16777216 in E1. lra. }
  assert (B1 : Rabs (rnd32 (c1 * y)) <= Rabs y + 1).
  { replace (rnd32 (c1 * y)) with ((rnd32 (c1 * y) - c1 * y) + c1 * y) by ring. eapply Rle_trans; [apply Rabs_triang|]. unfold uu in E2. change (IZR (2 ^ 24)) with 16777216 in E2. lra. }
  change (IZR (2 ^ 24)) with 16777216 in *.
  assert (Fs : fin (f32_add f32_0 (f32_mul m0 a)) (rnd32 (c0 * x))).
  { rewrite <- rnd_rnd. replace (rnd32 (c0 * x)) with (0 + rnd32 (c0 * x)) at 1 by ring. apply add_fin; [apply (of_Z_isZ 0); lia|exact Fm0|].
    rewrite Rplus_0_l. apply (small_bpow 25); [lia|]. change (IZR (2 ^ 25)) with 33554432. lra. }
  apply add_fin; [exact Fs|exact Fm1|]. apply (small_bpow 25); [lia|]. change (IZR (2 ^ 25)) with 33554432.
  eapply Rle_trans; [apply Rabs_triang|]. lra.
Qed.
Lemma gtb_fin (x y : f32) a b : fin x a -> fin y b -> f32_gtb x y = Rlt_bool b a.
Proof. intros Hx Hy. unfold f32_gtb. apply ltb_fin; assumption. Qed.
Lemma max_4_fin (a b c d : f32) x y z w : fin a x -> fin b y -> fin c z -> fin d w ->
  exists M, fin (max_4 a b c d) M /\ x <= M /\ y <= M /\ z <= M /\ w <= M /\ (M = x \/ M = y \/ M = z \/ M = w).
Proof.
  intros Ha Hb Hc Hd. unfold max_4, max_3.
  rewrite ?(gtb_fin a b x y Ha Hb), ?(gtb_fin b c y z Hb Hc), ?(gtb_fin c d z w Hc Hd), ?(gtb_fin a c x z Ha Hc),
    ?(gtb_fin a d x w Ha Hd), ?(gtb_fin b d y w Hb Hd).
  repeat match goal with |- context [Rlt_bool ?u ?v] => destruct (Rlt_bool_spec u v) end;
    match goal with |- exists M, fin ?f M /\ _ => match goal with H : fin f ?n |- _ => exists n; repeat split; try lra; try apply H end end.
  all: auto.
Qed.
Lemma min_4_fin (a b c d : f32) x y z w : fin a x -> fin b y -> fin c z -> fin d w ->
  exists M, fin (min_4 a b c d) M /\ M <= x /\ M <= y /\ M <= z /\ M <= w /\ (M = x \/ M = y \/ M = z \/ M = w).
Proof.
  intros Ha Hb Hc Hd. unfold min_4, min_3. unfold f32_ltb.
  rewrite ?(ltb_fin a b x y Ha Hb), ?(ltb_fin b c y z Hb Hc), ?(ltb_fin c d z w Hc Hd), ?(ltb_fin a c x z Ha Hc),
    ?(ltb_fin a d x w Ha Hd), ?(ltb_fin b d y w Hb Hd).
  repeat match goal with |- context [Rlt_bool ?u ?v] => destruct (Rlt_bool_spec u v) end;
    match goal with |- exists M, fin ?f M /\ _ => match goal with H : fin f ?n |- _ => exists n; repeat split; try lra; try apply H end end.
  all: auto.
Qed.
