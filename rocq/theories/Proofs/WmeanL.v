(** * Weighted means in f32: sums with a relative error, and their quotient *)
From Coq Require Import Lra.
From Verif.Model Require Import Base Float.
From Verif.Spec Require Import FloatS BsplineS FilterS PowS.
From Verif.Proofs Require Import BaseL FloatL FloatL2 ApproxL PowL SrgbL GaussL RotL.
From Flocq Require Import Core BinarySingleNaN.
Open Scope R_scope.

Lemma rnd_err_any x : Rabs (rnd32 x - x) <= 2 * uu * Rabs x + bpow radix2 (-150).
Proof.
  destruct (Rle_lt_dec (bpow radix2 (-126)) (Rabs x)) as [H|H].
  - pose proof (rel_err x H) as E. rewrite two_uu in E. pose proof (bpow_ge_0 radix2 (-150)). lra.
  - assert (0 <= 2 * uu * Rabs x) by (apply Rmult_le_pos; [unfold uu; lra|apply Rabs_pos]).
    destruct (Req_dec x 0) as [->|Hx].
    + unfold rnd32. rewrite (rnd_Z 0) by (cbn; lia). rewrite Rminus_diag_eq, Rabs_R0 by reflexivity. pose proof (bpow_ge_0 radix2 (-150)). lra.
    + assert (Rabs (rnd32 x - x) <= bpow radix2 (-150)); [|lra].
      eapply Rle_trans; [apply error_le_half_ulp; apply vexp|].
      rewrite ulp_neq_0 by exact Hx. change (/ 2) with (bpow radix2 (-1)). rewrite <- bpow_plus. apply bpow_le.
      unfold cexp. pose proof (mag_le_bpow radix2 x (-126) Hx H) as Hm. unfold SpecFloat.fexp, SpecFloat.emin. lia.
Qed.

Definition low : R := bpow radix2 (-118).
Lemma low_pos : 0 < low. Proof. apply bpow_gt_0. Qed.
Lemma low_uu x : low <= x -> bpow radix2 (-150) <= uu * x.
Proof.
  intros H. apply Rle_trans with (uu * low); [|apply Rmult_le_compat_l; [unfold uu; lra|exact H]].
  change uu with (bpow radix2 (-25)). unfold low. rewrite <- bpow_plus. apply bpow_le. lia.
Qed.

Lemma sum_over_cons {A} (a : A) l f : sum_over (a :: l) f = f a + sum_over l f. Proof. reflexivity. Qed.
Lemma sum_over_nonneg {A} (l : list A) f : (forall i, In i l -> 0 <= f i) -> 0 <= sum_over l f.
Proof.
  induction l as [|a l IH]; intros H; [cbn; lra|]. rewrite sum_over_cons.
  pose proof (H a (or_introl eq_refl)). specialize (IH (fun i Hi => H i (or_intror Hi))). lra.
Qed.

Lemma len_cons {A} (a : A) l : len (a :: l) = (len l + 1)%Z. Proof. unfold len. cbn [length]. lia. Qed.
Lemma fold_left_map {A B C} (f : A -> B -> A) (g : C -> B) l a : fold_left f (map g l) a = fold_left (fun x y => f x (g y)) l a.
Proof. revert a. induction l as [|y l IH]; intros a; [reflexivity|]. cbn [map fold_left]. apply IH. Qed.

(** a running sum of terms P i, each within tau * m * w i of s i *)
Lemma sum_wm {A} (P : A -> f32) (s w : A -> R) (m tau : R) : 1 <= m -> 0 <= tau ->
  forall l acc a om e,
  (forall i, In i l -> (w i = 0 \/ low <= w i) /\ Rabs (s i) <= m * w i /\ exists r, fin (P i) r /\ Rabs (r - s i) <= tau * (m * w i)) ->
  fin acc a -> (om = 0 \/ low <= om) -> forall st, Rabs st <= m * om -> Rabs (a - st) <= e * (m * om) -> tau <= e ->
  e + 3.2 * uu * IZR (len l) <= / 64 -> m * (om + sum_over l w) <= huge ->
  exists r, fin (fold_left (fun acc i => f32_add acc (P i)) l acc) r
    /\ Rabs (r - (st + sum_over l s)) <= (e + 3.2 * uu * IZR (len l)) * (m * (om + sum_over l w)).
Proof.
  intros Hm Htau l. induction l as [|i l IH]; intros acc a om e Hl Fa Hom st Hst Hd Hte He Hh.
  - exists a. split; [exact Fa|]. cbn [sum_over fold_right len length] in *. unfold sum_over. cbn [fold_right].
    change (len (@nil A)) with 0%Z. rewrite !Rplus_0_r, Rmult_0_r, Rplus_0_r. exact Hd.
  - cbn [fold_left]. rewrite !sum_over_cons in *. rewrite len_cons, plus_IZR in *.
    assert (L0 : 0 <= IZR (len l)) by (apply IZR_le; unfold len; lia).
    assert (U0 : 0 < uu) by (unfold uu; lra).
    destruct (Hl i (or_introl eq_refl)) as (Hw & Hs & p & Fp & Hp).
    assert (Ws : 0 <= sum_over l w).
    { apply sum_over_nonneg. intros j Hj. destruct (Hl j (or_intror Hj)) as ([->|G] & _); [lra|]. pose proof low_pos. lra. }
    pose proof low_pos as LP.
    assert (W0 : 0 <= w i) by (destruct Hw; lra). assert (O0 : 0 <= om) by (destruct Hom; lra).
    set (om' := om + w i). set (st' := st + s i).
    assert (Hom' : om' = 0 \/ low <= om') by (unfold om'; destruct Hom as [->|], Hw as [->|]; lra).
    assert (Mo : 0 <= m * om) by (apply Rmult_le_pos; lra). assert (Mw : 0 <= m * w i) by (apply Rmult_le_pos; lra).
    assert (Hst' : Rabs st' <= m * om').
    { unfold st', om'. eapply Rle_trans; [apply Rabs_triang|]. lra. }
    assert (Hd1 : Rabs (a + p - st') <= e * (m * om')).
    { unfold st', om'. replace (a + p - (st + s i)) with ((a - st) + (p - s i)) by ring. eapply Rle_trans; [apply Rabs_triang|].
      assert (tau * (m * w i) <= e * (m * w i)) by (apply Rmult_le_compat_r; lra). lra. }
    assert (E0 : e <= / 64) by (assert (0 <= 3.2 * uu * (IZR (len l) + 1)) by (apply Rmult_le_pos; [lra|lra]); lra).
    assert (Mo' : 0 <= m * om') by (unfold om'; lra).
    assert (Hap : Rabs (a + p) <= 1.02 * (m * om')).
    { replace (a + p) with (st' + (a + p - st')) by ring. eapply Rle_trans; [apply Rabs_triang|].
      assert (e * (m * om') <= / 64 * (m * om')) by (apply Rmult_le_compat_r; lra). lra. }
    assert (Hle : m * om' <= huge).
    { apply Rle_trans with (2 := Hh). apply Rmult_le_compat_l; [lra|]. unfold om'. lra. }
    assert (F' : fin (f32_add acc (P i)) (rnd32 (a + p))).
    { apply add_fin; [exact Fa|exact Fp|]. apply huge_fit. assert (0 < huge) by apply bpow_gt_0. lra. }
    assert (Hr : Rabs (rnd32 (a + p) - (a + p)) <= 3.2 * uu * (m * om')).
    { destruct Hom' as [Z0|Hlo].
      - rewrite Z0, Rmult_0_r in *. assert (a + p = 0) as -> by (apply Rabs_bd in Hap; lra).
        unfold rnd32. rewrite (rnd_Z 0) by (cbn; lia). rewrite Rminus_diag_eq, Rabs_R0 by reflexivity. lra.
      - eapply Rle_trans; [apply rnd_err_any|]. pose proof (low_uu om' Hlo) as LU.
        assert (2 * uu * Rabs (a + p) <= 2 * uu * (1.02 * (m * om'))) by (apply Rmult_le_compat_l; lra).
        assert (uu * om' <= uu * (m * om')) by (apply Rmult_le_compat_l; [lra|]; assert (1 * om' <= m * om') by (apply Rmult_le_compat_r; lra); lra).
        assert (0 <= uu * (m * om')) by (apply Rmult_le_pos; lra). lra. }
    destruct (IH (f32_add acc (P i)) (rnd32 (a + p)) om' (e + 3.2 * uu)) with (st := st') as [r [Fr Hfr]].
    + intros j Hj. apply Hl. right. exact Hj.
    + exact F'.
    + exact Hom'.
    + exact Hst'.
    + replace (rnd32 (a + p) - st') with ((rnd32 (a + p) - (a + p)) + (a + p - st')) by ring. eapply Rle_trans; [apply Rabs_triang|]. lra.
    + lra.
    + lra.
    + replace (om' + sum_over l w) with (om + (w i + sum_over l w)) by (unfold om'; ring). exact Hh.
    + exists r. split; [exact Fr|].
      replace (st + (s i + sum_over l s)) with (st' + sum_over l s) by (unfold st'; ring).
      replace (om + (w i + sum_over l w)) with (om' + sum_over l w) by (unfold om'; ring).
      replace (e + 3.2 * uu * (IZR (len l) + 1)) with (e + 3.2 * uu + 3.2 * uu * IZR (len l)) by ring. exact Hfr.
Qed.

(** the weighted mean *)
Lemma wmean {A} (W V : A -> f32) (w v : A -> R) (m t : R) (l : list A) : 1 <= m -> 0 <= t <= / 256 ->
  (forall i, In i l -> (w i = 0 \/ low <= w i) /\ frel (W i) (w i) t /\ fin (V i) (v i) /\ Rabs (v i) <= m) ->
  low <= sum_over l w -> m * sum_over l w <= huge / 4 -> m <= huge / 4 ->
  t + 4 * uu + 3.2 * uu * IZR (len l) <= / 64 ->
  exists r, fin (f32_div (weighted_sum (map (fun i => (W i, V i)) l)) (fold_left f32_add (map fst (map (fun i => (W i, V i)) l)) f32_0)) r
    /\ Rabs (r - sum_over l (fun i => w i * v i) / sum_over l w) <= 2.1 * (t + 6 * uu + 3.2 * uu * IZR (len l)) * m.
Proof.
  intros Hm Ht Hl Hlo Hhi Hmh He. set (Om := sum_over l w) in *. pose proof low_pos as LP. assert (U0 : 0 < uu) by (unfold uu; lra).
  assert (L0 : 0 <= IZR (len l)) by (apply IZR_le; unfold len; lia).
  assert (HH : 0 < huge) by apply bpow_gt_0.
  assert (F0 : fin f32_0 0) by (split; reflexivity).
  assert (W1 : forall i, In i l -> 0 <= w i) by (intros i Hi; destruct (Hl i Hi) as ([->|G] & _); lra).
  assert (Wle : forall i, In i l -> w i <= Om).
  { intros i Hi. unfold Om. clear -Hi W1. induction l as [|j l IH]; [destruct Hi|]. rewrite sum_over_cons.
    assert (0 <= sum_over l w) by (apply sum_over_nonneg; intros k Hk; apply W1; right; exact Hk).
    destruct Hi as [->|Hi]; [lra|]. specialize (IH (fun k Hk => W1 k (or_intror Hk)) Hi). pose proof (W1 j (or_introl eq_refl)). lra. }
  (* numerator *)
  destruct (sum_wm (fun i => f32_mul (W i) (V i)) (fun i => w i * v i) w m (t + 4 * uu) Hm ltac:(lra) l f32_0 0 0 (t + 4 * uu)) with (st := 0) as [N [FN HN]].
  { intros i Hi. destruct (Hl i Hi) as (Hw & [r [FW HW]] & FV & HV). pose proof (W1 i Hi) as W0. split; [exact Hw|]. split.
    - rewrite Rabs_mult, (Rabs_pos_eq (w i)) by lra. rewrite Rmult_comm. apply Rmult_le_compat_r; lra.
    - assert (Hrv : Rabs (r * v i - w i * v i) <= t * (m * w i)).
      { replace (r * v i - w i * v i) with ((r - w i) * v i) by ring. rewrite Rabs_mult. unfold rel in HW.
        replace (t * (m * w i)) with (t * w i * m) by ring. apply Rmult_le_compat; try apply Rabs_pos; lra. }
      assert (Mw : 0 <= m * w i) by (apply Rmult_le_pos; lra).
      assert (Hrb : Rabs (r * v i) <= 1.01 * (m * w i)).
      { replace (r * v i) with (w i * v i + (r * v i - w i * v i)) by ring. eapply Rle_trans; [apply Rabs_triang|].
        assert (Rabs (w i * v i) <= m * w i) by (rewrite Rabs_mult, (Rabs_pos_eq (w i)), Rmult_comm by lra; apply Rmult_le_compat_r; lra).
        assert (t * (m * w i) <= / 256 * (m * w i)) by (apply Rmult_le_compat_r; lra). lra. }
      exists (rnd32 (r * v i)). split.
      + apply mul_fin; [exact FW|exact FV|]. apply huge_fit.
        assert (m * w i <= m * Om) by (apply Rmult_le_compat_l; [lra|apply Wle; exact Hi]). lra.
      + destruct Hw as [Z0|Hwl].
        * rewrite Z0 in *. rewrite Rmult_0_r in *. assert (r * v i = 0) as -> by (apply Rabs_bd in Hrb; lra).
          unfold rnd32. rewrite (rnd_Z 0) by (cbn; lia). rewrite Rmult_0_l, Rminus_0_r, Rabs_R0. lra.
        * replace (rnd32 (r * v i) - w i * v i) with ((rnd32 (r * v i) - r * v i) + (r * v i - w i * v i)) by ring.
          eapply Rle_trans; [apply Rabs_triang|]. pose proof (rnd_err_any (r * v i)) as RE. pose proof (low_uu _ Hwl) as LU.
          assert (2 * uu * Rabs (r * v i) <= 2 * uu * (1.01 * (m * w i))) by (apply Rmult_le_compat_l; lra).
          assert (uu * w i <= uu * (m * w i)) by (apply Rmult_le_compat_l; [lra|]; assert (1 * w i <= m * w i) by (apply Rmult_le_compat_r; lra); lra).
          assert (0 <= uu * (m * w i)) by (apply Rmult_le_pos; lra). lra. }
  { exact F0. } { left; reflexivity. } { rewrite Rmult_0_r, Rabs_R0. lra. } { rewrite Rminus_diag_eq, Rabs_R0 by reflexivity. rewrite !Rmult_0_r. lra. }
  { lra. } { exact He. } { rewrite Rplus_0_l. fold Om. lra. }
  (* denominator *)
  destruct (sum_wm W w w 1 t ltac:(lra) ltac:(lra) l f32_0 0 0 t) with (st := 0) as [D [FD HD]].
  { intros i Hi. destruct (Hl i Hi) as (Hw & [r [FW HW]] & FV & HV). pose proof (W1 i Hi) as W0. split; [exact Hw|]. split.
    - rewrite Rabs_pos_eq by lra. lra.
    - exists r. split; [exact FW|]. unfold rel in HW. rewrite Rmult_1_l. exact HW. }
  { exact F0. } { left; reflexivity. } { rewrite Rmult_0_r, Rabs_R0. lra. } { rewrite Rminus_diag_eq, Rabs_R0 by reflexivity. rewrite !Rmult_0_r. lra. }
  { lra. } { lra. } { rewrite Rplus_0_l, Rmult_1_l. fold Om. assert (1 * Om <= m * Om) by (apply Rmult_le_compat_r; lra). lra. }
  rewrite ?Rplus_0_l in HN. rewrite ?Rplus_0_l in HD. fold Om in HN, HD. rewrite Rmult_1_l in HD.
  set (S := sum_over l (fun i => w i * v i)) in *. set (e := t + 4 * uu + 3.2 * uu * IZR (len l)) in *.
  assert (e0 : 0 <= e) by (unfold e; assert (0 <= 3.2 * uu * IZR (len l)) by (apply Rmult_le_pos; lra); lra).
  assert (HD' : Rabs (D - Om) <= e * Om) by (eapply Rle_trans; [exact HD|]; apply Rmult_le_compat_r; [lra|]; unfold e; lra).
  assert (DB : (1 - / 64) * Om <= D <= (1 + / 64) * Om).
  { apply Rabs_bd in HD'. assert (e * Om <= / 64 * Om) by (apply Rmult_le_compat_r; lra). lra. }
  assert (HS : Rabs S <= m * Om).
  { unfold S, Om. clear -Hl W1 Hm. induction l as [|j l IH]; [cbn; rewrite Rabs_R0; lra|]. rewrite !sum_over_cons.
    specialize (IH (fun k Hk => Hl k (or_intror Hk)) (fun k Hk => W1 k (or_intror Hk))).
    eapply Rle_trans; [apply Rabs_triang|]. destruct (Hl j (or_introl eq_refl)) as (_ & _ & _ & HV). pose proof (W1 j (or_introl eq_refl)).
    rewrite Rabs_mult, (Rabs_pos_eq (w j)) by lra. assert (w j * Rabs (v j) <= w j * m) by (apply Rmult_le_compat_l; lra). lra. }
  assert (Op : 0 < Om) by lra. assert (Dp : 0 < D) by lra.
  assert (HQ : Rabs (N / D - S / Om) <= 2.04 * e * m).
  { replace (N / D - S / Om) with (((N - S) * Om + S * (Om - D)) / (D * Om)) by (field; lra).
    unfold Rdiv. rewrite Rabs_mult, (Rabs_pos_eq (/ (D * Om))) by (left; apply Rinv_0_lt_compat; apply Rmult_lt_0_compat; lra).
    apply Rmult_le_reg_r with (D * Om); [apply Rmult_lt_0_compat; lra|]. rewrite Rmult_assoc, Rinv_l, Rmult_1_r by (apply Rmult_integral_contrapositive_currified; lra).
    eapply Rle_trans; [apply Rabs_triang|]. rewrite !Rabs_mult, (Rabs_pos_eq Om) by lra. rewrite (Rabs_minus_sym Om D).
    assert (Rabs (N - S) * Om <= e * (m * Om) * Om) by (apply Rmult_le_compat_r; lra).
    assert (Rabs S * Rabs (D - Om) <= (m * Om) * (e * Om)) by (apply Rmult_le_compat; try apply Rabs_pos; lra).
    assert (0 <= e * m * Om) by (apply Rmult_le_pos; [apply Rmult_le_pos; lra|lra]).
    assert (2.04 * (e * m * Om) * D >= 2.04 * (e * m * Om) * ((1 - / 64) * Om)) by (apply Rle_ge, Rmult_le_compat_l; lra).
    assert (0 <= e * m * Om * Om) by (apply Rmult_le_pos; lra). lra. }
  assert (HSO : Rabs (S / Om) <= m).
  { unfold Rdiv. rewrite Rabs_mult, (Rabs_pos_eq (/ Om)) by (left; apply Rinv_0_lt_compat; lra).
    apply Rmult_le_reg_r with Om; [lra|]. rewrite Rmult_assoc, Rinv_l, Rmult_1_r by lra. exact HS. }
  assert (HND : Rabs (N / D) <= 1.04 * m).
  { replace (N / D) with (S / Om + (N / D - S / Om)) by ring. eapply Rle_trans; [apply Rabs_triang|].
    assert (e * m <= / 64 * m) by (apply Rmult_le_compat_r; lra). lra. }
  exists (rnd32 (N / D)). split.
  - apply div_fin; [| |lra|apply huge_fit; lra].
    + unfold weighted_sum. rewrite fold_left_map. exact FN.
    + rewrite map_map. cbn [fst]. rewrite fold_left_map. exact FD.
  - replace (rnd32 (N / D) - S / Om) with ((rnd32 (N / D) - N / D) + (N / D - S / Om)) by ring. eapply Rle_trans; [apply Rabs_triang|].
    pose proof (rnd_err_any (N / D)) as RE.
    assert (2 * uu * Rabs (N / D) <= 2 * uu * (1.04 * m)) by (apply Rmult_le_compat_l; lra).
    assert (bpow radix2 (-150) <= uu * m) by (apply low_uu; apply Rle_trans with 1; [unfold low; change 1 with (bpow radix2 0); apply bpow_le; lia|lra]).
    replace (t + 6 * uu + 3.2 * uu * IZR (len l)) with (e + 2 * uu) by (unfold e; ring).
    assert (0 <= e * m) by (apply Rmult_le_pos; lra). assert (0 <= uu * m) by (apply Rmult_le_pos; lra). lra.
Qed.
