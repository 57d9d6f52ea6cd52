(** * The Lanczos kernel: reals and error analysis *)
From Coq Require Import Lra.
From Verif.Model Require Import Base Float.
From Verif.Spec Require Import FloatS SincS BsplineS ConvS ResampleS PowS.
From Verif.Proofs Require Import BaseL FloatL FloatL2 ApproxL PowL SrgbL ExpPiL GaussL ResampleL RotL.
From Flocq Require Import Core BinarySingleNaN.
Open Scope R_scope.

(** ** sin u / u *)
Definition S (u : R) : R := if Req_EM_T u 0 then 1 else sin u / u.
Lemma S_0 : S 0 = 1. Proof. unfold S. destruct (Req_EM_T 0 0); [reflexivity|congruence]. Qed.
Lemma S_n u : u <> 0 -> S u = sin u / u.
Proof. intros H. unfold S. destruct (Req_EM_T u 0); [contradiction|reflexivity]. Qed.
Lemma S_even u : S (- u) = S u.
Proof.
  destruct (Req_dec u 0) as [->|H]; [rewrite Ropp_0; reflexivity|]. rewrite !S_n by lra. rewrite sin_neg. field. exact H.
Qed.
Lemma sinc_S x : sinc_r x = S (PI * x).
Proof.
  pose proof PI_RGT_0 as P. unfold sinc_r. destruct (Req_EM_T x 0) as [->|H].
  - rewrite Rmult_0_r, S_0. reflexivity.
  - rewrite S_n; [reflexivity|]. apply Rmult_integral_contrapositive_currified; lra.
Qed.
Lemma sin_lip_le a b : a <= b -> Rabs (sin b - sin a) <= b - a.
Proof.
  intros H. destruct (Rle_lt_or_eq_dec _ _ H) as [L| ->]; [|rewrite !Rminus_diag_eq, Rabs_R0 by reflexivity; lra].
  destruct (MVT_cor2 sin cos a b L) as [c [E _]]; [intros; apply derivable_pt_lim_sin|].
  rewrite E, Rabs_mult, (Rabs_pos_eq (b - a)) by lra. rewrite <- (Rmult_1_l (b - a)) at 2.
  apply Rmult_le_compat_r; [lra|]. pose proof (COS_bound c). apply Rabs_le'; lra.
Qed.
Lemma cos_lip_le a b : a <= b -> Rabs (cos b - cos a) <= b - a.
Proof.
  intros H. destruct (Rle_lt_or_eq_dec _ _ H) as [L| ->]; [|rewrite !Rminus_diag_eq, Rabs_R0 by reflexivity; lra].
  destruct (MVT_cor2 cos (fun x => - sin x) a b L) as [c [E _]]; [intros; apply derivable_pt_lim_cos|].
  rewrite E, Rabs_mult, (Rabs_pos_eq (b - a)) by lra. rewrite <- (Rmult_1_l (b - a)) at 2.
  apply Rmult_le_compat_r; [lra|]. pose proof (SIN_bound c). apply Rabs_le'; lra.
Qed.
Lemma sin_lip a b : Rabs (sin a - sin b) <= Rabs (a - b).
Proof.
  destruct (Rle_lt_dec a b).
  - rewrite Rabs_minus_sym, (Rabs_minus_sym a), (Rabs_pos_eq (b - a)) by lra. apply sin_lip_le. assumption.
  - rewrite (Rabs_pos_eq (a - b)) by lra. apply sin_lip_le. lra.
Qed.
Lemma sin_le_abs u : Rabs (sin u) <= Rabs u.
Proof. pose proof (sin_lip u 0) as H. rewrite sin_0, !Rminus_0_r in H. exact H. Qed.
Lemma S_le1 u : Rabs (S u) <= 1.
Proof.
  destruct (Req_dec u 0) as [->|H]; [rewrite S_0, Rabs_R1; lra|]. rewrite S_n by exact H.
  unfold Rdiv. rewrite Rabs_mult, Rabs_inv.
  apply Rmult_le_reg_r with (Rabs u); [apply Rabs_pos_lt; exact H|]. rewrite Rmult_assoc, Rinv_l, Rmult_1_r, Rmult_1_l by (apply Rabs_no_R0; exact H).
  apply sin_le_abs.
Qed.
Lemma sinc_le1 x : Rabs (sinc_r x) <= 1. Proof. rewrite sinc_S. apply S_le1. Qed.
(** relative closeness *)
Lemma S_rel y u : y <> 0 -> Rabs (S y - S u) <= 2 * Rabs (y - u) / Rabs y.
Proof.
  intros Hy. assert (Py : 0 < Rabs y) by (apply Rabs_pos_lt; exact Hy).
  apply Rmult_le_reg_r with (Rabs y); [exact Py|]. unfold Rdiv. rewrite Rmult_assoc, Rinv_l, Rmult_1_r by lra.
  rewrite <- Rabs_mult. rewrite S_n by exact Hy.
  replace ((sin y / y - S u) * y) with ((sin y - sin u) + (sin u - S u * y)) by (field; exact Hy).
  eapply Rle_trans; [apply Rabs_triang|]. pose proof (sin_lip y u).
  assert (E : sin u - S u * y = S u * (u - y)).
  { destruct (Req_dec u 0) as [->|H0]; [rewrite sin_0; ring|]. rewrite (S_n u H0). field. exact H0. }
  rewrite E, Rabs_mult, (Rabs_minus_sym u y). pose proof (S_le1 u).
  assert (Rabs (S u) * Rabs (y - u) <= 1 * Rabs (y - u)) by (apply Rmult_le_compat_r; [apply Rabs_pos|assumption]). lra.
Qed.
(** near 0 *)
Lemma S_near1_pos u : 0 < u -> Rabs (S u - 1) <= u.
Proof.
  intros H. rewrite S_n by lra. destruct (MVT_cor2 sin cos 0 u H) as [c [E Hc]]; [intros; apply derivable_pt_lim_sin|].
  rewrite sin_0, !Rminus_0_r in E. rewrite E. replace (cos c * u / u - 1) with (cos c - cos 0) by (rewrite cos_0; field; lra).
  pose proof (cos_lip_le 0 c ltac:(lra)). lra.
Qed.
Lemma S_near1 u : Rabs (S u - 1) <= Rabs u.
Proof.
  destruct (Rtotal_order u 0) as [H|[->|H]].
  - rewrite <- S_even, (Rabs_left u) by exact H. apply S_near1_pos. lra.
  - rewrite S_0, Rminus_diag_eq, Rabs_R0 by reflexivity. lra.
  - rewrite (Rabs_pos_eq u) by lra. apply S_near1_pos. exact H.
Qed.
Lemma S_lip_pos u v : 0 < u -> u < v -> Rabs (S v - S u) <= v - u.
Proof.
  intros Hu Hv. rewrite !S_n by lra.
  destruct (MVT_cor2 (fun t => sin t / t) (fun t => (cos t * t - 1 * sin t) / Rsqr t) u v Hv) as [c [E Hc]].
  { intros c Hc. apply (derivable_pt_lim_div sin id c (cos c) 1); [apply derivable_pt_lim_sin|apply derivable_pt_lim_id|unfold id; lra]. }
  cbv beta in E. rewrite E, Rabs_mult, (Rabs_pos_eq (v - u)) by lra. rewrite <- (Rmult_1_l (v - u)) at 2.
  apply Rmult_le_compat_r; [lra|].
  destruct (MVT_cor2 sin cos 0 c ltac:(lra)) as [e [Ee He]]; [intros; apply derivable_pt_lim_sin|].
  rewrite sin_0, !Rminus_0_r in Ee. rewrite Ee. unfold Rsqr.
  replace ((cos c * c - 1 * (cos e * c)) / (c * c)) with ((cos c - cos e) / c) by (field; lra).
  unfold Rdiv. rewrite Rabs_mult, (Rabs_pos_eq (/ c)) by (left; apply Rinv_0_lt_compat; lra).
  apply Rmult_le_reg_r with c; [lra|]. rewrite Rmult_assoc, Rinv_l, Rmult_1_r, Rmult_1_l by lra.
  pose proof (cos_lip_le e c ltac:(lra)). lra.
Qed.
Lemma S_lip_ppos u v : 0 < u -> 0 < v -> Rabs (S u - S v) <= Rabs (u - v).
Proof.
  intros Hu Hv. destruct (Rtotal_order u v) as [H|[->|H]].
  - rewrite Rabs_minus_sym, (Rabs_minus_sym u), (Rabs_pos_eq (v - u)) by lra. apply S_lip_pos; lra.
  - rewrite !Rminus_diag_eq by reflexivity. lra.
  - rewrite (Rabs_pos_eq (u - v)) by lra. apply S_lip_pos; lra.
Qed.
Lemma S_lip u v : Rabs (S u - S v) <= Rabs (u - v).
Proof.
  assert (Opp : forall a b, a <= 0 -> 0 <= b -> Rabs (S a - S b) <= Rabs (a - b)).
  { intros a b Ha Hb. replace (S a - S b) with ((S a - 1) + - (S b - 1)) by ring. eapply Rle_trans; [apply Rabs_triang|]. rewrite Rabs_Ropp.
    pose proof (S_near1 a) as A. pose proof (S_near1 b) as B. rewrite (Rabs_left1 a) in A by exact Ha. rewrite (Rabs_pos_eq b) in B by exact Hb.
    rewrite (Rabs_left1 (a - b)) by lra. lra. }
  destruct (Rle_lt_dec u 0) as [Hu|Hu]; destruct (Rle_lt_dec v 0) as [Hv|Hv].
  - destruct (Req_dec u 0) as [->|Nu]; [rewrite Rabs_minus_sym, (Rabs_minus_sym 0); apply Opp; lra|].
    destruct (Req_dec v 0) as [->|Nv]; [apply Opp; lra|].
    rewrite <- (S_even u), <- (S_even v). replace (u - v) with (- (- u - - v)) by ring. rewrite Rabs_Ropp. apply S_lip_ppos; lra.
  - apply Opp; lra.
  - rewrite Rabs_minus_sym, (Rabs_minus_sym u). apply Opp; lra.
  - apply S_lip_ppos; assumption.
Qed.
(** a perturbation that is small against max(1, |x|) *)
Definition near (r x e : R) : Prop := Rabs (r - x) <= e * Rmax 1 (Rabs x).
Lemma S_near u v e : 0 <= e <= / 16 -> Rabs (v - PI * u) <= PI * (e * Rmax 1 (Rabs u)) -> Rabs (S v - S (PI * u)) <= 4 * e.
Proof.
  intros He H. pose proof pi_bounds as P.
  destruct (Rle_lt_dec (Rabs u) 1) as [L|L].
  - rewrite Rmax_left in H by exact L. eapply Rle_trans; [apply S_lip|]. rewrite Rmult_1_r in H.
    assert (PI * e <= 4 * e) by (apply Rmult_le_compat_r; lra). lra.
  - rewrite Rmax_right in H by lra.
    assert (Q : Rabs (PI * u) = PI * Rabs u) by (rewrite Rabs_mult, (Rabs_pos_eq PI) by lra; reflexivity).
    assert (B : PI * Rabs u - PI * (e * Rabs u) <= Rabs v).
    { pose proof (Rabs_triang_inv (PI * u) (PI * u - v)) as T. replace (PI * u - (PI * u - v)) with v in T by ring.
      rewrite (Rabs_minus_sym (PI * u) v), Q in T. lra. }
    assert (e * Rabs u <= / 16 * Rabs u) by (apply Rmult_le_compat_r; lra).
    assert (B2 : 15 / 16 * (PI * Rabs u) <= Rabs v).
    { assert (PI * (e * Rabs u) <= PI * (/ 16 * Rabs u)) by (apply Rmult_le_compat_l; lra). lra. }
    assert (Ppos : 0 < PI * Rabs u) by (apply Rmult_lt_0_compat; lra).
    assert (Nv : v <> 0) by (intros ->; rewrite Rabs_R0 in B2; lra).
    eapply Rle_trans; [apply S_rel; exact Nv|].
    apply Rmult_le_reg_r with (Rabs v); [lra|]. unfold Rdiv. rewrite Rmult_assoc, Rinv_l, Rmult_1_r by lra.
    assert (4 * e * (15 / 16 * (PI * Rabs u)) <= 4 * e * Rabs v) by (apply Rmult_le_compat_l; lra).
    assert (0 <= e * (PI * Rabs u)) by (apply Rmult_le_pos; lra). lra.
Qed.
Lemma sinc_near r x e : 0 <= e <= / 16 -> near r x e -> Rabs (sinc_r r - sinc_r x) <= 4 * e.
Proof.
  intros He H. rewrite !sinc_S. apply S_near; [exact He|]. pose proof PI_RGT_0 as P.
  replace (PI * r - PI * x) with (PI * (r - x)) by ring. rewrite Rabs_mult, (Rabs_pos_eq PI) by lra. apply Rmult_le_compat_l; [lra|exact H].
Qed.

(** ** the kernel in f32 *)
Lemma rnd_near x : near (rnd32 x) x (2 * uu).
Proof.
  unfold near. destruct (Rle_lt_dec (Rabs x) 1) as [L|L].
  - rewrite Rmax_left by exact L. pose proof (rnd_err 0 x ltac:(lia) ltac:(cbn; lra)) as H. cbn in H. unfold uu in *. lra.
  - rewrite Rmax_right by lra. rewrite <- two_uu. apply rel_err. apply Rle_trans with 1; [|lra]. change 1 with (bpow radix2 0). apply bpow_le. lia.
Qed.
Lemma pi_fin : exists q, fin f32_pi q /\ Rabs (q - PI) <= PI * uu /\ 3.14 <= q <= 3.15.
Proof.
  destruct pi_frel as [q [F H]]. exists q. split; [exact F|]. unfold rel in H. pose proof pi_bounds. split; [lra|].
  apply Rabs_bd in H. unfold uu in H. lra.
Qed.
Lemma eqb0_fin (X : f32) r : fin X r -> f32_eqb X (f32_of_Z 0) = Req_bool r 0.
Proof.
  intros F. assert (Z0 : fin (f32_of_Z 0) 0) by (apply (of_Z_isZ 0); lia).
  change (f32_eqb X (f32_of_Z 0)) with (Beqb X (f32_of_Z 0)). destruct F as [Fx <-]. destruct Z0 as [F0 E0].
  rewrite Beqb_correct by assumption. rewrite E0. reflexivity.
Qed.
Lemma ap_sinc sn (X : f32) r : sin_ok sn -> fin X r -> Rabs r <= 256 -> approx (sinc sn X) (sinc_r r) (23 * uu).
Proof.
  intros HS F Hr. unfold sinc. rewrite (eqb0_fin X r F).
  destruct (Req_bool_spec r 0) as [->|N].
  { exists 1. split; [apply (of_Z_isZ 1); lia|]. rewrite sinc_S, Rmult_0_r, S_0, Rminus_diag_eq, Rabs_R0 by reflexivity. unfold uu. lra. }
  destruct pi_fin as [q [Fq [Hq Rq]]]. pose proof pi_bounds as P.
  pose proof (Rabs_pos_lt r N) as Pr.
  assert (Aqr : Rabs (q * r) = q * Rabs r) by (rewrite Rabs_mult, (Rabs_pos_eq q) by lra; reflexivity).
  assert (Bqr : Rabs (q * r) <= 3.15 * Rabs r) by (rewrite Aqr; apply Rmult_le_compat_r; lra).
  set (y := rnd32 (q * r)).
  assert (Fy : fin (f32_mul f32_pi X) y).
  { apply mul_fin; [exact Fq|exact F|]. apply (small_bpow 10); [lia|]. cbn. lra. }
  (* y is close to pi r *)
  assert (Ny : Rabs (y - PI * r) <= PI * ((3.1 * uu) * Rmax 1 (Rabs r))).
  { pose proof (rnd_near (q * r)) as E. unfold near in E. fold y in E.
    assert (M1 : Rmax 1 (Rabs (q * r)) <= 3.15 * Rmax 1 (Rabs r)).
    { pose proof (Rmax_l 1 (Rabs r)). pose proof (Rmax_r 1 (Rabs r)). apply Rmax_lub; lra. }
    replace (y - PI * r) with ((y - q * r) + (q - PI) * r) by ring. eapply Rle_trans; [apply Rabs_triang|]. rewrite (Rabs_mult (q - PI)).
    assert (Rabs (q - PI) * Rabs r <= PI * uu * Rabs r) by (apply Rmult_le_compat_r; lra).
    pose proof (Rmax_r 1 (Rabs r)) as Mr. set (m := Rmax 1 (Rabs r)) in *.
    assert (M0 : 1 <= m) by apply Rmax_l.
    assert (2 * uu * Rmax 1 (Rabs (q * r)) <= 2 * uu * (3.15 * m)) by (apply Rmult_le_compat_l; [unfold uu; lra|exact M1]).
    assert (PI * uu * Rabs r <= PI * uu * m) by (apply Rmult_le_compat_l; [apply Rmult_le_pos; unfold uu; lra|exact Mr]).
    assert (6.3 * (uu * m) <= 2.1 * PI * (uu * m)) by (apply Rmult_le_compat_r; [apply Rmult_le_pos; unfold uu; lra|lra]).
    lra. }
  (* y is not 0 *)
  assert (Gy : Rabs r <= Rabs y).
  { assert (Gr : generic_format radix2 (SpecFloat.fexp 24 128) r) by (destruct F as [_ <-]; apply generic_format_B2R).
    assert (Ear : rnd32 (Rabs (q * r)) = Rabs y).
    { unfold y, rnd32, rnd. symmetry. change ZnearestE with (Znearest (fun x => negb (Z.even x))).
      destruct (Rle_lt_dec 0 (q * r)) as [Z|Z].
      - rewrite (Rabs_pos_eq (q * r)) by exact Z. apply Rabs_pos_eq. apply (rnd_ge_Z (prec := 24) (emax := 128) _ 0); [exact Z|cbn; lia].
      - rewrite (Rabs_left (q * r)) by exact Z. pose proof (rnd_opp (q * r)) as O. unfold rnd32, rnd in O.
        change ZnearestE with (Znearest (fun x => negb (Z.even x))) in O. rewrite O.
        apply Rabs_left1. apply (rnd_le_Z (prec := 24) (emax := 128) _ 0); [lra|cbn; lia]. }
    rewrite <- Ear. apply rnd_ge_fmt; [|apply generic_format_abs; exact Gr]. rewrite Aqr.
    rewrite <- (Rmult_1_l (Rabs r)) at 1. apply Rmult_le_compat_r; lra. }
  assert (Py : 0 < Rabs y) by lra. assert (Nz : y <> 0) by (intros E0; rewrite E0, Rabs_R0 in Py; lra).
  assert (Hy : Rabs y <= 1024).
  { replace y with (PI * r + (y - PI * r)) by ring. eapply Rle_trans; [apply Rabs_triang|]. rewrite Rabs_mult, (Rabs_pos_eq PI) by lra.
    assert (PI * Rabs r <= 3.15 * 256) by (apply Rmult_le_compat; lra).
    assert (Rmax 1 (Rabs r) <= 256) by (apply Rmax_lub; lra).
    assert (PI * (3.1 * uu * Rmax 1 (Rabs r)) <= 3.15 * (3.1 * uu * 256)).
    { apply Rmult_le_compat; [lra| |lra|]; [apply Rmult_le_pos; [unfold uu; lra|]; pose proof (Rmax_l 1 (Rabs r)); lra|].
      apply Rmult_le_compat_l; [unfold uu; lra|assumption]. }
    unfold uu in *. lra. }
  destruct (HS _ y Fy Hy) as [s [Fs Hs]].
  assert (D : Rabs (s / y - S y) <= 8 * uu).
  { rewrite (S_n y Nz). replace (s / y - sin y / y) with ((s - sin y) / y) by (field; exact Nz).
    unfold Rdiv. rewrite Rabs_mult, Rabs_inv.
    apply Rmult_le_reg_r with (Rabs y); [exact Py|]. rewrite Rmult_assoc, Rinv_l, Rmult_1_r by lra. unfold uu. lra. }
  assert (Bd : Rabs (s / y) <= 2).
  { replace (s / y) with (S y + (s / y - S y)) by ring. eapply Rle_trans; [apply Rabs_triang|]. pose proof (S_le1 y). unfold uu in D. lra. }
  eapply ap_weaken; [apply (ap_round 1 _ (s / y) _ (8 * uu + 4 * (3.1 * uu)))|].
  - apply div_fin; [exact Fs|exact Fy|exact Nz|]. apply (small_bpow 1); [lia|cbn; lra].
  - replace (s / y - sinc_r r) with ((s / y - S y) + (S y - sinc_r r)) by ring. eapply Rle_trans; [apply Rabs_triang|].
    apply Rplus_le_compat; [exact D|]. rewrite sinc_S. apply S_near; [unfold uu; lra|exact Ny].
  - lia.
  - cbn. lra.
  - cbn. unfold uu. lra.
Qed.

Lemma sin_kPI (k : Z) : sin (PI * IZR k) = 0.
Proof. rewrite Rmult_comm. apply sin_eq_0_1. exists k. reflexivity. Qed.
Lemma sinc_Z (k : Z) : (k <> 0)%Z -> sinc_r (IZR k) = 0.
Proof.
  intros H. unfold sinc_r. destruct (Req_EM_T (IZR k) 0) as [E|_]; [apply eq_IZR in E; contradiction|].
  rewrite sin_kPI. unfold Rdiv. ring.
Qed.
Lemma lanczos_le1 a x : Rabs (lanczos_r a x) <= 1.
Proof.
  unfold lanczos_r. destruct (Rlt_dec _ _); [|rewrite Rabs_R0; lra]. rewrite Rabs_mult.
  rewrite <- (Rmult_1_l 1). apply Rmult_le_compat; try apply Rabs_pos; apply sinc_le1.
Qed.
(** the kernel vanishes at the integers, except 0 *)
Lemma lanczos_Z a (k : Z) : (k <> 0)%Z -> lanczos_r a (IZR k) = 0.
Proof. intros H. unfold lanczos_r. destruct (Rlt_dec _ _); [|reflexivity]. rewrite sinc_Z by exact H. ring. Qed.
Lemma lanczos_0 a : 0 < a -> lanczos_r a 0 = 1.
Proof.
  intros H. unfold lanczos_r. rewrite Rabs_R0. destruct (Rlt_dec 0 a); [|lra]. unfold sinc_r, Rdiv. rewrite Rmult_0_l.
  destruct (Req_EM_T 0 0); [ring|lra].
Qed.
Lemma sinc_even x : sinc_r (- x) = sinc_r x.
Proof. rewrite !sinc_S. replace (PI * - x) with (- (PI * x)) by ring. apply S_even. Qed.
Lemma lanczos_even a x : lanczos_r a (- x) = lanczos_r a x.
Proof.
  unfold lanczos_r. rewrite Rabs_Ropp. destruct (Rlt_dec _ _); [|reflexivity]. unfold Rdiv.
  rewrite <- Ropp_mult_distr_l, !sinc_even. reflexivity.
Qed.

(** the f32 kernel at a rounded argument *)
Lemma ap_lanczos sn (a : Z) (X : f32) x : sin_ok sn -> (1 <= a <= 64)%Z -> fin X (rnd32 x) -> Rabs x <= IZR a ->
  approx (lanczos sn (f32_of_Z a) X) (lanczos_r (IZR a) x) (75 * uu).
Proof.
  intros HS Ha F Hx. set (r := rnd32 x) in *. set (A := IZR a) in *.
  assert (HA : 1 <= A <= 64) by (split; [apply (IZR_le 1)|apply (IZR_le a 64)]; lia).
  assert (FA : fin (f32_of_Z a) A) by (apply of_Z_isZ; lia).
  assert (Nr : near r x (2 * uu)) by apply rnd_near.
  assert (Bx : - A <= x <= A) by (apply Rabs_bd; exact Hx).
  assert (Br : - A <= r <= A).
  { unfold A. rewrite <- opp_IZR. split; [apply (rnd_ge_Z (prec := 24) (emax := 128))|apply (rnd_le_Z (prec := 24) (emax := 128))]; try (change (2 ^ 24)%Z with 16777216%Z; lia); [rewrite opp_IZR|fold A]; fold A; lra. }
  unfold lanczos.
  assert (L1 : f32_ltb (f32_neg (f32_of_Z a)) X = Rlt_bool (- A) r).
  { apply (ltb_fin (f32_neg (f32_of_Z a)) X (- A) r); [apply opp_fin; exact FA|exact F]. }
  assert (L2 : f32_ltb X (f32_of_Z a) = Rlt_bool r A) by (apply (ltb_fin X (f32_of_Z a) r A F FA)).
  rewrite L1, L2.
  assert (SX : approx (sinc sn X) (sinc_r x) (31 * uu)).
  { destruct (ap_sinc sn X r HS F) as [s [Fs Hs]]; [apply Rabs_le'; lra|]. exists s. split; [exact Fs|].
    replace (s - sinc_r x) with ((s - sinc_r r) + (sinc_r r - sinc_r x)) by ring. eapply Rle_trans; [apply Rabs_triang|].
    pose proof (sinc_near r x (2 * uu) ltac:(unfold uu; lra) Nr). lra. }
  assert (Out : r = A \/ r = - A -> Rabs (sinc_r x) <= 8 * uu).
  { intros Hr. pose proof (sinc_near r x (2 * uu) ltac:(unfold uu; lra) Nr) as E.
    assert (Z0 : sinc_r r = 0).
    { destruct Hr as [->| ->]; [|rewrite sinc_even]; apply sinc_Z; lia. }
    rewrite Z0 in E. replace (0 - sinc_r x) with (- sinc_r x) in E by ring. rewrite Rabs_Ropp in E. lra. }
  assert (Zero : approx (f32_of_Z 0) (lanczos_r A x) (75 * uu) <-> Rabs (lanczos_r A x) <= 75 * uu).
  { assert (Z0 : fin (f32_of_Z 0) 0) by (apply (of_Z_isZ 0); lia). split.
    - intros [z [Fz Hz]]. destruct Fz as [_ <-]. destruct Z0 as [_ Ez]. rewrite Ez in Hz. rewrite Rminus_0_l, Rabs_Ropp in Hz. exact Hz.
    - intros H. exists 0. split; [exact Z0|]. rewrite Rminus_0_l, Rabs_Ropp. exact H. }
  assert (Lx : r = A \/ r = - A -> Rabs (lanczos_r A x) <= 75 * uu).
  { intros Hr. specialize (Out Hr). unfold lanczos_r. destruct (Rlt_dec _ _); [|rewrite Rabs_R0; unfold uu; lra].
    rewrite Rabs_mult. pose proof (sinc_le1 (x / A)). pose proof (Rabs_pos (sinc_r x)).
    assert (Rabs (sinc_r x) * Rabs (sinc_r (x / A)) <= Rabs (sinc_r x) * 1) by (apply Rmult_le_compat_l; assumption). unfold uu in *. lra. }
  destruct (Rlt_bool_spec (- A) r) as [G1|G1]; [|cbn [andb]; apply Zero, Lx; right; lra].
  destruct (Rlt_bool_spec r A) as [G2|G2]; [|cbn [andb]; apply Zero, Lx; left; lra].
  cbn [andb].
  (* the real kernel is the product, also where x = +-a *)
  assert (E : lanczos_r A x = sinc_r x * sinc_r (x / A)).
  { unfold lanczos_r. destruct (Rlt_dec (Rabs x) A) as [_|N]; [reflexivity|].
    assert (Hxx : Rabs x = A) by lra. assert (Z0 : sinc_r x = 0).
    { unfold Rabs in Hxx. destruct (Rcase_abs x); [replace x with (- A) by lra; rewrite sinc_even|rewrite Hxx]; apply sinc_Z; lia. }
    rewrite Z0. ring. }
  rewrite E.
  set (r2 := rnd32 (r / A)).
  assert (IA : 0 < / A <= 1).
  { split; [apply Rinv_0_lt_compat; lra|]. rewrite <- Rinv_1. apply Rinv_le; lra. }
  assert (BrA : Rabs (r / A) <= 1).
  { unfold Rdiv. rewrite Rabs_mult, (Rabs_pos_eq (/ A)) by lra. apply Rmult_le_reg_r with A; [lra|]. rewrite Rmult_assoc, Rinv_l by lra.
    rewrite Rmult_1_r, Rmult_1_l. apply Rabs_le'; lra. }
  assert (F2 : fin (f32_div X (f32_of_Z a)) r2).
  { apply div_fin; [exact F|exact FA|lra|]. apply (small_bpow 0); [lia|cbn; lra]. }
  assert (N2 : near r2 (x / A) (4 * uu)).
  { unfold near. assert (E1 : Rabs (r2 - r / A) <= 1 * uu) by (apply (rnd_err 0 (r / A)); [lia|cbn; lra]).
    replace (r2 - x / A) with ((r2 - r / A) + (r - x) / A) by (field; lra). eapply Rle_trans; [apply Rabs_triang|].
    assert (T : Rabs ((r - x) / A) <= 2 * uu * Rmax 1 (Rabs (x / A))).
    { unfold Rdiv at 1. rewrite Rabs_mult, (Rabs_pos_eq (/ A)) by lra. unfold near in Nr.
      apply Rle_trans with (2 * uu * Rmax 1 (Rabs x) * / A); [apply Rmult_le_compat_r; lra|].
      rewrite Rmult_assoc. apply Rmult_le_compat_l; [unfold uu; lra|].
      rewrite Rmult_comm, <- RmaxRmult by lra. unfold Rdiv. rewrite (Rabs_mult x), (Rabs_pos_eq (/ A)) by lra.
      apply Rmax_lub; [eapply Rle_trans; [|apply Rmax_l]; lra|eapply Rle_trans; [|apply Rmax_r]; lra]. }
    pose proof (Rmax_l 1 (Rabs (x / A))) as M1. set (m := Rmax 1 (Rabs (x / A))) in *.
    assert (uu * 1 <= uu * m) by (apply Rmult_le_compat_l; [unfold uu; lra|exact M1]). 
    apply Rle_trans with (1 * uu + 2 * uu * m); [apply Rplus_le_compat; assumption|].
    assert (0 < uu) by (unfold uu; lra). clear -H H0 M1. nra. }
  assert (SX2 : approx (sinc sn (f32_div X (f32_of_Z a))) (sinc_r (x / A)) (39 * uu)).
  { destruct (ap_sinc sn _ r2 HS F2) as [s [Fs Hs]].
    { assert (Rabs r2 <= 1); [|lra]. apply Rabs_bd in BrA.
      apply Rabs_le'; [apply (rnd_ge_Z (prec := 24) (emax := 128) _ (-1))|apply (rnd_le_Z (prec := 24) (emax := 128) _ 1)]; try (cbn; lia); lra. }
    exists s. split; [exact Fs|].
    replace (s - sinc_r (x / A)) with ((s - sinc_r r2) + (sinc_r r2 - sinc_r (x / A))) by ring. eapply Rle_trans; [apply Rabs_triang|].
    pose proof (sinc_near r2 (x / A) (4 * uu) ltac:(unfold uu; lra) N2). lra. }
  apply (ap_mul 1 1 1 _ _ _ _ (31 * uu) (39 * uu) _ SX SX2); [lia|apply sinc_le1|apply sinc_le1| |]; unfold uu; cbn; lra.
Qed.
