(** * Error analysis of powers *)
From Coq Require Import Lra.
From Verif.Model Require Import Base Float.
From Verif.Spec Require Import FloatS PowS.
From Verif.Proofs Require Import BaseL FloatL FloatL2 ApproxL.
From Flocq Require Import Core BinarySingleNaN.
Open Scope R_scope.

(** ** the value of a constant *)
Lemma const_fin (X : f32) s m e : B2SF X = SpecFloat.S754_finite s m (Zneg e) ->
  fin X (IZR (cond_Zopp s (Zpos m)) / IZR (2 ^ Zpos e)).
Proof.
  intros H. split.
  - rewrite <- is_finite_SF_B2SF, H. reflexivity.
  - rewrite <- (SF2R_B2SF 24 128 X), H. reflexivity.

Qed.
(** the f32 constant X is within e of the real x *)
Ltac const_ap := match goal with
  | |- approx ?X ?x ?e =>
    let v := eval vm_compute in (B2SF X) in
    match v with SpecFloat.S754_finite ?s ?m (Zneg ?p) =>
      let H := fresh in
      assert (H : B2SF X = SpecFloat.S754_finite s m (Zneg p)) by (vm_compute; reflexivity);
      let z := eval vm_compute in (cond_Zopp s (Zpos m)) in
      let d := eval vm_compute in (2 ^ Zpos p)%Z in
      exists (IZR z / IZR d); split; [exact (const_fin X s m p H)|unfold uu; apply Rabs_le'; lra]
    end end.
Example const_ap_example : approx (f32_dec 22 1) 2.2 (2 * uu). Proof. const_ap. Qed.

(** ** real powers *)
Lemma Rpower_pos x y : 0 < Rpower x y. Proof. apply exp_pos. Qed.
Lemma Rpower_3 x : 0 < x -> Rpower x 3 = x ^ 3.
Proof. intros H. rewrite <- (Rpower_pow 3 x H). f_equal. cbn. ring. Qed.
Lemma Rpower_ge_1 x s : 1 <= x -> 0 <= s -> 1 <= Rpower x s.
Proof. intros Hx Hs. rewrite <- (Rpower_O x) by lra. apply Rle_Rpower; lra. Qed.
Lemma Rpower_inv x s : 0 < x -> Rpower (/ x) s = / Rpower x s.
Proof. intros H. unfold Rpower. rewrite ln_Rinv by exact H. rewrite <- exp_Ropp. f_equal. ring. Qed.
Lemma Rpower_le_1 x s : 0 < x <= 1 -> 0 <= s -> Rpower x s <= 1.
Proof.
  intros Hx Hs. rewrite <- (Rinv_inv x). rewrite Rpower_inv by (apply Rinv_0_lt_compat; lra).
  rewrite <- Rinv_1. apply Rinv_le_contravar; [lra|]. apply Rpower_ge_1; [|exact Hs].
  rewrite <- Rinv_1. apply Rinv_le_contravar; lra.
Qed.
(** smaller exponents give larger powers of bases below 1 *)
Lemma Rpower_antitone x a b : 0 < x <= 1 -> a <= b -> Rpower x b <= Rpower x a.
Proof.
  intros Hx Hab. replace b with (a + (b - a)) by ring. rewrite Rpower_plus. rewrite <- (Rmult_1_r (Rpower x a)) at 2.
  apply Rmult_le_compat_l; [left; apply Rpower_pos|]. apply Rpower_le_1; lra.
Qed.

Lemma Rpower_near t s : Rabs t <= / 64 -> 0 <= s <= 3 -> Rabs (Rpower (1 + t) s - 1) <= 4 * Rabs t.
Proof.
  intros Ht Hs. pose proof (Rabs_bd _ _ Ht) as Hb. destruct (Rle_lt_dec 0 t) as [P|N].
  - rewrite (Rabs_pos_eq t P) in *. pose proof (Rpower_ge_1 (1 + t) s ltac:(lra) ltac:(lra)).
    rewrite Rabs_pos_eq by lra.
    assert (Rpower (1 + t) s <= (1 + t) ^ 3) by (rewrite <- Rpower_3 by lra; apply Rle_Rpower; lra).
    assert ((1 + t) ^ 3 = 1 + 3 * t + t * (3 * t + t * t)) by ring.
    assert (t * t <= t) by (rewrite <- (Rmult_1_l t) at 3; apply Rmult_le_compat_r; lra).
    assert (t * (3 * t + t * t) <= t * 1) by (apply Rmult_le_compat_l; lra). lra.
  - rewrite (Rabs_left t N) in *. pose proof (Rpower_le_1 (1 + t) s ltac:(lra) ltac:(lra)).
    assert ((1 + t) ^ 3 <= Rpower (1 + t) s) by (rewrite <- Rpower_3 by lra; apply Rpower_antitone; lra).
    assert ((1 + t) ^ 3 = 1 + 3 * t + t * t * (3 + t)) by ring.
    assert (0 <= t * t * (3 + t)) by (apply Rmult_le_pos; [apply Rle_0_sqr|lra]).
    rewrite Rabs_left1 by lra. lra.
Qed.
Lemma exp_near u : Rabs u <= / 2 -> Rabs (exp u - 1) <= 2 * Rabs u.
Proof.
  intros Hu. pose proof (Rabs_bd _ _ Hu) as Hb.
  assert (L : 1 + u <= exp u) by apply exp_ineq1_le.
  assert (U : exp u <= / (1 - u)).
  { rewrite <- (Rinv_inv (exp u)), <- exp_Ropp. apply Rinv_le_contravar; [lra|]. pose proof (exp_ineq1_le (- u)). lra. }
  assert (D : / (1 - u) - 1 = u / (1 - u)) by (field; lra).
  destruct (Rle_lt_dec 0 u) as [P|N].
  - rewrite (Rabs_pos_eq u P) in *. rewrite Rabs_pos_eq by lra.
    assert (u / (1 - u) <= u * 2). { apply Rmult_le_compat_l; [exact P|]. replace 2 with (/ / 2) by field. apply Rinv_le_contravar; lra. }
    lra.
  - rewrite (Rabs_left u N) in *. assert (/ (1 - u) <= 1) by (rewrite <- Rinv_1; apply Rinv_le_contravar; lra).
    rewrite Rabs_left1 by lra. lra.
Qed.
Lemma ln_bound x : / 1024 <= x <= 2 -> Rabs (ln x) <= 10.
Proof.
  intros H. assert (E1 : 2 <= exp 1) by (pose proof (exp_ineq1_le 1); lra).
  assert (E10 : 1024 <= exp 10).
  { replace 10 with (1+1+1+1+1+1+1+1+1+1) by ring. rewrite !exp_plus.
    set (e := exp 1) in *. assert (e2 : 4 <= e * e) by (replace 4 with (2 * 2) by ring; apply Rmult_le_compat; lra).
    replace (e * e * e * e * e * e * e * e * e * e) with ((e * e) * (e * e) * ((e * e) * (e * e)) * (e * e)) by ring.
    set (f := e * e) in *. clearbody f. assert (f4 : 16 <= f * f) by (replace 16 with (4 * 4) by ring; apply Rmult_le_compat; lra).
    set (g := f * f) in *. clearbody g. assert (256 <= g * g) by (replace 256 with (16 * 16) by ring; apply Rmult_le_compat; lra).
    replace 1024 with (256 * 4) by ring. apply Rmult_le_compat; lra. }
  apply Rabs_le'.
  - rewrite <- (ln_exp (Ropp 10)). destruct (Rle_lt_dec x (exp (Ropp 10))) as [L|L].
    + right. f_equal. apply Rle_antisym; [|exact L]. rewrite exp_Ropp.
      apply Rle_trans with (/ 1024); [apply Rinv_le_contravar; lra|lra].
    + left. apply ln_increasing; [apply exp_pos|exact L].
  - rewrite <- (ln_exp 10). left. apply ln_increasing; lra.
Qed.
Lemma Rpower_exponent x s s' e : / 1024 <= x <= 2 -> Rabs (s' - s) <= e -> e <= / 20 ->
  Rabs (Rpower x s' - Rpower x s) <= Rpower x s * (20 * e).
Proof.
  intros Hx Hs He. replace s' with (s + (s' - s)) by ring. rewrite Rpower_plus.
  replace (Rpower x s * Rpower x (s' - s) - Rpower x s) with (Rpower x s * (Rpower x (s' - s) - 1)) by ring.
  rewrite Rabs_mult, (Rabs_pos_eq (Rpower x s)) by (left; apply Rpower_pos).
  apply Rmult_le_compat_l; [left; apply Rpower_pos|]. unfold Rpower. replace (s' - s) with (s' - s) in * by ring.
  pose proof (ln_bound x Hx) as Hl.
  assert (B : Rabs ((s' - s) * ln x) <= e * 10). { rewrite Rabs_mult. apply Rmult_le_compat; try apply Rabs_pos; assumption. }
  eapply Rle_trans; [apply exp_near; lra|]. lra.
Qed.

(** relative error *)
Definition rel (q x t : R) : Prop := Rabs (q - x) <= t * x.

Lemma rel_factor q x t : 0 < x -> rel q x t -> exists d, q = x * (1 + d) /\ Rabs d <= t.
Proof.
  intros Hx H. exists (q / x - 1). split; [field; lra|]. unfold rel in H.
  replace (q / x - 1) with ((q - x) / x) by (field; lra). unfold Rdiv. rewrite Rabs_mult, (Rabs_pos_eq (/ x)) by (left; apply Rinv_0_lt_compat; exact Hx).
  apply Rmult_le_reg_r with x; [exact Hx|]. rewrite Rmult_assoc, Rinv_l, Rmult_1_r by lra. exact H.
Qed.
Lemma factor_rel q x d t : 0 < x -> q = x * (1 + d) -> Rabs d <= t -> rel q x t.
Proof.
  intros Hx -> H. unfold rel. replace (x * (1 + d) - x) with (d * x) by ring. rewrite Rabs_mult, (Rabs_pos_eq x) by lra.
  apply Rmult_le_compat_r; lra.
Qed.

(** the computed power against the exact power of the exact base and exponent *)
Lemma pow_rel pow (X Y : f32) x y t e r s : pow_ok pow -> fin X r -> fin Y s ->
  rel r x t -> Rabs (s - y) <= e -> / 512 <= x <= 3 / 2 -> t <= / 64 -> e <= / 1024 -> / 16 <= y <= 3 -> s <= 3 ->
  exists q, fin (pow X Y) q /\ rel q (Rpower x y) (33 * uu + 5 * t + 22 * e).
Proof.
  intros HP FX FY Hr Hs Hx Ht He Hy Hs3. pose proof (Rabs_bd _ _ Hs) as Hsb.
  destruct (rel_factor r x t ltac:(lra) Hr) as [d [-> Hd]]. pose proof (Rabs_pos d). pose proof (Rabs_pos (s - y)).
  pose proof (Rabs_bd _ _ Hd) as Hdb.
  assert (Hxd : x - x / 64 <= x * (1 + d) <= x + x / 64).
  { assert (Hp : Rabs (x * d) <= x * / 64) by (rewrite Rabs_mult, (Rabs_pos_eq x) by lra; apply Rmult_le_compat_l; lra).
    apply Rabs_bd in Hp. lra. }
  destruct (HP X Y (x * (1 + d)) s FX FY) as [q [Fq Hq]]; [lra|lra|].
  exists q. split; [exact Fq|].
  assert (Ps : 0 < Rpower (x * (1 + d)) s) by apply Rpower_pos.
  assert (R1 : rel q (Rpower (x * (1 + d)) s) (/ 1048576)) by (unfold rel; lra).
  destruct (rel_factor _ _ _ Ps R1) as [d1 [-> Hd1]].
  rewrite <- Rpower_mult_distr by lra.
  assert (P2 : Rabs (Rpower (1 + d) s - 1) <= 4 * t).
  { eapply Rle_trans; [apply Rpower_near; lra|]. lra. }
  assert (P3 : rel (Rpower x s) (Rpower x y) (20 * e)).
  { unfold rel. rewrite Rmult_comm. apply Rpower_exponent; lra. }
  assert (Py : 0 < Rpower x y) by apply Rpower_pos.
  destruct (rel_factor _ _ _ Py P3) as [d3 [-> Hd3]].
  set (d2 := Rpower (1 + d) s - 1) in *. replace (Rpower (1 + d) s) with (1 + d2) by (unfold d2; ring). clearbody d2.
  apply (factor_rel _ _ ((1 + d3) * (1 + d2) * (1 + d1) - 1)); [exact Py|ring|].
  apply Rabs_bd in Hd1. apply Rabs_bd in P2. apply Rabs_bd in Hd3.
  replace ((1 + d3) * (1 + d2) * (1 + d1) - 1) with (d3 * (1 + d2) * (1 + d1) + d2 * (1 + d1) + d1) by ring.
  assert (0 <= t) by lra. assert (0 <= e) by lra.
  assert (A : Rabs (d3 * (1 + d2) * (1 + d1)) <= 20 * e * (17 / 16) * (1 + / 1048576)).
  { rewrite !Rabs_mult. apply Rmult_le_compat; [apply Rmult_le_pos; apply Rabs_pos|apply Rabs_pos| |apply Rabs_le'; lra].
    apply Rmult_le_compat; try apply Rabs_pos; apply Rabs_le'; lra. }
  assert (B : Rabs (d2 * (1 + d1)) <= 4 * t * (1 + / 1048576)).
  { rewrite Rabs_mult. apply Rmult_le_compat; try apply Rabs_pos; apply Rabs_le'; lra. }
  assert (C : Rabs d1 <= / 1048576) by (apply Rabs_le'; lra).
  eapply Rle_trans; [apply Rabs_triang|]. eapply Rle_trans; [apply Rplus_le_compat_r, Rabs_triang|]. unfold uu. lra.
Qed.
