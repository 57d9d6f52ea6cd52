(** * C64: the f32 HSV conversions: ranges and round trip *)
From Coq Require Import Lra.
From Verif.Model Require Import Colorspace.
From Verif.Spec Require Import ImageS ColorS ConvS FloatS WheelS.
From Verif.Proofs Require Import BaseL ImageL ImageOps ToneL FloatL ApproxL.
From Verif.Props Require Import ImageP HsvP ToneP ConvP.
From Flocq Require Import Core BinarySingleNaN.
Open Scope R_scope.

Ltac wheel := unfold wR, wG, wB, Rmin, Rmax, Rabs in *;
  repeat match goal with
  | |- context [Rle_dec ?a ?b] => destruct (Rle_dec a b)
  | |- context [Rcase_abs ?a] => destruct (Rcase_abs a)
  | H : context [Rle_dec ?a ?b] |- _ => destruct (Rle_dec a b)
  | H : context [Rcase_abs ?a] |- _ => destruct (Rcase_abs a)
  end; try lra.

Lemma lip_aux (w : R -> R) t t' e : (w = wR \/ w = wG \/ w = wB) -> Rabs (t - t') <= e -> Rabs (w t - w t') <= e.
Proof.
  intros Hw H. apply Rabs_bd in H. apply Rabs_le'.
  - destruct Hw as [->|[->| ->]]; wheel.
  - destruct Hw as [->|[->| ->]]; wheel.
Qed.

Section Levels.
  Context (M n : Z) (HM : (1 <= n <= M)%Z) (HM' : (M <= 255)%Z).
  Let v := IZR M / 255.
  Let y := IZR n / 255.
  Let iv := 255 / IZR M.

  Lemma M_bounds : 1 <= IZR n /\ IZR n <= IZR M /\ IZR M <= 255.
  Proof. repeat split; apply IZR_le; lia. Qed.
  Lemma v_iv : v * iv = 1.
  Proof. pose proof M_bounds. unfold v, iv. field. lra. Qed.
  Lemma iv_bounds : 1 <= iv <= 255.
  Proof.
    pose proof M_bounds as B. unfold iv. split.
    - apply Rmult_le_reg_r with (IZR M); [lra|]. unfold Rdiv. rewrite Rmult_assoc, Rinv_l; lra.
    - apply Rmult_le_reg_r with (IZR M); [lra|]. unfold Rdiv. rewrite Rmult_assoc, Rinv_l; lra.
  Qed.
  Lemma v_bounds : 0 < v <= 1.
  Proof. pose proof M_bounds. unfold v. lra. Qed.
  Lemma y_bounds : / 255 <= y <= v.
  Proof. pose proof M_bounds. unfold v, y. lra. Qed.

  Notation V := (f32_div (f32_of_Z M) (f32_of_Z 255)).
  Notation Y := (f32_div (f32_of_Z n) (f32_of_Z 255)).
  Notation S := (f32_div Y V).

  Lemma V_ap : approx V v uu. Proof. apply ap_byte. lia. Qed.
  Lemma Y_ap : approx Y y uu. Proof. apply ap_byte. lia. Qed.
  Lemma S_ap : approx S (y / v) (6 * uu * iv).
  Proof.
    pose proof v_bounds. pose proof y_bounds. pose proof iv_bounds. pose proof v_iv as E.
    assert (I : / v = iv) by (apply Rmult_eq_reg_l with v; [rewrite Rinv_r; lra|lra]).
    apply (ap_div 1 1 _ _ _ _ uu uu); auto using Y_ap, V_ap; try lia; try lra.
    - unfold uu. lra.
    - rewrite Rabs_pos_eq; lra.
    - unfold Rdiv. rewrite I. unfold uu. cbn. lra.
    - unfold Rdiv. rewrite I. unfold uu. cbn. lra.
  Qed.
  Lemma s_bounds : 0 < y / v <= 1.
  Proof.
    pose proof v_bounds. pose proof y_bounds. split.
    - apply Rmult_lt_0_compat; [lra|]. apply Rinv_0_lt_compat. lra.
    - apply Rmult_le_reg_r with v; [lra|]. unfold Rdiv. rewrite Rmult_assoc, Rinv_l; lra.
  Qed.

  (** the level v (1 - w) in bytes *)
  Lemma level W phi : approx W (y / v * phi) (12 * uu * iv) -> 0 <= phi <= 1 ->
    approx (f32_mul (f32_mul V (f32_sub f32_1 W)) (f32_of_Z 255)) (IZR M - IZR n * phi) (6000 * uu).
  Proof.
    intros HW Hp. pose proof v_bounds as Vb. pose proof y_bounds as Yb. pose proof iv_bounds as Ib. pose proof v_iv as E. pose proof s_bounds as Sb.
    assert (Pb : 0 <= y / v * phi <= 1).
    { split; [apply Rmult_le_pos; lra|]. rewrite <- (Rmult_1_l 1). apply Rmult_le_compat; lra. }
    assert (A1 : approx (f32_sub f32_1 W) (1 - y / v * phi) (14 * uu * iv)).
    { apply (ap_sub 1 _ _ _ _ 0 (12 * uu * iv)); [apply (ap_Z 1); lia|exact HW|lia| |].
      - rewrite Rabs_pos_eq by lra. unfold uu. cbn. lra.
      - unfold uu. cbn. lra. }
    assert (A2 : approx (f32_mul V (f32_sub f32_1 W)) (v * (1 - y / v * phi)) (18 * uu)).
    { apply (ap_mul 1 v 1 _ _ _ _ uu (14 * uu * iv)); [apply V_ap|exact A1|lia| | | |].
      - rewrite Rabs_pos_eq; lra.
      - rewrite Rabs_pos_eq; lra.
      - apply Rle_trans with ((1 + uu) * (1 + 14 * uu * iv)); [apply Rmult_le_compat_r; unfold uu; lra|]. unfold uu. cbn. lra.
      - replace (v * (14 * uu * iv)) with (14 * uu * (v * iv)) by ring. rewrite E. unfold uu. cbn. lra. }
    eapply ap_eq; [apply (ap_mul 8 1 255 _ _ (v * (1 - y / v * phi)) 255 (18 * uu) 0); [exact A2|apply (ap_Z 255); lia|lia| | | |]|].
    - assert (0 <= v * (1 - y / v * phi) <= 1); [|rewrite Rabs_pos_eq; lra]. split; [apply Rmult_le_pos; lra|].
      rewrite <- (Rmult_1_l 1). apply Rmult_le_compat; lra.
    - rewrite Rabs_pos_eq; lra.
    - unfold uu. cbn. lra.
    - unfold uu. cbn. lra.
    - pose proof M_bounds. unfold v, y. field. lra.
  Qed.
  Lemma share P phi : approx P phi (3 * uu) -> 0 <= phi <= 1 -> approx (f32_mul S P) (y / v * phi) (12 * uu * iv).
  Proof.
    intros HP Hp. pose proof iv_bounds as Ib. pose proof s_bounds as Sb.
    apply (ap_mul 1 1 1 _ _ _ _ (6 * uu * iv) (3 * uu)); [apply S_ap|exact HP|lia| | | |].
    - rewrite Rabs_pos_eq; lra.
    - rewrite Rabs_pos_eq; lra.
    - unfold uu. cbn. lra.
    - unfold uu. cbn. lra.
  Qed.
  Lemma top_ap : approx (f32_mul V (f32_of_Z 255)) (IZR M - IZR n * 0) (6000 * uu).
  Proof.
    pose proof v_bounds as Vb. eapply ap_eq; [apply (ap_mul 8 1 255 _ _ v 255 uu 0); [apply V_ap|apply (ap_Z 255); lia|lia| | | |]|].
    - rewrite Rabs_pos_eq; lra.
    - rewrite Rabs_pos_eq; lra.
    - unfold uu. cbn. lra.
    - unfold uu. cbn. lra.
    - unfold v. field.
  Qed.

  (** three levels that approximate the colour of angle t *)
  Definition lev (X : f32) (w : R) : Prop := approx X (IZR M - IZR n * (1 - w)) (6000 * uu).

  (** the decoder at the (exact) angle t of the float h * 6 *)
  Lemma decode_ap h t : fin (f32_mul h (f32_of_Z 6)) t -> 0 <= t < 6 ->
    exists X1 X2 X3, rgb_of_hsv [h; S; V] = [f32_to_int U8 X1; f32_to_int U8 X2; f32_to_int U8 X3]
      /\ lev X1 (wR t) /\ lev X2 (wG t) /\ lev X3 (wB t)
      /\ (X1 = f32_mul V (f32_of_Z 255) \/ X2 = f32_mul V (f32_of_Z 255) \/ X3 = f32_mul V (f32_of_Z 255)).
  Proof.
    intros Hh Ht. set (k := Zfloor t).
    pose proof (Zfloor_lb t) as Kl. pose proof (Zfloor_ub t) as Ku. fold k in Kl, Ku.
    assert (Hk : (0 <= k < 6)%Z) by (split; [apply Zfloor_lub; exact (proj1 Ht)|apply lt_IZR; lra]).
    assert (Fk : isZ (f32_floor (f32_mul h (f32_of_Z 6))) k) by (apply (nearby_fin mode_DN _ t Hh)).
    assert (Ff : approx (f32_sub (f32_mul h (f32_of_Z 6)) (f32_floor (f32_mul h (f32_of_Z 6)))) (t - IZR k) uu).
    { apply (ap_sub 0 _ _ _ _ 0 0); [apply fin_ap; exact Hh|apply fin_ap; exact Fk|lia| |].
      - rewrite Rabs_pos_eq by lra. cbn. lra.
      - unfold uu. cbn. lra. }
    assert (Es : f32_eqb S (f32_of_Z 0) = false).
    { destruct S_ap as [r [Fr Hr]]. unfold f32_eqb. rewrite (eqb_fin S (f32_of_Z 0) r 0 Fr); [|split; reflexivity].
      apply Req_bool_false. apply Rabs_bd in Hr. intros ->. pose proof v_bounds. pose proof y_bounds. pose proof v_iv. pose proof iv_bounds.
      assert (y / v = y * iv) by (unfold Rdiv; f_equal; apply Rmult_eq_reg_l with v; [rewrite Rinv_r; lra|lra]).
      assert (/ 255 * iv <= y * iv) by (apply Rmult_le_compat_r; lra). unfold uu in *. lra. }
    set (f := f32_sub _ _) in Ff.
    assert (Fi : approx f (t - IZR k) (3 * uu)) by (eapply ap_weaken; [exact Ff|unfold uu; lra]).
    assert (Fr : approx (f32_sub f32_1 f) (1 - (t - IZR k)) (3 * uu)).
    { apply (ap_sub 1 _ _ _ _ 0 uu); [apply (ap_Z 1); lia|exact Ff|lia| |].
      - rewrite Rabs_pos_eq by lra. unfold uu. cbn. lra.
      - unfold uu. cbn. lra. }
    set (lo := f32_mul (f32_mul V (f32_sub f32_1 S)) (f32_of_Z 255)).
    set (fa := f32_mul (f32_mul V (f32_sub f32_1 (f32_mul S f))) (f32_of_Z 255)).
    set (ri := f32_mul (f32_mul V (f32_sub f32_1 (f32_mul S (f32_sub f32_1 f)))) (f32_of_Z 255)).
    set (tp := f32_mul V (f32_of_Z 255)).
    assert (Llo : forall w, w = 0 -> lev lo w).
    { intros w ->. unfold lev. eapply ap_eq; [apply (level S 1); [|lra]|ring].
      eapply ap_eq; [eapply ap_weaken; [apply S_ap|]|ring]. pose proof iv_bounds. unfold uu. lra. }
    assert (Lfa : forall w, w = 1 - (t - IZR k) -> lev fa w).
    { intros w ->. unfold lev. eapply ap_eq; [apply (level (f32_mul S f) (t - IZR k)); [apply share; [exact Fi|lra]|lra]|ring]. }
    assert (Lri : forall w, w = t - IZR k -> lev ri w).
    { intros w ->. unfold lev. eapply ap_eq; [apply (level (f32_mul S (f32_sub f32_1 f)) (1 - (t - IZR k))); [apply share; [exact Fr|lra]|lra]|ring]. }
    assert (Ltp : forall w, w = 1 -> lev tp w).
    { intros w ->. unfold lev. eapply ap_eq; [apply top_ap|ring]. }
    assert (Ek : f32_to_int U8 (f32_floor (f32_mul h (f32_of_Z 6))) = k) by (apply to_int_isZ; [exact Fk|cbn; lia|cbn; lia]).
    unfold rgb_of_hsv. cbv zeta. fold S. rewrite Es. rewrite Ek. unfold to_byte. change (f32_of_Z 1) with f32_1.
    fold f lo fa ri tp. clearbody lo fa ri tp f. clear Es Ek.
    assert (C : (k = 0 \/ k = 1 \/ k = 2 \/ k = 3 \/ k = 4 \/ k = 5)%Z) by lia. clearbody k.
    destruct C as [->|[->|[->|[->|[->| ->]]]]]; cbn [Z.to_nat Pos.to_nat Pos.iter_op Nat.add nth];
      (eexists; eexists; eexists; split; [reflexivity|]; split; [|split; [|split; [|tauto]]]);
      first [apply Ltp; solve [wheel] | apply Llo; solve [wheel] | apply Lfa; solve [wheel] | apply Lri; solve [wheel]].
  Qed.
End Levels.

(** ** the angle *)
Section Angle.
  Context (n : Z) (Hn : (1 <= n <= 255)%Z).
  Let y := IZR n / 255.
  Let iy := 255 / IZR n.
  Notation Y := (f32_div (f32_of_Z n) (f32_of_Z 255)).
  Notation B c := (f32_div (f32_of_Z c) (f32_of_Z 255)).

  Lemma n_bounds : 1 <= IZR n <= 255. Proof. split; apply IZR_le; lia. Qed.
  Lemma y_iy : y * iy = 1. Proof. pose proof n_bounds. unfold y, iy. field. lra. Qed.
  Lemma iy_bounds : 1 <= iy <= 255.
  Proof.
    pose proof n_bounds as Bn. unfold iy. split; (apply Rmult_le_reg_r with (IZR n); [lra|]; unfold Rdiv; rewrite Rmult_assoc, Rinv_l; lra).
  Qed.
  Lemma y_bounds' : / 255 <= y <= 1. Proof. pose proof n_bounds. unfold y. lra. Qed.
  Lemma inv_y : / y = iy.
  Proof. pose proof y_iy. pose proof y_bounds'. apply Rmult_eq_reg_l with y; [rewrite Rinv_r; lra|lra]. Qed.

  Section Quot.
    Context (a b : Z) (Ha : (0 <= a <= 255)%Z) (Hb : (0 <= b <= 255)%Z) (Hab : (Z.abs (a - b) <= n)%Z).
    Notation Q := (f32_div (f32_sub (B a) (B b)) Y).

    Lemma ab_bounds : - IZR n <= IZR a - IZR b <= IZR n.
    Proof. rewrite <- minus_IZR, <- opp_IZR. split; apply IZR_le; lia. Qed.
    Lemma Q_ap : approx Q (IZR (a - b) / IZR n) (12 * uu * iy).
    Proof.
      pose proof y_bounds' as Yb. pose proof iy_bounds as Ib. pose proof inv_y as Iy. pose proof ab_bounds as AB. pose proof n_bounds as Nb.
      assert (A : approx (f32_sub (B a) (B b)) (IZR a / 255 - IZR b / 255) (4 * uu)).
      { apply (ap_sub 1 _ _ _ _ uu uu); [apply ap_byte; lia|apply ap_byte; lia|lia| |].
        - unfold uu. cbn. apply Rle_trans with (1 + (/ 33554432 + / 33554432)); [|lra]. apply Rplus_le_compat_r. apply Rabs_le'; lra.
        - unfold uu. cbn. lra. }
      eapply ap_eq; [apply (ap_div 1 1 _ _ (IZR a / 255 - IZR b / 255) y (4 * uu) uu); [exact A|apply ap_byte; lia|lia|lra| | | |]|].
      - unfold uu. lra.
      - rewrite Rmult_1_l. unfold y. apply Rabs_le'; lra.
      - unfold Rdiv at 1. rewrite Iy. unfold uu. cbn. lra.
      - unfold Rdiv at 1. rewrite Iy. unfold uu. cbn. lra.
      - rewrite minus_IZR. unfold y. field. lra.
    Qed.
    (** its sign is right *)
    Lemma Q_sign : exists q, fin Q q /\ ((b <= a)%Z -> 0 <= q) /\ ((a < b)%Z -> q < 0).
    Proof.
      pose proof Q_ap as [q [Fq Hq]]. exists q. split; [exact Fq|]. pose proof iy_bounds as Ib. pose proof n_bounds as Nb. apply Rabs_bd in Hq.
      assert (Big : forall k, (1 <= k)%Z -> 12 * uu * iy < IZR k / IZR n).
      { intros k Hk. assert (1 <= IZR k) by (apply IZR_le; lia). apply Rlt_le_trans with (1 / IZR n).
        - unfold iy, uu. unfold Rdiv. assert (0 < / IZR n) by (apply Rinv_0_lt_compat; lra). lra.
        - unfold Rdiv. apply Rmult_le_compat_r; [apply Rlt_le, Rinv_0_lt_compat|]; lra. }
      split; intros H.
      - destruct (Z.eq_dec a b) as [E|E].
        + subst b. destruct (ap_byte a Ha) as [r [Fr _]]. destruct (ap_byte n ltac:(lia)) as [s [Fs Hs]].
          assert (Hs0 : 0 < s) by (apply Rabs_bd in Hs; unfold uu in Hs; lra).
          assert (Bd : Rabs 0 <= bpow radix2 (128 - 1)) by (rewrite Rabs_R0; apply bpow_ge_0).
          assert (N0 : fin (f32_sub (B a) (B a)) 0).
          { pose proof (sub_fin (B a) (B a) r r Fr Fr) as X. rewrite Rminus_diag_eq in X by reflexivity.
            specialize (X Bd). rewrite (rnd_Z 0) in X by (cbn; lia). exact X. }
          pose proof (div_fin _ Y 0 s N0 Fs ltac:(lra)) as X. unfold Rdiv in X. rewrite Rmult_0_l in X. specialize (X Bd).
          rewrite (rnd_Z 0) in X by (cbn; lia). destruct X as [_ X]. destruct Fq as [_ Fq]. unfold f32_div, f32_sub in *. rewrite <- Fq, X. lra.
        + pose proof (Big (a - b)%Z ltac:(lia)). lra.
      - pose proof (Big (b - a)%Z ltac:(lia)). replace (IZR (a - b) / IZR n) with (- (IZR (b - a) / IZR n)) in Hq; [lra|].
        rewrite !minus_IZR. field. lra.
    Qed.

    (** divide by six (after adding 0, 2 or 4): H ~ x/6 *)
    Definition turn (hue : f32) : f32 := wrap_turn (f32_div hue (f32_of_Z 6)).
    Lemma six X x : approx X x (20 * uu * iy) -> Rabs x <= 5 -> approx (f32_div X (f32_of_Z 6)) (x / 6) (9 * uu * iy).
    Proof.
      intros H Hx. pose proof iy_bounds as Ib.
      apply (ap_div 0 (5 / 6) _ _ x 6 (20 * uu * iy) 0); [exact H|apply (ap_Z 6); lia|lia|lra|lra|lra| |]; unfold uu; cbn; lra.
    Qed.
    Lemma times6 H x : approx H x (11 * uu * iy) -> 0 <= x <= 1 -> approx (f32_mul H (f32_of_Z 6)) (6 * x) (74 * uu * iy).
    Proof.
      intros A Hx. pose proof iy_bounds as Ib. rewrite Rmult_comm.
      apply (ap_mul 3 1 6 _ _ x 6 (11 * uu * iy) 0); [exact A|apply (ap_Z 6); lia|lia| | | |].
      - rewrite Rabs_pos_eq; lra.
      - rewrite Rabs_pos_eq; lra.
      - unfold uu. cbn. lra.
      - unfold uu. cbn. lra.
    Qed.
    Lemma wrap_nonneg X x : approx X x (9 * uu * iy) -> x <= 5 / 6 -> (exists q, fin X q /\ 0 <= q) -> wrap_turn X = X.
    Proof.
      intros [r [Fr Hr]] Hx [q [Fq Hq]]. pose proof iy_bounds as Ib. apply Rabs_bd in Hr.
      assert (r = q) by (destruct Fr, Fq; congruence). subst q.
      unfold wrap_turn. unfold f32_ltb.
      rewrite (ltb_fin X (f32_of_Z 0) r 0 Fr) by (split; reflexivity). rewrite Rlt_bool_false by lra.
      rewrite (ltb_fin (f32_of_Z 1) X 1 r) by (try exact Fr; apply isZ_1). rewrite Rlt_bool_false; [reflexivity|]. unfold uu in Hr. lra.
    Qed.
    Lemma wrap_neg X x : approx X x (9 * uu * iy) -> -1 <= x <= 0 -> (exists q, fin X q /\ q < 0) ->
      approx (wrap_turn X) (x + 1) (11 * uu * iy).
    Proof.
      intros A Hx [q [Fq Hq]]. pose proof iy_bounds as Ib.
      unfold wrap_turn. unfold f32_ltb at 1.
      rewrite (ltb_fin X (f32_of_Z 0) q 0 Fq) by (split; reflexivity). rewrite Rlt_bool_true by lra.
      apply (ap_add 1 _ _ _ 1 (9 * uu * iy) 0); [exact A|apply (ap_Z 1); lia|lia| |].
      - rewrite Rabs_pos_eq by lra. unfold uu. cbn. lra.
      - unfold uu. cbn. lra.
    Qed.
    (** t is the exact value of the float 6 h, close to x *)
    Definition angle (h : f32) (x : R) : Prop := exists t, fin (f32_mul h (f32_of_Z 6)) t /\ 0 <= t < 6 /\ Rabs (t - x) <= 74 * uu * iy
      /\ exists q, fin h q /\ 0 <= q /\ Rabs (q - x / 6) <= 11 * uu * iy.
    Lemma angle_of h x : approx h (x / 6) (11 * uu * iy) -> (exists q, fin h q /\ 0 <= q) -> 0 <= x -> x <= 6 - / IZR n -> angle h x.
    Proof.
      intros A [q [Fq Hq]] H0 H1. pose proof iy_bounds as Ib. pose proof n_bounds as Nb.
      assert (0 < / IZR n) by (apply Rinv_0_lt_compat; lra).
      assert (Ht : approx (f32_mul h (f32_of_Z 6)) x (74 * uu * iy)).
      { eapply ap_eq; [apply (times6 h (x / 6) A)|]; lra. }
      destruct Ht as [t [Ft Ht]]. exists t. split; [exact Ft|]. split; [|split; [exact Ht|]].
      2: { exists q. split; [exact Fq|]. split; [exact Hq|]. destruct A as [r [Fr Hr]]. assert (r = q) by (destruct Fr, Fq; congruence). subst r. exact Hr. }
      split.
      - assert (Bq : q <= 2). { destruct A as [r [Fr Hr]]. assert (r = q) by (destruct Fr, Fq; congruence). subst. apply Rabs_bd in Hr. unfold uu in Hr. lra. }
        assert (X : fin (f32_mul h (f32_of_Z 6)) (rnd32 (q * 6))).
        { apply mul_fin; [exact Fq|apply (of_Z_isZ 6); lia|]. apply (small_bpow 4); [lia|]. rewrite Rabs_pos_eq by lra. cbn. lra. }
        assert (t = rnd32 (q * 6)) by (destruct X, Ft; congruence). subst t. apply (rnd_ge_Z _ 0); [lra|cbn; lia].
      - apply Rabs_bd in Ht. apply Rle_lt_trans with (6 - / IZR n + 74 * uu * iy); [lra|].
        unfold iy, uu. unfold Rdiv. lra.
    Qed.

    Lemma pos_add (X : f32) c : approx X (IZR (a - b) / IZR n) (12 * uu * iy) -> (c = 2 \/ c = 4)%Z ->
      angle (turn (f32_add X (f32_of_Z c))) (IZR (a - b) / IZR n + IZR c).
    Proof.
      intros A Hc. pose proof iy_bounds as Ib. pose proof ab_bounds as AB. pose proof n_bounds as Nb.
      set (q := IZR (a - b) / IZR n) in *.
      assert (Qb : -1 <= q <= 1).
      { unfold q. rewrite minus_IZR. split; (apply Rmult_le_reg_r with (IZR n); [lra|]; unfold Rdiv; rewrite Rmult_assoc, Rinv_l; lra). }
      assert (Cb : 2 <= IZR c <= 4) by (destruct Hc; subst; cbn; lra).
      assert (A1 : approx (f32_add X (f32_of_Z c)) (q + IZR c) (20 * uu * iy)).
      { apply (ap_add 3 _ _ _ _ (12 * uu * iy) 0); [exact A|apply ap_Z; lia|lia| |].
        - rewrite Rabs_pos_eq by lra. unfold uu. cbn. lra.
        - unfold uu. cbn. lra. }
      assert (A2 : approx (f32_div (f32_add X (f32_of_Z c)) (f32_of_Z 6)) ((q + IZR c) / 6) (9 * uu * iy)).
      { apply six; [exact A1|]. apply Rabs_le'; lra. }
      assert (P : exists q0, fin (f32_div (f32_add X (f32_of_Z c)) (f32_of_Z 6)) q0 /\ 0 <= q0).
      { destruct A2 as [r [Fr Hr]]. exists r. split; [exact Fr|]. apply Rabs_bd in Hr. unfold uu in Hr. lra. }
      assert (0 < / IZR n <= 1) by (split; [apply Rinv_0_lt_compat; lra|rewrite <- Rinv_1; apply Rinv_le; lra]).
      unfold turn. rewrite (wrap_nonneg _ _ A2) by (lra || exact P).
      apply angle_of; [eapply ap_weaken; [exact A2|unfold uu; lra]|exact P|lra|lra].
    Qed.
    Lemma red_ok : angle (turn Q) (IZR (a - b) / IZR n + if (a <? b)%Z then 6 else 0).
    Proof.
      pose proof iy_bounds as Ib. pose proof ab_bounds as AB. pose proof n_bounds as Nb. pose proof Q_ap as A.
      pose proof Q_sign as [q0 [F0 [P0 N0]]]. set (q := IZR (a - b) / IZR n) in *.
      assert (Qb : -1 <= q <= 1).
      { unfold q. rewrite minus_IZR. split; (apply Rmult_le_reg_r with (IZR n); [lra|]; unfold Rdiv; rewrite Rmult_assoc, Rinv_l; lra). }
      assert (0 < / IZR n <= 1) by (split; [apply Rinv_0_lt_compat; lra|rewrite <- Rinv_1; apply Rinv_le; lra]).
      assert (A2 : approx (f32_div Q (f32_of_Z 6)) (q / 6) (9 * uu * iy)).
      { apply six; [eapply ap_weaken; [exact A|unfold uu; lra]|]. apply Rabs_le'; lra. }
      assert (Q6 : fin (f32_div Q (f32_of_Z 6)) (rnd32 (q0 / 6))).
      { destruct A as [r [Fr Hr]]. assert (r = q0) by (destruct Fr, F0; congruence). subst r. apply Rabs_bd in Hr. unfold uu in Hr.
        apply div_fin; [exact F0|apply (of_Z_isZ 6); lia|lra|]. apply (small_bpow 1); [lia|]. cbn. apply Rabs_le'; lra. }
      unfold turn. destruct (Z.ltb_spec a b) as [L|L].
      - specialize (N0 L).
        assert (q <= - / IZR n).
        { unfold q. assert (IZR (a - b) <= -1) by (apply IZR_le; lia). unfold Rdiv.
          apply Rle_trans with (-1 * / IZR n); [apply Rmult_le_compat_r; lra|lra]. }
        assert (NQ : exists q1, fin (f32_div Q (f32_of_Z 6)) q1 /\ q1 < 0).
        { destruct A2 as [r [Fr Hr]]. exists r. split; [exact Fr|]. apply Rabs_bd in Hr.
          apply Rle_lt_trans with (- / IZR n / 6 + 9 * uu * iy); [lra|]. unfold iy, uu. unfold Rdiv. lra. }
        pose proof (wrap_neg _ _ A2 ltac:(lra) NQ) as W.
        apply angle_of; [eapply ap_eq; [exact W|lra]| |lra|lra].
        destruct W as [r [Fr Hr]]. exists r. split; [exact Fr|]. apply Rabs_bd in Hr. unfold uu in Hr. lra.
      - specialize (P0 L).
        assert (0 <= q) by (unfold q; apply Rmult_le_pos; [apply IZR_le; lia|lra]).
        assert (PQ : exists q1, fin (f32_div Q (f32_of_Z 6)) q1 /\ 0 <= q1).
        { eexists. split; [exact Q6|]. apply (rnd_ge_Z _ 0); [lra|cbn; lia]. }
        rewrite (wrap_nonneg _ _ A2) by (lra || exact PQ).
        apply angle_of; [eapply ap_weaken; [eapply ap_eq; [exact A2|lra]|unfold uu; lra]|exact PQ|lra|lra].
    Qed.
  End Quot.
End Angle.

(** ** round trip of one colour *)
Lemma pull M n c X w w' : (1 <= n <= 255)%Z -> lev M n X w -> Rabs (w - w') <= 74 * uu * (255 / IZR n) ->
  IZR M - IZR n * (1 - w') = IZR c -> (0 <= c <= 255)%Z -> (Z.max 0 (c - 1) <= f32_to_int U8 X <= c)%Z.
Proof.
  intros Hn L Hw E Hc. pose proof (n_bounds n Hn) as Nb. apply (ap_trunc X c (30000 * uu)); [|unfold uu; lra|exact Hc].
  destruct L as [r [Fr Hr]]. exists r. split; [exact Fr|]. rewrite <- E.
  assert (D : Rabs (IZR n * (w - w')) <= 74 * uu * 255).
  { rewrite Rabs_mult, Rabs_pos_eq by lra. apply Rle_trans with (IZR n * (74 * uu * (255 / IZR n))); [apply Rmult_le_compat_l; lra|].
    right. field. lra. }
  apply Rabs_bd in D. apply Rabs_bd in Hr. apply Rabs_le'; unfold uu in *; lra.
Qed.

Lemma sector_vals x :
  (0 <= x <= 1 -> wR x = 1 /\ wG x = x /\ wB x = 0) /\ (1 <= x <= 2 -> wR x = 2 - x /\ wG x = 1 /\ wB x = 0) /\
  (2 <= x <= 3 -> wR x = 0 /\ wG x = 1 /\ wB x = x - 2) /\ (3 <= x <= 4 -> wR x = 0 /\ wG x = 4 - x /\ wB x = 1) /\
  (4 <= x <= 5 -> wR x = x - 4 /\ wG x = 0 /\ wB x = 1) /\ (5 <= x <= 6 -> wR x = 1 /\ wG x = 0 /\ wB x = 6 - x).
Proof. repeat split; intros; wheel. Qed.

Lemma angle_shares r g b : (0 <= r <= 255)%Z -> (0 <= g <= 255)%Z -> (0 <= b <= 255)%Z ->
  let M := Z.max r (Z.max g b) in let n := (M - Z.min r (Z.min g b))%Z in (0 < n)%Z ->
  exists h x, hsv_of_rgb [r; g; b] = [h; f32_div (f32_div (f32_of_Z n) (f32_of_Z 255)) (f32_div (f32_of_Z M) (f32_of_Z 255)); f32_div (f32_of_Z M) (f32_of_Z 255)]
    /\ angle n h x /\ shares M n r g b x.
Proof.
  intros Hr Hg Hb M n Hn. unfold hsv_of_rgb. cbv zeta. fold M. fold n.
  replace (M =? Z.min r (Z.min g b))%Z with false by (unfold n in Hn; lia). replace (M =? 0)%Z with false by (unfold n in Hn; lia).
  assert (Hn' : (1 <= n <= 255)%Z) by (unfold n, M; lia). pose proof (n_bounds n Hn') as Nb.
  assert (Q : forall a c, IZR n * (IZR (a - c) / IZR n) = IZR a - IZR c) by (intros a c; rewrite minus_IZR; field; lra).
  assert (QB : forall a c, (Z.abs (a - c) <= n)%Z -> -1 <= IZR (a - c) / IZR n <= 1).
  { intros a c H. assert (- IZR n <= IZR a - IZR c <= IZR n) by (rewrite <- minus_IZR, <- opp_IZR; split; apply IZR_le; lia). rewrite minus_IZR.
    split; (apply Rmult_le_reg_r with (IZR n); [lra|]; unfold Rdiv; rewrite Rmult_assoc, Rinv_l; lra). }
  assert (QP : forall a c, (c <= a)%Z -> 0 <= IZR (a - c) / IZR n).
  { intros a c H. unfold Rdiv. apply Rmult_le_pos; [apply IZR_le; lia|]. apply Rlt_le, Rinv_0_lt_compat. lra. }
  assert (QN : forall a c, (a <= c)%Z -> IZR (a - c) / IZR n <= 0).
  { intros a c H. specialize (QP c a H). replace (IZR (a - c) / IZR n) with (- (IZR (c - a) / IZR n)); [lra|]. rewrite !minus_IZR. field. lra. }
  destruct (Z.eqb_spec M r) as [E|E]; [|destruct (Z.eqb_spec M g) as [E2|E2]].
  - eexists. exists (IZR (g - b) / IZR n + if (g <? b)%Z then 6 else 0). split; [reflexivity|].
    split; [apply red_ok; unfold n, M; lia|].
    specialize (Q g b). specialize (QB g b ltac:(unfold n, M; lia)). specialize (QP g b). specialize (QN g b).
    set (q := IZR (g - b) / IZR n) in *. clearbody q. unfold shares.
    destruct (Z.ltb_spec g b) as [L|L].
    + destruct (sector_vals (q + 6)) as [_ [_ [_ [_ [_ S]]]]]. destruct S as [-> [-> ->]]; [specialize (QN ltac:(lia)); lra|].
      assert (N : (n = r - g)%Z) by (unfold n, M in *; lia). rewrite N in *. rewrite minus_IZR in *. rewrite E. repeat split; lra.
    + destruct (sector_vals (q + 0)) as [S _]. destruct S as [-> [-> ->]]; [specialize (QP ltac:(lia)); lra|].
      assert (N : (n = r - b)%Z) by (unfold n, M in *; lia). rewrite N in *. rewrite minus_IZR in *. rewrite E. repeat split; lra.
  - eexists. exists (IZR (b - r) / IZR n + 2). split; [reflexivity|].
    split; [apply pos_add; try (unfold n, M; lia); apply Q_ap; unfold n, M; lia|].
    specialize (Q b r). specialize (QB b r ltac:(unfold n, M; lia)). specialize (QP b r). specialize (QN b r).
    set (q := IZR (b - r) / IZR n) in *. clearbody q. unfold shares.
    destruct (Z.leb_spec r b) as [L|L].
    + destruct (sector_vals (q + 2)) as [_ [_ [S _]]]. destruct S as [-> [-> ->]]; [specialize (QP ltac:(lia)); lra|].
      assert (N : (n = g - r)%Z) by (unfold n, M in *; lia). rewrite N in *. rewrite minus_IZR in *. rewrite E2. repeat split; lra.
    + destruct (sector_vals (q + 2)) as [_ [S _]]. destruct S as [-> [-> ->]]; [specialize (QN ltac:(lia)); lra|].
      assert (N : (n = g - b)%Z) by (unfold n, M in *; lia). rewrite N in *. rewrite minus_IZR in *. rewrite E2. repeat split; lra.
  - eexists. exists (IZR (r - g) / IZR n + 4). split; [reflexivity|].
    split; [apply pos_add; try (unfold n, M; lia); apply Q_ap; unfold n, M; lia|].
    assert (E3 : M = b) by (unfold M in *; lia).
    specialize (Q r g). specialize (QB r g ltac:(unfold n, M; lia)). specialize (QP r g). specialize (QN r g).
    set (q := IZR (r - g) / IZR n) in *. clearbody q. unfold shares.
    destruct (Z.leb_spec g r) as [L|L].
    + destruct (sector_vals (q + 4)) as [_ [_ [_ [_ [S _]]]]]. destruct S as [-> [-> ->]]; [specialize (QP ltac:(lia)); lra|].
      assert (N : (n = b - g)%Z) by (unfold n, M in *; lia). rewrite N in *. rewrite minus_IZR in *. rewrite E3. repeat split; lra.
    + destruct (sector_vals (q + 4)) as [_ [_ [_ [S _]]]]. destruct S as [-> [-> ->]]; [specialize (QN ltac:(lia)); lra|].
      assert (N : (n = b - r)%Z) by (unfold n, M in *; lia). rewrite N in *. rewrite minus_IZR in *. rewrite E3. repeat split; lra.
Qed.

Lemma top_exact M : (0 <= M <= 255)%Z -> f32_to_int U8 (f32_mul (f32_div (f32_of_Z M) (f32_of_Z 255)) (f32_of_Z 255)) = M.
Proof.
  intros H.
  assert (T : forallb (fun c => (f32_to_int U8 (f32_mul (f32_div (f32_of_Z c) (f32_of_Z 255)) (f32_of_Z 255)) =? c)%Z) (zrange 0 256) = true) by (vm_compute; reflexivity).
  rewrite forallb_forall in T. apply Z.eqb_eq, (T M), in_zrange. lia.
Qed.

(** every channel comes back unchanged or one smaller, the largest channel unchanged *)
Theorem C64_colour_round_trip r g b : is_u8 r -> is_u8 g -> is_u8 b ->
  exists r' g' b', rgb_of_hsv (hsv_of_rgb [r; g; b]) = [r'; g'; b']
    /\ (Z.max 0 (r - 1) <= r' <= r /\ Z.max 0 (g - 1) <= g' <= g /\ Z.max 0 (b - 1) <= b' <= b
        /\ Z.max r' (Z.max g' b') = Z.max r (Z.max g b))%Z
    /\ (r = g -> g = b -> [r'; g'; b'] = [r; g; b]).
Proof.
  unfold is_u8. intros Hr Hg Hb. set (M := Z.max r (Z.max g b)). set (n := (M - Z.min r (Z.min g b))%Z).
  assert (HM : (0 <= M <= 255)%Z) by (unfold M; lia). pose proof (top_exact M HM) as Tp.
  destruct (Z.eq_dec n 0) as [E|E].
  - assert (r = M /\ g = M /\ b = M)%Z as [Er [Eg Eb]] by (unfold n, M in *; lia).
    exists M, M, M. split; [|split; [lia|intros _ _; congruence]].
    assert (H : exists h s, hsv_of_rgb [r; g; b] = [h; s; f32_div (f32_of_Z M) (f32_of_Z 255)] /\ f32_eqb s (f32_of_Z 0) = true).
    { unfold hsv_of_rgb. cbv zeta. fold M. fold n. rewrite E. eexists. eexists. split; [reflexivity|].
      destruct (Z.eqb_spec M 0); [reflexivity|]. destruct (ap_byte M HM) as [q [Fq Hq]].
      assert (1 <= IZR M) by (apply IZR_le; lia). apply Rabs_bd in Hq.
      assert (q <> 0) by (intros ->; unfold uu in Hq; lra).
      assert (F0 : fin (f32_div (f32_of_Z 0) (f32_of_Z 255)) 0) by (split; reflexivity).
      assert (Bd : Rabs 0 <= bpow radix2 (128 - 1)) by (rewrite Rabs_R0; apply bpow_ge_0).
      pose proof (div_fin _ _ 0 q F0 Fq ltac:(assumption)) as X. unfold Rdiv in X. rewrite Rmult_0_l in X. specialize (X Bd).
      rewrite (rnd_Z 0) in X by (cbn; lia).
      unfold f32_eqb. etransitivity; [exact (eqb_fin _ (f32_of_Z 0) 0 0 X ltac:(split; reflexivity))|].
      apply Req_bool_true. reflexivity. }
    destruct H as [h [s [-> Hs]]]. unfold rgb_of_hsv. cbv zeta. rewrite Hs. unfold to_byte. rewrite Tp. reflexivity.
  - assert (Hn : (1 <= n <= 255)%Z) by (unfold n, M in *; lia). assert (HnM : (1 <= n <= M)%Z) by (unfold n, M in *; lia).
    destruct (angle_shares r g b Hr Hg Hb ltac:(fold M n; lia)) as [h [x [Eh [[t [Ft [Tb [Tx _]]]] [Sr [Sg Sb]]]]]].
    fold M in Eh, Sr, Sg, Sb. fold n in Eh, Sr, Sg, Sb, Tx. rewrite Eh.
    destruct (decode_ap M n HnM ltac:(lia) h t Ft Tb) as [X1 [X2 [X3 [-> [L1 [L2 [L3 LT]]]]]]].
    pose proof (pull M n r X1 _ _ Hn L1 (lip_aux wR t x _ ltac:(auto) Tx) Sr Hr).
    pose proof (pull M n g X2 _ _ Hn L2 (lip_aux wG t x _ ltac:(auto) Tx) Sg Hg).
    pose proof (pull M n b X3 _ _ Hn L3 (lip_aux wB t x _ ltac:(auto) Tx) Sb Hb).
    eexists. eexists. eexists. split; [reflexivity|]. split; [|intros; exfalso; apply E; unfold n, M; lia]. do 3 (split; [assumption|]). fold M.
    assert (r <= M /\ g <= M /\ b <= M)%Z by (unfold M; lia).
    destruct LT as [->|[->| ->]]; rewrite Tp in *; lia.
Qed.

(** ** ranges *)
(** hue in [0, 1), saturation and value in [0, 1]; the value is the f32 nearest to max/255, the
    saturation is within 6 * 2^-25 * 255/max of (max - min)/max, and six times the hue is within 74 * 2^-25 * 255/(max - min)
    of the position on the colour wheel *)
Lemma unit_quot a b ra rb : fin a ra -> fin b rb -> 0 <= ra <= rb -> 0 < rb -> exists q, fin (f32_div a b) q /\ 0 <= q <= 1.
Proof.
  intros Fa Fb H Hb. exists (rnd32 (ra / rb)).
  assert (Q : 0 <= ra / rb <= 1).
  { split; [apply Rmult_le_pos; [lra|apply Rlt_le, Rinv_0_lt_compat; lra]|].
    apply Rmult_le_reg_r with rb; [lra|]. unfold Rdiv. rewrite Rmult_assoc, Rinv_l; lra. }
  split; [apply div_fin; auto; [lra|]|split; [apply (rnd_ge_Z _ 0)|apply (rnd_le_Z _ 1)]; try lra; cbn; lia].
  apply (small_bpow 0); [lia|]. rewrite Rabs_pos_eq by lra. cbn. lra.
Qed.
Lemma byte_fin z : (0 <= z <= 255)%Z -> fin (f32_div (f32_of_Z z) (f32_of_Z 255)) (rnd32 (IZR z / 255)).
Proof.
  intros H. assert (0 <= IZR z <= 255) by (split; apply IZR_le; lia).
  apply div_fin; [apply of_Z_isZ; lia|apply (of_Z_isZ 255); lia|lra|]. apply (small_bpow 0); [lia|]. rewrite Rabs_pos_eq by lra. cbn. lra.
Qed.

Theorem C64_ranges r g b : is_u8 r -> is_u8 g -> is_u8 b ->
  let M := Z.max r (Z.max g b) in let n := (M - Z.min r (Z.min g b))%Z in
  exists h s v hr sr vr, hsv_of_rgb [r; g; b] = [h; s; v] /\ fin h hr /\ fin s sr /\ fin v vr
    /\ 0 <= hr < 1 /\ 0 <= sr <= 1 /\ 0 <= vr <= 1
    /\ vr = rnd32 (IZR M / 255)
    /\ (M <> 0%Z -> Rabs (sr - IZR n / IZR M) <= 6 / 2 ^ 25 * (255 / IZR M))
    /\ (n <> 0%Z -> exists x, shares M n r g b x /\ Rabs (hr - x / 6) <= 11 / 2 ^ 25 * (255 / IZR n))
    /\ (n = 0%Z -> hr = 0 /\ sr = 0).
Proof.
  intros Hr Hg Hb M n. unfold is_u8 in *.
  assert (HM : (0 <= M <= 255)%Z) by (unfold M; lia). assert (Hn : (0 <= n <= M)%Z) by (unfold n, M; lia).
  pose proof (byte_fin M HM) as Fv. assert (MB : 0 <= IZR M <= 255) by (split; apply IZR_le; lia).
  assert (Vb : 0 <= rnd32 (IZR M / 255) <= 1) by (split; [apply (rnd_ge_Z _ 0)|apply (rnd_le_Z _ 1)]; try lra; cbn; lia).
  assert (U6 : 6 / 2 ^ 25 = 6 * uu) by (unfold uu; lra). assert (U11 : 11 / 2 ^ 25 = 11 * uu) by (unfold uu; lra). rewrite U6, U11.
  destruct (Z.eq_dec n 0) as [E|E].
  - unfold hsv_of_rgb. cbv zeta. fold M. fold n. rewrite E.
    replace (M =? Z.min r (Z.min g b))%Z with true by (unfold n in E; lia).
    assert (F0 : fin (wrap_turn (f32_div (f32_of_Z 0) (f32_of_Z 6))) 0) by (split; reflexivity).
    assert (S0 : fin (if (M =? 0)%Z then f32_of_Z 0 else f32_div (f32_div (f32_of_Z 0) (f32_of_Z 255)) (f32_div (f32_of_Z M) (f32_of_Z 255))) 0).
    { destruct (Z.eqb_spec M 0); [split; reflexivity|]. destruct (ap_byte M HM) as [q [Fq Hq]].
      assert (1 <= IZR M) by (apply IZR_le; lia). apply Rabs_bd in Hq.
      assert (q <> 0) by (intros ->; unfold uu in Hq; lra).
      assert (F1 : fin (f32_div (f32_of_Z 0) (f32_of_Z 255)) 0) by (split; reflexivity).
      assert (Bd : Rabs 0 <= bpow radix2 (128 - 1)) by (rewrite Rabs_R0; apply bpow_ge_0).
      pose proof (div_fin _ _ 0 q F1 Fq ltac:(assumption)) as X. unfold Rdiv in X. rewrite Rmult_0_l in X. specialize (X Bd).
      rewrite (rnd_Z 0) in X by (cbn; lia). exact X. }
    eexists. eexists. eexists. exists 0, 0, (rnd32 (IZR M / 255)). split; [reflexivity|].
    conj; try exact F0; try exact S0; try exact Fv; try lra; try congruence.
    intros Hm. assert (1 <= IZR M) by (apply IZR_le; lia). assert (0 < / IZR M) by (apply Rinv_0_lt_compat; lra).
    unfold Rdiv. rewrite Rmult_0_l, Rminus_0_r, Rabs_R0. unfold uu. lra.
  - assert (Hn' : (1 <= n <= 255)%Z) by lia. assert (HnM : (1 <= n <= M)%Z) by lia.
    destruct (angle_shares r g b Hr Hg Hb ltac:(fold M n; lia)) as [h [x [Eh [[t [Ft [Tb [Tx [q [Fq [Hq Hx]]]]]]] Sh]]]].
    fold M in Eh, Sh. fold n in Eh, Sh, Hx. rewrite Eh.
    pose proof (S_ap M n HnM ltac:(lia)) as [sr [Fs Hs]].
    assert (Nb : 1 <= IZR n <= IZR M) by (split; apply IZR_le; lia).
    eexists. eexists. eexists. exists q, sr, (rnd32 (IZR M / 255)). split; [reflexivity|].
    split; [exact Fq|]. split; [exact Fs|]. split; [exact Fv|]. split; [split; [exact Hq|]|].
    { destruct (Rlt_le_dec q 1) as [?|N]; [assumption|]. exfalso.
      assert (Q2 : q <= 8).
      { destruct (Rle_lt_dec q 8) as [?|N8]; [assumption|]. exfalso.
        (* q is within 11*255 uu of x/6, and x < 7 *)
        change (Z.max r (Z.max g b)) with M in Tx, Hx. fold n in Tx, Hx. apply Rabs_bd in Hx. apply Rabs_bd in Tx.
        assert (255 / IZR n <= 255).
        { apply Rmult_le_reg_r with (IZR n); [lra|]. unfold Rdiv. rewrite Rmult_assoc, Rinv_l; lra. }
        set (d := 255 / IZR n) in *. clear - N8 Hx Tx Tb H. clearbody d. unfold uu in *. lra. }
      assert (X : fin (f32_mul h (f32_of_Z 6)) (rnd32 (q * 6))).
      { apply mul_fin; [exact Fq|apply (of_Z_isZ 6); lia|]. apply (small_bpow 6); [lia|]. rewrite Rabs_pos_eq by lra. cbn. lra. }
      assert (t = rnd32 (q * 6)) by (destruct X, Ft; congruence).
      assert (6 <= rnd32 (q * 6)) by (apply (rnd_ge_Z _ 6); [lra|cbn; lia]). lra. }
    split.
    { destruct (unit_quot _ _ _ _ (byte_fin n ltac:(lia)) Fv) as [s0 [F0 B0]].
      - split; [apply (rnd_ge_Z _ 0); [lra|cbn; lia]|]. apply rnd_le. lra.
      - destruct (ap_byte M HM) as [v0 [F0 H0]]. assert (v0 = rnd32 (IZR M / 255)) by (destruct F0, Fv; congruence). subst v0.
        apply Rabs_bd in H0. unfold uu in H0. lra.
      - assert (s0 = sr) by (destruct F0, Fs; congruence). subst s0. exact B0. }
    split; [exact Vb|]. split; [reflexivity|]. split; [|split].
    + intros _. eapply Rle_trans; [|exact Hs]. right. f_equal. f_equal. field. lra.
    + intros _. exists x. split; [exact Sh|exact Hx].
    + intros Z0. contradiction.
Qed.

(** ** images *)
(** RGB -> HSV (f32) -> RGB on every non-empty RGB(A) image: size, layout and alpha unchanged; every
    colour sample unchanged or one smaller; the maximum of every pixel's colour unchanged; gray pixels unchanged *)
Theorem C64_round_trip p (img : image Z) : wf img -> samples is_u8 img -> colors (info_of img) = 3%Z ->
  (0 < width (info_of img) * height (info_of img))%Z ->
  exists hsv out, rgb_to_hsv_f32 p img = Ret hsv /\ hsv_to_rgb_f32 p hsv = Ret out /\ info_of out = info_of img /\ wf out
    /\ forall x y, inside img x y ->
         if alpha (info_of img)
         then forall cs a, pixel_at img x y = cs ++ [a] -> exists cs', pixel_at out x y = cs' ++ [a] /\ close_below cs cs'
                            /\ (forall c, cs = [c; c; c] -> cs' = cs)
         else close_below (pixel_at img x y) (pixel_at out x y) /\ (forall c, pixel_at img x y = [c; c; c] -> pixel_at out x y = pixel_at img x y).
Proof.
  intros Hwf Hu Hc Hne. destruct (C48_alpha_round_trip p (Libm (fun x _ => x) (fun x => x) (fun x => x)) D50) as [_ [_ H]].
  destruct (H img Hwf Hu Hc Hne) as [out [E [R I]]]. destruct (bind_inv _ _ _ E) as [hsv [E1 E2]].
  exists hsv, out. split; [exact E1|]. split; [exact E2|]. split; [exact I|]. destruct R as [Wo [_ R]]. split; [exact Wo|].
  assert (K : forall cs, len cs = 3%Z -> Forall is_u8 cs -> close_below cs (rgb_of_hsv (hsv_of_rgb cs)) /\ (forall c, cs = [c; c; c] -> rgb_of_hsv (hsv_of_rgb cs) = cs)).
  { intros cs Hl HF. destruct (triple' cs Hl) as [r [g [b ->]]]. rewrite Forall_forall in HF.
    destruct (C64_colour_round_trip r g b) as [r' [g' [b' [-> [[A1 [A2 [A3 A4]]] A5]]]]]; try (apply HF; cbn; tauto). split; [split|].
    - repeat constructor; lia.
    - cbn [fold_right]. lia.
    - intros c Ec. injection Ec as -> -> ->. apply A5; reflexivity. }
  intros x y Hin. specialize (R x y Hin). pose proof (pixels_samples is_u8 img x y Hu) as FP.
  pose proof (pixel_at_len img Hwf x y Hin) as Li. unfold colors in Hc.
  destruct (alpha (info_of img)).
  - intros cs a Ep. rewrite (R cs a Ep). rewrite Ep, len_app in Li. rewrite Ep in FP. apply Forall_app in FP as [FP _].
    assert (Hl : len cs = 3%Z) by (unfold len in *; cbn in Li; lia). destruct (K cs Hl FP) as [K1 K2].
    eexists. split; [reflexivity|]. split; [exact K1|exact K2].
  - rewrite R. assert (Hl : len (pixel_at img x y) = 3%Z) by lia. destruct (K _ Hl FP) as [K1 K2]. split; [exact K1|exact K2].
Qed.

(** exact round trip is refuted: (0, 1, 6) comes back as (0, 0, 6) *)
Theorem C64_exact_round_trip_refuted : rgb_of_hsv (hsv_of_rgb [0; 1; 6]%Z) = [0; 0; 6]%Z.
Proof. vm_compute. reflexivity. Qed.
Example C64_example : wf ex_rgba /\ samples is_u8 ex_rgba /\ colors (info_of ex_rgba) = 3%Z
  /\ (0 < width (info_of ex_rgba) * height (info_of ex_rgba))%Z.
Proof. split; [exact ex_rgba_wf|]. split; [exact ex_rgba_u8|]. split; reflexivity. Qed.
