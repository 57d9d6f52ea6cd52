(** * Rotation: one coordinate *)
From Coq Require Import Lra.
From Flocq Require Import Core BinarySingleNaN.
From Verif.Model Require Import MathM Transform.
From Verif.Spec Require Import ImageS FloatS RotateS.
From Verif.Proofs Require Import BaseL ImageL FloatL FloatL2 ApproxL WriteL RotL.
From Verif.Props Require Import FloatP RotateP.
Open Scope Z_scope.

Lemma to_u32_fin (x : f32) r n : fin x r -> (r < IZR n)%R -> 1 <= n <= 4294967295 ->
  0 <= f32_to_int U32 x < n /\ (r - 1 < IZR (f32_to_int U32 x) <= Rmax 0 r)%R.
Proof.
  intros F Hr Hn. unfold f32_to_int. rewrite (to_int_fin U32 x r) by (cbn; try lia; exact F). unfold clampZ. cbn [lo hi U32].
  destruct (Rle_lt_dec 0 r) as [P|N].
  - rewrite Ztrunc_floor by exact P. assert (0 <= Zfloor r < n).
    { split; [apply Zfloor_lub; exact P|]. apply lt_IZR. eapply Rle_lt_trans; [apply Zfloor_lb|exact Hr]. }
    rewrite Z.min_r, Z.max_r by lia. split; [exact H|]. rewrite Rmax_right by exact P. pose proof (Zfloor_lb r). pose proof (Zfloor_ub r). lra.
  - rewrite Ztrunc_ceil by lra. assert (Zceil r <= 0) by (apply Zceil_glb; cbn; lra). rewrite Rmax_left by lra.
    assert (E : Z.max 0 (Z.min 4294967295 (Zceil r)) = 0) by lia.
    rewrite ?E. split; [lia|]. cbn. lra.
Qed.

(** ** one coordinate *)
Section Axis.
  Context (w h k : Z) (Hw : 1 <= w) (Hh : 1 <= h) (Hk : 0 <= k <= 22) (Hwh : w + h + 2 <= 2 ^ k).
  Notation x := (w / 2). Notation y := (h / 2).
  Context (m0 m1 : R) (G0 : fmt m0) (G1 : fmt m1).
  Context (B0 : (Rabs m0 <= 1)%R) (B1 : (Rabs m1 <= 1)%R) (BS : (1 <= Rabs m0 + Rabs m1 <= 1.45)%R).
  Notation P1 := (T m0 m1 (- IZR x) (IZR y)). Notation P2 := (T m0 m1 (IZR (w - x)) (IZR y)).
  Notation P3 := (T m0 m1 (- IZR x) (- IZR (h - y))). Notation P4 := (T m0 m1 (IZR (w - x)) (- IZR (h - y))).
  Context (M N : R) (M1 : (P1 <= M)%R) (M2 : (P2 <= M)%R) (M3 : (P3 <= M)%R) (M4 : (P4 <= M)%R) (ME : M = P1 \/ M = P2 \/ M = P3 \/ M = P4).
  Context (N1 : (N <= P1)%R) (N2 : (N <= P2)%R) (N3 : (N <= P3)%R) (N4 : (N <= P4)%R) (NE : N = P1 \/ N = P2 \/ N = P3 \/ N = P4).

  Lemma half_w : 0 <= x /\ x <= w - x <= x + 1 /\ 1 <= w - x.
  Proof. pose proof (Z.div_mod w 2 ltac:(lia)). pose proof (Z.mod_pos_bound w 2 ltac:(lia)). lia. Qed.
  Lemma half_h : 0 <= y /\ y <= h - y <= y + 1 /\ 1 <= h - y.
  Proof. pose proof (Z.div_mod h 2 ltac:(lia)). pose proof (Z.mod_pos_bound h 2 ltac:(lia)). lia. Qed.

  Lemma in_box a b : (- IZR x <= a <= IZR (w - x))%R -> (- IZR (h - y) <= b <= IZR y)%R -> (N <= T m0 m1 a b <= M)%R.
  Proof.
    intros Ha Hb. split.
    - apply (box_ge m0 m1 (- IZR x) (IZR (w - x)) (- IZR (h - y)) (IZR y)); assumption.
    - apply (box_le m0 m1 (- IZR x) (IZR (w - x)) (- IZR (h - y)) (IZR y)); assumption.
  Qed.
  Lemma reals : (0 <= IZR x)%R /\ (IZR x <= IZR (w - x) <= IZR x + 1)%R /\ (1 <= IZR (w - x))%R
             /\ (0 <= IZR y)%R /\ (IZR y <= IZR (h - y) <= IZR y + 1)%R /\ (1 <= IZR (h - y))%R.
  Proof.
    destruct half_w as (A & B & C). destruct half_h as (D & E & F).
    rewrite <- !plus_IZR. repeat split; apply IZR_le; lia.
  Qed.
  Lemma M_nonneg : (0 <= M)%R.
  Proof. destruct reals as (A & B & C & D & E & F). rewrite <- (T_0 m0 m1). apply in_box; lra. Qed.
  Lemma N_nonpos : (N <= 0)%R.
  Proof. destruct reals as (A & B & C & D & E & F). rewrite <- (T_0 m0 m1). apply in_box; lra. Qed.
  Lemma M_fmt : fmt M.
  Proof. destruct ME as [->|[->|[->| ->]]]; unfold T; apply generic_format_round; try apply vexp; apply valid_rnd_N. Qed.

  Lemma width_ge_1 : (1 <= M - N)%R.
  Proof.
    destruct reals as (A & B & C & D & E & F).
    pose proof (in_box 1 0 ltac:(lra) ltac:(lra)) as [L10 U10]. pose proof (in_box 0 (-1) ltac:(lra) ltac:(lra)) as [L01 U01].
    pose proof (in_box 1 (-1) ltac:(lra) ltac:(lra)) as [L11 U11]. pose proof M_nonneg. pose proof N_nonpos.
    assert (E10 : T m0 m1 1 0 = m0).
    { unfold T. rewrite Rmult_1_r, Rmult_0_r, rnd_0, Rplus_0_r, rnd_rnd. apply rnd_fmt. exact G0. }
    assert (E01 : T m0 m1 0 (-1) = (- m1)%R).
    { unfold T. rewrite Rmult_0_r, rnd_0, Rplus_0_l, rnd_rnd. replace (m1 * -1)%R with (- m1)%R by ring. apply rnd_fmt. apply generic_format_opp. exact G1. }
    assert (E11 : T m0 m1 1 (-1) = rnd32 (m0 - m1)).
    { unfold T. replace (m1 * -1)%R with (- m1)%R by ring. rewrite Rmult_1_r. f_equal. unfold Rminus. f_equal; apply rnd_fmt; [exact G0|apply generic_format_opp; exact G1]. }
    rewrite E10 in *. rewrite E01 in *. rewrite E11 in *.
    destruct (Rle_lt_dec 0 m0) as [P0|Q0], (Rle_lt_dec 0 m1) as [P1'|Q1].
    - rewrite !Rabs_pos_eq in BS by lra. lra.
    - rewrite Rabs_pos_eq in BS by lra. rewrite Rabs_left in BS by lra.
      assert (1 <= rnd32 (m0 - m1))%R by (apply (rnd_ge_Z _ 1); [lra|cbn; lia]). lra.
    - rewrite (Rabs_pos_eq m1) in BS by lra. rewrite (Rabs_left m0) in BS by lra.
      assert (rnd32 (m0 - m1) <= -1)%R by (apply (rnd_le_Z _ (-1)); [lra|cbn; lia]). lra.
    - rewrite !Rabs_left in BS by lra. lra.
  Qed.
  Notation K := (IZR (2 ^ k)).
  Lemma K_wh : (IZR w + IZR h + 2 <= K <= 4194304)%R.
  Proof.
    rewrite <- !plus_IZR. split; [apply IZR_le; exact Hwh|]. apply (IZR_le _ 4194304). change 4194304 with (2 ^ 22). apply Z.pow_le_mono_r; lia.
  Qed.
  (** errors at points of the box *)
  Lemma box_err a b : (- IZR x <= a <= IZR (w - x))%R -> (- IZR (h - y) <= b <= IZR y)%R ->
    (Rabs (T m0 m1 a b - (m0 * a + m1 * b)) <= 4 * K * uu /\ Rabs (m0 * a + m1 * b) <= IZR w + IZR h)%R.
  Proof.
    intros Ha Hb. destruct reals as (A & B & C & D & E & F). pose proof K_wh.
    assert (IZR w = IZR x + IZR (w - x))%R as Ew by (rewrite <- plus_IZR; f_equal; lia).
    assert (IZR h = IZR y + IZR (h - y))%R as Eh by (rewrite <- plus_IZR; f_equal; lia).
    assert (Rabs a <= IZR w)%R by (apply Rabs_le'; lra). assert (Rabs b <= IZR h)%R by (apply Rabs_le'; lra).
    split.
    - apply T_err; [lia|exact B0|exact B1|lra].
    - eapply Rle_trans; [apply Rabs_triang|]. pose proof (unit_mul m0 a _ B0 H0). pose proof (unit_mul m1 b _ B1 H1). lra.
  Qed.
  Lemma width_le : (M - N <= 8388606)%R.
  Proof.
    destruct reals as (A & B & C & D & E & F). pose proof K_wh.
    assert (HM : forall a b, (- IZR x <= a <= IZR (w - x))%R -> (- IZR (h - y) <= b <= IZR y)%R -> (Rabs (T m0 m1 a b) <= IZR w + IZR h + 1/2)%R).
    { intros a b Ha Hb. destruct (box_err a b Ha Hb) as [E1 E2]. unfold uu in E1.
      replace (T m0 m1 a b) with ((T m0 m1 a b - (m0 * a + m1 * b)) + (m0 * a + m1 * b))%R by ring.
      eapply Rle_trans; [apply Rabs_triang|]. lra. }
    assert (Rabs M <= IZR w + IZR h + 1/2)%R by (destruct ME as [->|[->|[->| ->]]]; apply HM; lra).
    assert (Rabs N <= IZR w + IZR h + 1/2)%R by (destruct NE as [->|[->|[->| ->]]]; apply HM; lra).
    apply Rabs_bd in H0, H1. lra.
  Qed.
  (** the symmetric box *)
  Lemma sym_box a b : (- IZR x <= a <= IZR x)%R -> (- IZR y <= b <= IZR y)%R -> (T m0 m1 a b <= - N)%R.
  Proof.
    intros Ha Hb. destruct reals as (A & B & C & D & E & F).
    destruct (in_box (- a) (- b) ltac:(lra) ltac:(lra)) as [L _]. rewrite T_opp in L. lra.
  Qed.
  Lemma small_M : (M < / 2)%R -> (M - N < 2.99)%R.
  Proof.
    intros Hs. destruct reals as (A & B & C & D & E & F).
    assert (Hge : forall u, (/ 2 <= u -> / 2 <= rnd32 u)%R).
    { intros u Hu. apply rnd_ge_fmt; [exact Hu|]. change (/ 2)%R with (bpow radix2 (-1)). apply generic_format_bpow. vm_compute. discriminate. }
    assert (X : (Rabs m0 * IZR x < / 2)%R).
    { apply Rnot_le_lt. intros Cn. specialize (Hge _ Cn).
      assert (exists a, (- IZR x <= a <= IZR x)%R /\ (m0 * a = Rabs m0 * IZR x)%R) as [a [Ha Ea]].
      { destruct (Rle_lt_dec 0 m0); [exists (IZR x); rewrite Rabs_pos_eq by lra|exists (- IZR x)%R; rewrite Rabs_left by lra]; split; lra. }
      destruct (in_box a 0 ltac:(lra) ltac:(lra)) as [_ U]. unfold T in U. rewrite Ea, Rmult_0_r, rnd_0, Rplus_0_r, rnd_rnd in U. lra. }
    assert (Y : (Rabs m1 * IZR y < / 2)%R).
    { apply Rnot_le_lt. intros Cn. specialize (Hge _ Cn).
      assert (exists a, (- IZR y <= a <= IZR y)%R /\ (m1 * a = Rabs m1 * IZR y)%R) as [a [Ha Ea]].
      { destruct (Rle_lt_dec 0 m1); [exists (IZR y); rewrite Rabs_pos_eq by lra|exists (- IZR y)%R; rewrite Rabs_left by lra]; split; lra. }
      destruct (in_box 0 a ltac:(lra) ltac:(lra)) as [_ U]. unfold T in U. rewrite Ea, Rmult_0_r, rnd_0, Rplus_0_l, rnd_rnd in U. lra. }
    pose proof (Rabs_pos m0). pose proof (Rabs_pos m1).
    assert (HT : forall a b, (- IZR x <= a <= IZR (w - x))%R -> (- IZR (h - y) <= b <= IZR y)%R -> (- 2.46 <= T m0 m1 a b)%R).
    { intros a b Ha Hb.
      assert (Xa : (Rabs (m0 * a) <= / 2 + Rabs m0)%R).
      { rewrite Rabs_mult. assert (Rabs a <= IZR x + 1)%R by (apply Rabs_le'; lra).
        apply Rle_trans with (Rabs m0 * (IZR x + 1))%R; [apply Rmult_le_compat_l; lra|lra]. }
      assert (Yb : (Rabs (m1 * b) <= / 2 + Rabs m1)%R).
      { rewrite Rabs_mult. assert (Rabs b <= IZR y + 1)%R by (apply Rabs_le'; lra).
        apply Rle_trans with (Rabs m1 * (IZR y + 1))%R; [apply Rmult_le_compat_l; lra|lra]. }
      assert (e0 : (Rabs (rnd32 (m0 * a) - m0 * a) <= IZR (2 ^ 1) * uu)%R) by (apply rnd_err; [lia|]; change (IZR (2 ^ 1)) with 2%R; lra).
      assert (e1 : (Rabs (rnd32 (m1 * b) - m1 * b) <= IZR (2 ^ 1) * uu)%R) by (apply rnd_err; [lia|]; change (IZR (2 ^ 1)) with 2%R; lra).
      change (IZR (2 ^ 1)) with 2%R in e0, e1. apply Rabs_bd in e0, e1, Xa, Yb. unfold uu in e0, e1.
      unfold T. set (s := (rnd32 (m0 * a) + rnd32 (m1 * b))%R).
      assert (Bs : (- 2.451 <= s <= 2.451)%R) by (unfold s; lra).
      assert (e2 : (Rabs (rnd32 s - s) <= IZR (2 ^ 2) * uu)%R) by (apply rnd_err; [lia|]; change (IZR (2 ^ 2)) with 4%R; apply Rabs_le'; lra).
      change (IZR (2 ^ 2)) with 4%R in e2. apply Rabs_bd in e2. unfold uu in e2. lra. }
    assert (- 2.46 <= N)%R by (destruct NE as [->|[->|[->| ->]]]; apply HT; lra). lra.
  Qed.
  (** pixel (i, j) *)
  Lemma pixel_box i j : 0 <= i < w -> 0 <= j < h ->
    (- IZR x <= IZR (i - x) <= IZR x)%R /\ (- IZR y <= IZR (y - j) <= IZR y)%R.
  Proof. intros Hi Hj. destruct half_w as (A & B & C). destruct half_h as (D & E & F). rewrite <- !opp_IZR. repeat split; apply IZR_le; lia. Qed.

  (** the extremes against the real ones *)
  Lemma greatest_err R0 : greatest (fun '(a, b) => m0 * a + m1 * b)%R (corners w h) R0 -> (Rabs (M - R0) <= 4 * K * uu)%R.
  Proof.
    intros [[[a b] [Hin ->]] Hg]. destruct reals as (A & B & C & D & E & F).
    assert (Hc : forall a b, In (a, b) (corners w h) -> (- IZR x <= a <= IZR (w - x))%R /\ (- IZR (h - y) <= b <= IZR y)%R /\ (T m0 m1 a b <= M)%R).
    { intros a' b' H'. unfold corners in H'. cbn [In] in H'. destruct H' as [H'|[H'|[H'|[H'|[]]]]]; injection H' as <- <-; repeat split; try lra; assumption. }
    apply Rabs_le'.
    - destruct (Hc a b Hin) as (Ha & Hb & HT). destruct (box_err a b Ha Hb) as [E1 _]. apply Rabs_bd in E1. lra.
    - assert (exists a b, In (a, b) (corners w h) /\ M = T m0 m1 a b) as (a' & b' & Hin' & EM).
      { unfold corners. cbn [In]. destruct ME as [EM|[EM|[EM|EM]]]; (do 2 eexists; split; [|exact EM]; tauto). }
      destruct (Hc a' b' Hin') as (Ha & Hb & HT). destruct (box_err a' b' Ha Hb) as [E1 _]. apply Rabs_bd in E1. specialize (Hg (a', b') Hin'). cbn in Hg. rewrite EM. lra.
  Qed.
  Lemma extent_err : (Rabs (M - N - (Rabs m0 * IZR w + Rabs m1 * IZR h)) <= 8 * K * uu)%R.
  Proof.
    destruct reals as (A & B & C & D & E & F).
    assert (IZR w = IZR x + IZR (w - x))%R as Ew by (rewrite <- plus_IZR; f_equal; lia).
    assert (IZR h = IZR y + IZR (h - y))%R as Eh by (rewrite <- plus_IZR; f_equal; lia).
    assert (forall a b, (- IZR x <= a <= IZR (w - x))%R -> (- IZR (h - y) <= b <= IZR y)%R ->
      (m0 * a + m1 * b - 4 * K * uu <= T m0 m1 a b <= m0 * a + m1 * b + 4 * K * uu)%R) as BE.
    { intros a b Ha Hb. destruct (box_err a b Ha Hb) as [E1 _]. apply Rabs_bd in E1. lra. }
    pose proof (BE (- IZR x) (IZR y) ltac:(lra) ltac:(lra))%R as Q1. pose proof (BE (IZR (w - x)) (IZR y) ltac:(lra) ltac:(lra))%R as Q2.
    pose proof (BE (- IZR x) (- IZR (h - y)) ltac:(lra) ltac:(lra))%R as Q3. pose proof (BE (IZR (w - x)) (- IZR (h - y)) ltac:(lra) ltac:(lra))%R as Q4.
    rewrite Ew, Eh. clear BE B0 B1 BS.
    destruct (Rle_lt_dec 0 m0) as [P0|Q0], (Rle_lt_dec 0 m1) as [P1'|Q1'];
      rewrite ?(Rabs_pos_eq m0), ?(Rabs_pos_eq m1), ?(Rabs_left m0), ?(Rabs_left m1) by lra.
    all: assert (0 <= Rabs m0 * IZR x)%R by (apply Rmult_le_pos; [apply Rabs_pos|lra]); assert (0 <= Rabs m0 * IZR (w - x))%R by (apply Rmult_le_pos; [apply Rabs_pos|lra]);
      assert (0 <= Rabs m1 * IZR y)%R by (apply Rmult_le_pos; [apply Rabs_pos|lra]); assert (0 <= Rabs m1 * IZR (h - y))%R by (apply Rmult_le_pos; [apply Rabs_pos|lra]);
      rewrite ?(Rabs_pos_eq m0), ?(Rabs_pos_eq m1), ?(Rabs_left m0), ?(Rabs_left m1) in * by lra.
    all: apply Rabs_le'; [lra|].
    all: destruct ME as [EM|[EM|[EM|EM]]], NE as [EN|[EN|[EN|EN]]]; rewrite EM, EN in *; lra.
  Qed.
End Axis.

Lemma fin_fmt (X : f32) r : fin X r -> fmt r.
Proof. intros [_ <-]. apply fmt_B2R. Qed.
Lemma last_write_in {A} (ws : list (write (T := A))) X Y d :
  last_write ws X Y d = d \/ exists w, In w ws /\ hits X Y w = true /\ last_write ws X Y d = snd w.
Proof.
  revert d. induction ws as [|w ws IH]; intros d; [left; reflexivity|]. cbn [last_write fold_left].
  destruct (IH (if hits X Y w then snd w else d)) as [E|[w' [Hin [Hh E]]]]; unfold last_write in E |- *.
  - destruct (hits X Y w) eqn:Eh; rewrite E; [right; exists w; split; [left; reflexivity|split; [exact Eh|reflexivity]]|left; reflexivity].
  - right. exists w'. split; [right; exact Hin|split; [exact Hh|exact E]].
Qed.
Lemma last_write_hit {A} (ws : list (write (T := A))) X Y d w0 : In w0 ws -> hits X Y w0 = true ->
  exists w, In w ws /\ hits X Y w = true /\ last_write ws X Y d = snd w.
Proof.
  revert d. induction ws as [|w ws IH]; intros d Hin Hh; [destruct Hin|]. cbn [last_write fold_left]. destruct Hin as [->|Hin].
  - rewrite Hh. destruct (last_write_in ws X Y (snd w0)) as [E|[w' (Hin & Hh' & E)]]; unfold last_write in E.
    + exists w0. split; [left; reflexivity|split; [exact Hh|exact E]].
    + exists w'. split; [right; exact Hin|split; [exact Hh'|exact E]].
  - destruct (IH (if hits X Y w then snd w else d) Hin Hh) as [w' (Hin' & Hh' & E)]. exists w'. split; [right; exact Hin'|split; [exact Hh'|exact E]].
Qed.
