(** * From CIELAB back to sRGB: error analysis against the real formulas *)
From Coq Require Import Lra.
From Verif.Model Require Import Base Float.
From Verif.Spec Require Import FloatS PowS ConvS LabS LabInvS.
From Verif.Proofs Require Import BaseL FloatL FloatL2 ApproxL PowL SrgbL SrgbL2 SrgbL3 LabL.
From Flocq Require Import Core BinarySingleNaN.
Open Scope R_scope.

Lemma wide_ok pow : pow_wide pow -> pow_ok pow.
Proof. intros H x y r s Fx Fy Hr Hs. apply (H x y r s); auto. lra. Qed.

Lemma ln_bound32 x : / 1024 <= x <= 32 -> Rabs (ln x) <= 10.
Proof.
  intros H. destruct (Rle_lt_dec x 2) as [L|G]; [apply ln_bound; lra|].
  assert (E : x = 16 * (x / 16)) by field. rewrite E, ln_mult by lra.
  assert (L16 : ln 16 = 4 * ln 2). { replace 16 with (2 * 2 * (2 * 2)) by ring. rewrite !ln_mult by lra. ring. }
  assert (L2 : 0 <= ln 2 <= 1). { split; [rewrite <- ln_1; left; apply ln_increasing; lra|]. rewrite <- (ln_exp 1). left. apply ln_increasing; [lra|]. pose proof (exp_ineq1 1 ltac:(lra)). lra. }
  assert (U : ln (x / 16) <= ln 2). { destruct (Req_dec (x / 16) 2) as [->|N]; [lra|]. left. apply ln_increasing; lra. }
  assert (V : - ln 16 <= ln (x / 16)).
  { rewrite <- ln_Rinv by lra. left. apply ln_increasing; lra. }
  rewrite L16 in *. apply Rabs_le'; lra.
Qed.
(** the root of the transfer curve *)
Lemma root_ap pow X r s S : pow_wide pow -> fin X r -> 0.003 <= r <= 32 -> fin S s -> Rabs (s - / 2.2) <= 2 * uu ->
  approx (pow X S) (Rpower r (/ 2.2)) (Rpower r (/ 2.2) * (80 * uu)).
Proof.
  intros HP Fx Hr Fs Hs. pose proof (Rabs_bd _ _ Hs) as Hb. destruct (HP X S r s Fx Fs ltac:(lra) ltac:(unfold uu in *; lra)) as [q [Fq Hq]].
  exists q. split; [exact Fq|]. pose proof (Rpower_pos r (/ 2.2)) as P. set (y := Rpower r (/ 2.2)) in *.
  assert (D : Rabs (Rpower r s - y) <= y * (40 * uu)).
  { replace s with (/ 2.2 + (s - / 2.2)) by ring. rewrite Rpower_plus. fold y.
    replace (y * Rpower r (s - / 2.2) - y) with (y * (Rpower r (s - / 2.2) - 1)) by ring. rewrite Rabs_mult, (Rabs_pos_eq y) by lra.
    apply Rmult_le_compat_l; [lra|]. unfold Rpower. pose proof (ln_bound32 r ltac:(lra)) as Hl.
    assert (B : Rabs ((s - / 2.2) * ln r) <= 2 * uu * 10) by (rewrite Rabs_mult; apply Rmult_le_compat; try apply Rabs_pos; assumption).
    eapply Rle_trans; [apply exp_near; unfold uu in *; lra|]. lra. }
  apply Rabs_bd in D. apply Rabs_bd in Hq.
  assert (0 <= y * uu) by (apply Rmult_le_pos; unfold uu; lra). assert (y * (40 * uu) <= y * / 64) by (apply Rmult_le_compat_l; unfold uu; lra).
  replace (/ 1048576) with (32 * uu) in * by (unfold uu; lra). apply Rabs_le'; unfold uu in *; lra.
Qed.

Lemma to_byte_floor X q : fin X q -> f32_to_int U8 X = Z.max 0 (Z.min 255 (Zfloor q)).
Proof.
  intros F. unfold f32_to_int. rewrite (to_int_fin U8 X q ltac:(cbn; lia) F). unfold clampZ. cbn [lo hi U8].
  destruct (Rle_lt_dec 0 q) as [P|P].
  - rewrite Ztrunc_floor by exact P. reflexivity.
  - assert (Ztrunc q <= 0)%Z.
    { unfold Ztrunc. rewrite Rlt_bool_true by exact P. unfold Zceil. assert (0 <= Zfloor (- q))%Z; [|lia].
      apply Zfloor_lub. cbn. lra. }
    assert (Zfloor q <= 0)%Z. { apply le_IZR. eapply Rle_trans; [apply Zfloor_lb|]. lra. }
    lia.
Qed.

Lemma encode_shows pow X x e : pow_wide pow -> approx X x e -> -30 <= x <= 31 -> e + uu <= / 1000 -> shows (e + uu) (srgb_encode pow X) x.
Proof.
  intros HP [r [Fr Hr]] Hx He. unfold srgb_encode. pose proof (Rabs_bd _ _ Hr) as Hb.
  assert (T : approx (f32_dec 31308 7) 0.0031308 (uu / 100)) by const_ap. destruct T as [th [Fth Hth]].
  assert (Tge : 0.0031308 <= th).
  { assert (T2 : exists t, fin (f32_dec 31308 7) t /\ 0.0031308 <= t).
    { assert (T3 : approx (f32_dec 31308 7) (0.0031308 + 0.000000000091) (uu / 10000)) by const_ap. destruct T3 as [t [Ft Ht]].
      exists t. split; [exact Ft|]. apply Rabs_bd in Ht. unfold uu in Ht. lra. }
    destruct T2 as [t [[_ <-] Ht]]. destruct Fth as [_ <-]. exact Ht. }
  apply Rabs_bd in Hth. change (f32_leb X (f32_dec 31308 7)) with (Bleb X (f32_dec 31308 7)).
  rewrite (leb_fin X (f32_dec 31308 7) r th Fr Fth).
  assert (Pe : 0 <= e) by (pose proof (Rabs_pos (r - x)); lra).
  destruct (Rle_lt_dec r th) as [L|G].
  - rewrite Rle_bool_true by exact L.
    assert (C : approx (f32_dec 32946 1) 3294.6 (4096 * uu)) by const_ap.
    destruct (Rle_lt_dec r (-1)) as [N|N].
    + (* far below: 0 *)
      assert (M : approx (f32_mul X (f32_dec 32946 1)) (r * 3294.6) 0.2).
      { apply (ap_mul 17 31 3294.6 _ _ _ _ 0 (4096 * uu)); [apply fin_ap; exact Fr|exact C|lia| | | |]; try (apply Rabs_le'); unfold uu in *; cbn; lra. }
      destruct M as [q [Fq Hq]]. rewrite (to_byte_floor _ q Fq). exists r, (r * 3294.6).
      split; [unfold uu in *; lra|]. split.
      * unfold encode. destruct (Rle_dec r 0.0031308); [|lra]. rewrite Rminus_diag_eq, Rabs_R0 by lra. lra.
      * apply Rabs_bd in Hq. assert (Zfloor q <= 0)%Z by (apply le_IZR; eapply Rle_trans; [apply Zfloor_lb|]; lra).
        assert (Zfloor (r * 3294.6) <= 0)%Z by (apply le_IZR; eapply Rle_trans; [apply Zfloor_lb|]; lra). lia.
    + assert (M : approx (f32_mul X (f32_dec 32946 1)) (r * 3294.6) (/ 300)).
      { apply (ap_mul 12 1 3294.6 _ _ _ _ 0 (4096 * uu)); [apply fin_ap; exact Fr|exact C|lia| | | |]; try (apply Rabs_le'); unfold uu in *; cbn; lra. }
      destruct M as [q [Fq Hq]]. rewrite (to_byte_floor _ q Fq). apply Rabs_bd in Hq.
      exists (Rmin r 0.0031308), q. split; [|split; [|reflexivity]].
      * unfold Rmin. destruct (Rle_dec r 0.0031308); apply Rabs_le'; unfold uu in *; lra.
      * unfold Rmin, encode. destruct (Rle_dec r 0.0031308); [destruct (Rle_dec r 0.0031308); [|lra]|destruct (Rle_dec 0.0031308 0.0031308); [|lra]];
          apply Rabs_le'; unfold uu in *; lra.
  - rewrite Rle_bool_false by exact G.
    assert (A3 : approx (f32_div (f32_of_Z 1) (f32_dec 22 1)) (/ 2.2) (2 * uu)) by const_ap. destruct A3 as [s [Fs Hs]].
    pose proof (root_ap pow X r s _ HP Fr ltac:(unfold uu in *; lra) Fs Hs) as A.
    assert (Y : 0 < Rpower r (/ 2.2) <= 5).
    { split; [apply Rpower_pos|]. replace (/ 2.2) with (INR 5 / INR 11) by (cbn; lra). apply Rpower_le_root; [unfold uu in *; lra|lra|lia|].
      apply Rle_trans with (32 ^ 5); [apply pow_incr; unfold uu in *; lra|cbn; lra]. }
    set (y := Rpower r (/ 2.2)) in *.
    assert (Ye : y * (80 * uu) <= 5 * (80 * uu)) by (apply Rmult_le_compat_r; unfold uu; lra).
    assert (C1 : approx (f32_dec 269025 3) 269.025 (512 * uu)) by const_ap.
    assert (C2 : approx (f32_dec 14025 3) 14.025 (28 * uu)) by const_ap.
    assert (M : approx (f32_mul (f32_dec 269025 3) (pow X (f32_div (f32_of_Z 1) (f32_dec 22 1)))) (269.025 * y) (/ 280)).
    { apply (ap_mul 11 269.025 5 _ _ _ _ (512 * uu) (5 * (80 * uu))); [exact C1|eapply ap_weaken; [exact A|exact Ye]|lia| | | |]; try (rewrite Rabs_pos_eq by lra); unfold uu; cbn; lra. }
    assert (S : approx (f32_sub (f32_mul (f32_dec 269025 3) (pow X (f32_div (f32_of_Z 1) (f32_dec 22 1)))) (f32_dec 14025 3)) (269.025 * y - 14.025) (/ 260)).
    { apply (ap_sub 11 _ _ _ _ (/ 280) (28 * uu)); [exact M|exact C2|lia| |]; [assert (Rabs (269.025 * y - 14.025) <= 1400) by (apply Rabs_le'; lra)|]; unfold uu; cbn; lra. }
    destruct S as [q [Fq Hq]]. rewrite (to_byte_floor _ q Fq). exists r, q. split; [unfold uu in *; lra|]. split; [|reflexivity].
    unfold encode. destruct (Rle_dec r 0.0031308); [lra|]. fold y. lra.
Qed.

(** the inverse curve *)
Lemma uncurve_hi n : dl < n -> lab_uncurve n = n ^ 3.
Proof. intros H. unfold lab_uncurve. fold dl. destruct (Rlt_dec dl n); [reflexivity|lra]. Qed.
Lemma uncurve_lo n : n <= dl -> lab_uncurve n = 3 * dl ^ 2 * (n - 4 / 29).
Proof. intros H. unfold lab_uncurve. fold dl. destruct (Rlt_dec dl n); [lra|reflexivity]. Qed.
Lemma uncurve_lip_le s t : s <= t -> t <= 2 -> 0 <= lab_uncurve t - lab_uncurve s <= 12 * (t - s).
Proof.
  intros H Ht. assert (J : 3 * dl ^ 2 * (dl - 4 / 29) = dl ^ 3) by (unfold dl; field).
  assert (Cu : forall a b, dl <= a -> a <= b -> b <= 2 -> 0 <= b ^ 3 - a ^ 3 <= 12 * (b - a)).
  { intros a b Ha Hab Hb. assert (0 < dl) by (unfold dl; lra). replace (b ^ 3 - a ^ 3) with ((b - a) * (b * b + b * a + a * a)) by ring.
    assert (0 <= b * b <= 4) by (split; [apply Rmult_le_pos; lra|replace 4 with (2 * 2) by lra; apply Rmult_le_compat; lra]).
    assert (0 <= b * a <= 4) by (split; [apply Rmult_le_pos; lra|replace 4 with (2 * 2) by lra; apply Rmult_le_compat; lra]).
    assert (0 <= a * a <= 4) by (split; [apply Rmult_le_pos; lra|replace 4 with (2 * 2) by lra; apply Rmult_le_compat; lra]).
    split; [apply Rmult_le_pos; lra|]. rewrite (Rmult_comm 12). apply Rmult_le_compat_l; lra. }
  assert (Li : forall a b, a <= b -> 0 <= 3 * dl ^ 2 * (b - 4 / 29) - 3 * dl ^ 2 * (a - 4 / 29) <= 12 * (b - a)).
  { intros a b Hab. replace (3 * dl ^ 2 * (b - 4 / 29) - 3 * dl ^ 2 * (a - 4 / 29)) with (3 * dl ^ 2 * (b - a)) by ring.
    assert (0 <= 3 * dl ^ 2 <= 1) by (unfold dl; lra). split; [apply Rmult_le_pos; lra|]. apply Rmult_le_compat_r; lra. }
  destruct (Rlt_le_dec dl s) as [G|L].
  - rewrite !uncurve_hi by lra. apply Cu; lra.
  - destruct (Rlt_le_dec dl t) as [G|L'].
    + rewrite (uncurve_lo s), (uncurve_hi t) by lra. pose proof (Cu dl t ltac:(lra) ltac:(lra) Ht). pose proof (Li s dl L). lra.
    + rewrite !uncurve_lo by lra. apply Li. exact H.
Qed.
Lemma uncurve_mono s t : s <= t -> t <= 2 -> lab_uncurve s <= lab_uncurve t.
Proof. intros H H2. pose proof (uncurve_lip_le s t H H2). lra. Qed.
Lemma uncurve_range n : -1.001 <= n <= 1.99 -> -0.15 <= lab_uncurve n <= 7.9.
Proof.
  intros H. pose proof (uncurve_mono (-1.001) n ltac:(lra) ltac:(lra)) as A. pose proof (uncurve_mono n 1.99 ltac:(lra) ltac:(lra)) as B.
  rewrite (uncurve_lo (-1.001)) in A by (unfold dl; lra). rewrite (uncurve_hi 1.99) in B by (unfold dl; lra). unfold dl in *. lra.
Qed.
Lemma lab_inv_ap pow N n : pow_ok pow -> fin N n -> -1.001 <= n <= 1.99 -> approx (lab_f_inv pow N) (lab_uncurve n) (265 * uu).
Proof.
  intros HP Fn Hn. unfold lab_f_inv. destruct delta_ap as [d [Fd Hd]]. apply Rabs_bd in Hd.
  change (f32_ltb delta N) with (Bltb delta N). rewrite (ltb_fin delta N d n Fd Fn).
  assert (F3 : fin (f32_of_Z 3) 3) by (apply (of_Z_isZ 3); lia).
  destruct (Rlt_le_dec d n) as [G|L].
  - rewrite Rlt_bool_true by exact G.
    destruct (HP N (f32_of_Z 3) n 3 Fn F3) as [q [Fq Hq]]; try (unfold dl, uu in *; lra).
    rewrite Rpower_3 in Hq by (unfold dl, uu in *; lra). exists q. split; [exact Fq|].
    assert (N3 : 0 <= n ^ 3 <= 7.9). { split; [apply pow_le; unfold dl, uu in *; lra|]. apply Rle_trans with (1.99 ^ 3); [apply pow_incr; unfold dl, uu in *; lra|lra]. }
    apply Rabs_bd in Hq. destruct (Rlt_le_dec dl n) as [G'|L'].
    + rewrite uncurve_hi by exact G'. unfold uu in *. apply Rabs_le'; lra.
    + rewrite uncurve_lo by exact L'. pose proof (curves_meet n ltac:(apply Rabs_le'; unfold dl, uu in *; lra)) as M. apply Rabs_bd in M.
      assert (n ^ 3 <= 0.01). { apply Rle_trans with (dl ^ 3); [apply pow_incr; unfold dl, uu in *; lra|unfold dl; lra]. }
      replace (3 * dl ^ 2 * (n - 4 / 29)) with (3 * dl * dl * (n - 4 / 29)) by ring.
      set (k := 3 * dl * dl * (n - 4 / 29)) in *. set (c := n ^ 3) in *. clearbody c k. unfold uu in *. apply Rabs_le'; lra.
  - rewrite Rlt_bool_false by exact L.
    assert (S1 : approx (f32_sub N (f32_div (f32_of_Z 4) (f32_of_Z 29))) (n - 4 / 29) (3 * uu)).
    { apply (ap_sub 1 _ _ _ _ 0 (uu / 4)); [apply fin_ap; exact Fn|exact foot_ap|lia| |]; [assert (Rabs (n - 4 / 29) <= 1.2) by (apply Rabs_le'; unfold dl, uu in *; lra)|]; unfold dl, uu in *; cbn; lra. }
    assert (S2 : approx (f32_mul (f32_mul (f32_mul (f32_of_Z 3) delta) delta) (f32_sub N (f32_div (f32_of_Z 4) (f32_of_Z 29)))) (3 * dl * dl * (n - 4 / 29)) (4 * uu)).
    { apply (ap_mul 0 0.13 1.2 _ _ _ _ uu (3 * uu)); [exact slope_ap|exact S1|lia| | | |]; try (apply Rabs_le'); unfold dl, uu in *; cbn; lra. }
    destruct S2 as [q [Fq Hq]]. exists q. split; [exact Fq|]. apply Rabs_bd in Hq.
    destruct (Rlt_le_dec dl n) as [G'|L'].
    + rewrite uncurve_hi by exact G'. pose proof (curves_meet n ltac:(apply Rabs_le'; unfold dl, uu in *; lra)) as M. apply Rabs_bd in M.
      set (k := 3 * dl * dl * (n - 4 / 29)) in *. set (c := n ^ 3) in *. clearbody c k. unfold uu in *. apply Rabs_le'; lra.
    + rewrite uncurve_lo by exact L'. replace (3 * dl ^ 2 * (n - 4 / 29)) with (3 * dl * dl * (n - 4 / 29)) by ring. unfold uu in *. apply Rabs_le'; lra.
Qed.
(** at a nearby argument *)
Lemma lab_inv_near pow N n e : pow_ok pow -> approx N n e -> -1 <= n <= 1.98 -> e <= / 1000 -> approx (lab_f_inv pow N) (lab_uncurve n) (265 * uu + 12 * e).
Proof.
  intros HP [m [Fm Hm]] Hn He. pose proof (Rabs_bd _ _ Hm) as Hb. destruct (lab_inv_ap pow N m HP Fm ltac:(lra)) as [q [Fq Hq]].
  exists q. split; [exact Fq|]. assert (D : Rabs (lab_uncurve m - lab_uncurve n) <= 12 * e).
  { destruct (Rle_lt_dec m n) as [L|G].
    - pose proof (uncurve_lip_le m n L ltac:(lra)). apply Rabs_le'; lra.
    - pose proof (uncurve_lip_le n m ltac:(lra) ltac:(lra)). apply Rabs_le'; lra. }
  apply Rabs_bd in D. apply Rabs_bd in Hq. apply Rabs_le'; lra.
Qed.

(** one component of XYZ: W * f_inv(N) / 100 *)
Lemma comp_ap pow N W n w e : pow_ok pow -> approx N n e -> -1 <= n <= 1.98 -> 0 <= e <= 20 * uu -> approx W w (128 * uu) -> 80 <= w <= 109 ->
  approx (f32_div (f32_mul W (lab_f_inv pow N)) (f32_of_Z 100)) (w / 100 * lab_uncurve n) (600 * uu).
Proof.
  intros HP HN Hn He HW Hw. pose proof (lab_inv_near pow N n e HP HN Hn ltac:(unfold uu in *; lra)) as A.
  pose proof (uncurve_range n ltac:(lra)) as U. set (t := lab_uncurve n) in *. clearbody t.
  assert (M : approx (f32_mul W (lab_f_inv pow N)) (w * t) (57700 * uu)).
  { apply (ap_mul 10 109 7.9 _ _ _ _ (128 * uu) (505 * uu)); [exact HW|eapply ap_weaken; [exact A|unfold uu in *; lra]|lia| | | |]; try (apply Rabs_le'); unfold uu in *; cbn; lra. }
  replace (w / 100 * t) with (w * t / 100) by (field).
  assert (Bt : Rabs (w * t) <= 862) by (rewrite Rabs_mult; replace 862 with (109 * (862 / 109)) by field; apply Rmult_le_compat; try apply Rabs_pos; apply Rabs_le'; lra).
  eapply (ap_div_exact 4); [exact M|apply (of_Z_isZ 100); lia|lia|lra| |]; unfold uu in *; cbn; lra.
Qed.

(** the three coordinates *)
Lemma coords_ap L A B l a b : fin L l -> fin A a -> fin B b -> moderate (l, a, b) ->
  approx (f32_div (f32_add L (f32_of_Z 16)) (f32_of_Z 116)) ((l + 16) / 116) (5 * uu)
  /\ approx (f32_add (f32_div (f32_add L (f32_of_Z 16)) (f32_of_Z 116)) (f32_div A (f32_of_Z 500))) ((l + 16) / 116 + a / 500) (12 * uu)
  /\ approx (f32_sub (f32_div (f32_add L (f32_of_Z 16)) (f32_of_Z 116)) (f32_div B (f32_of_Z 200))) ((l + 16) / 116 - b / 200) (12 * uu).
Proof.
  intros FL FA FB (H1 & H2 & H3).
  assert (N : approx (f32_div (f32_add L (f32_of_Z 16)) (f32_of_Z 116)) ((l + 16) / 116) (5 * uu)).
  { assert (S : approx (f32_add L (f32_of_Z 16)) (l + 16) (256 * uu)).
    { apply (ap_add 8 _ _ _ _ 0 0); [apply fin_ap; exact FL|apply (ap_Z 16); lia|lia| |unfold uu; cbn; lra].
      assert (Rabs (l + 16) <= 240) by (apply Rabs_le'; lra). cbn. lra. }
    assert (Rabs (l + 16) <= 230) by (apply Rabs_le'; lra).
    apply (ap_div_exact 1 _ _ _ _ (256 * uu)); [exact S|apply (of_Z_isZ 116); lia|lia|lra| |]; unfold uu in *; cbn; lra. }
  split; [exact N|]. split.
  - assert (D : approx (f32_div A (f32_of_Z 500)) (a / 500) (4 * uu)).
    { assert (Rabs a <= 1500) by (apply Rabs_le'; lra). apply (ap_div_exact 2 _ _ _ _ 0); [apply fin_ap; exact FA|apply (of_Z_isZ 500); lia|lia|lra| |]; unfold uu in *; cbn; lra. }
    apply (ap_add 1 _ _ _ _ (5 * uu) (4 * uu)); [exact N|exact D|lia| |unfold uu; cbn; lra].
    assert (Rabs ((l + 16) / 116 + a / 500) <= 1.98) by (apply Rabs_le'; lra). unfold uu in *; cbn; lra.
  - assert (D : approx (f32_div B (f32_of_Z 200)) (b / 200) (4 * uu)).
    { assert (Rabs b <= 600) by (apply Rabs_le'; lra). apply (ap_div_exact 2 _ _ _ _ 0); [apply fin_ap; exact FB|apply (of_Z_isZ 200); lia|lia|lra| |]; unfold uu in *; cbn; lra. }
    apply (ap_sub 1 _ _ _ _ (5 * uu) (4 * uu)); [exact N|exact D|lia| |unfold uu; cbn; lra].
    assert (Rabs ((l + 16) / 116 - b / 200) <= 1.98) by (apply Rabs_le'; lra). unfold uu in *; cbn; lra.
Qed.

(** XYZ to linear RGB *)
Lemma light_ap X Y Z x y z e : approx X x e -> approx Y y e -> approx Z z e -> 0 <= e <= 600 * uu ->
  -0.2 <= x <= 8.8 -> -0.2 <= y <= 8.8 -> -0.2 <= z <= 8.8 ->
  exists A B C, xyz_to_lin [X; Y; Z] = [A; B; C] /\ approx A (fst (fst (xyz_light (x, y, z)))) (5.28 * e + 500 * uu)
    /\ approx B (snd (fst (xyz_light (x, y, z)))) (5.28 * e + 500 * uu) /\ approx C (snd (xyz_light (x, y, z))) (5.28 * e + 500 * uu).
Proof.
  intros HX HY HZ He Hx Hy Hz. eexists _, _, _. split; [reflexivity|].
  assert (Bx : Rabs x <= 8.8) by (apply Rabs_le'; lra). assert (By : Rabs y <= 8.8) by (apply Rabs_le'; lra). assert (Bz : Rabs z <= 8.8) by (apply Rabs_le'; lra).
  unfold xyz_light. cbn [fst snd].
  replace (3.2404542 * x - 1.5371385 * y - 0.4985314 * z) with (3.2404542 * x + (-1.5371385) * y + (-0.4985314) * z) by lra.
  replace (- 0.9692660 * x + 1.8760108 * y + 0.0415560 * z) with ((-0.969266) * x + 1.8760108 * y + 0.041556 * z) by lra.
  replace (0.0556434 * x - 0.2040259 * y + 1.0572252 * z) with (0.0556434 * x + (-0.2040259) * y + 1.0572252 * z) by lra.
  split; [|split]; (eapply (dot_ap 6 _ _ _ _ _ _ _ _ _ _ _ _ (4 * uu) 8.8); [const_ap|const_ap|const_ap|exact HX|exact HY|exact HZ|lia|assumption|assumption|assumption|lra|unfold uu; lra| |]; abs_const; unfold uu in *; cbn; lra).
Qed.

Definition white_ok (W : f32 * f32 * f32) (w : R * R) : Prop := (W = white_d50 /\ w = d50) \/ (W = white_d65 /\ w = d65).
Lemma lab_to_srgb_shows pow W w L A B l a b : pow_wide pow -> white_ok W w -> fin L l -> fin A a -> fin B b -> moderate (l, a, b) ->
  shows3 (/ 8000) (lab_to_srgb pow W [L; A; B]) (lab_light w (l, a, b)).
Proof.
  intros HP Hw FL FA FB Hm. destruct (coords_ap L A B l a b FL FA FB Hm) as [N1 [N2 N3]]. destruct Hm as (M1 & M2 & M3).
  assert (exists xn yn zn xw zw, W = (xn, yn, zn) /\ w = (xw / 100, zw / 100) /\ approx xn xw (128 * uu) /\ approx yn 100 (128 * uu) /\ approx zn zw (128 * uu)
    /\ 95 <= xw <= 97 /\ 82.5 <= zw <= 109) as [xn [yn [zn [xw [zw [Ew [Ed [Ax [Ay [Az [Bx Bz]]]]]]]]]]].
  { destruct whites_ap as [[A1 [A2 A3]] [A4 [A5 A6]]]. destruct Hw as [[-> ->]|[-> ->]]; eexists _, _, _; [exists 96.4212, 82.5188|exists 95.0489, 108.884];
      (split; [reflexivity|]; split; [unfold d50, d65; f_equal; lra|]; split; [assumption|]; split; [assumption|]; split; [assumption|lra]). }
  subst W w. unfold lab_to_srgb, lab_to_xyz, lab_light, lab_xyz. cbv zeta. cbn [fst snd].
  pose proof (comp_ap pow _ xn _ xw _ (wide_ok _ HP) N2 M2 ltac:(unfold uu; lra) Ax ltac:(lra)) as CX.
  pose proof (comp_ap pow _ yn _ 100 _ (wide_ok _ HP) N1 M1 ltac:(unfold uu; lra) Ay ltac:(lra)) as CY.
  pose proof (comp_ap pow _ zn _ zw _ (wide_ok _ HP) N3 M3 ltac:(unfold uu; lra) Az ltac:(lra)) as CZ.
  replace (100 / 100 * lab_uncurve ((l + 16) / 116)) with (lab_uncurve ((l + 16) / 116)) in CY by field.
  pose proof (uncurve_range ((l + 16) / 116) ltac:(lra)) as U1. pose proof (uncurve_range ((l + 16) / 116 + a / 500) ltac:(lra)) as U2. pose proof (uncurve_range ((l + 16) / 116 - b / 200) ltac:(lra)) as U3.
  assert (S : forall w t, 0.8 <= w <= 1.09 -> -0.15 <= t <= 7.9 -> -0.2 <= w * t <= 8.8).
  { intros w0 t Hw0 Ht. split.
    - apply Rle_trans with (w0 * -0.15); [lra|apply Rmult_le_compat_l; lra].
    - apply Rle_trans with (w0 * 7.9); [apply Rmult_le_compat_l; lra|lra]. }
  pose proof (S (xw / 100) _ ltac:(lra) U2) as R1. pose proof (S (zw / 100) _ ltac:(lra) U3) as R3.
  set (x := xw / 100 * _) in *. set (y := lab_uncurve ((l + 16) / 116)) in *. set (z := zw / 100 * _) in *. clearbody x y z.
  destruct (light_ap _ _ _ x y z (600 * uu) CX CY CZ ltac:(unfold uu; lra) ltac:(lra) ltac:(lra) ltac:(lra)) as (A' & B' & C' & E & HA & HB & HC).
  unfold xyz_to_srgb. rewrite E. cbn [map]. eexists _, _, _. split; [reflexivity|].
  assert (Sh : forall X t, approx X t (5.28 * (600 * uu) + 500 * uu) -> -30 <= t <= 31 -> shows (/ 8000) (srgb_encode pow X) t).
  { intros X t HX Ht. destruct (encode_shows pow X t _ HP HX Ht ltac:(unfold uu; lra)) as (x' & q & H1 & H2 & H3). exists x', q. split; [unfold uu in *; lra|]. split; assumption. }
  unfold xyz_light in *. cbn [fst snd] in *. split; [|split]; apply Sh; auto; lra.
Qed.
