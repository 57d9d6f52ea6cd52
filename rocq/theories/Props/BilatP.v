(** * C80: the bilateral filter against the real bilateral mean *)
From Coq Require Import Lra.
From Flocq Require Import Core BinarySingleNaN.
From Verif.Model Require Import Util MathM Filter.
From Verif.Spec Require Import ImageS FloatS FilterS BsplineS PowS GaussS BilateralS BilatRealS ConvS.
From Verif.Proofs Require Import BaseL ImageL FloatL FloatL2 ApproxL PowL SrgbL ExpPiL GaussL RotL WmeanL BilatL BilateralL.
From Verif.Props Require Import BilateralP.
Open Scope Z_scope.

(** side of the window against the real value of spatial *)
Lemma window_bound (spatial : f32) gs h : fin spatial gs -> (0 <= gs <= 64)%R -> window spatial = 2 * h + 1 -> 0 <= h ->
  (IZR h <= 2 * gs + / 32768)%R /\ h <= 128.
Proof.
  intros Fs Hg Hw Hh. unfold window in Hw.
  assert (A4 : approx (F32 4) 4 0) by (apply (ap_Z 4); lia).
  assert (M : approx (f32_mul spatial (F32 4)) (gs * 4) (256 * uu)).
  { apply (ap_round 8 _ (gs * 4)%R _ 0) with (e := 0%R) || idtac.
    destruct A4 as [r4 [F4 H4]]. assert (r4 = 4%R) as -> by (apply Rabs_bd in H4; lra).
    exists (rnd32 (gs * 4)). split.
    - apply mul_fin; [exact Fs|exact F4|]. apply (small_bpow 8); [lia|]. change (2 ^ 8) with 256. rewrite Rabs_pos_eq; lra.
    - change 256%R with (IZR (2 ^ 8)). apply rnd_err; [lia|]. change (2 ^ 8) with 256. rewrite Rabs_pos_eq; lra. }
  assert (S : approx (f32_add (f32_mul spatial (F32 4)) (F32 1)) (gs * 4 + 1) (768 * uu)).
  { apply (ap_add 9 _ _ _ _ (256 * uu) 0); [exact M|apply (ap_Z 1); lia|lia| |].
    - change (2 ^ 9) with 512. rewrite Rabs_pos_eq by lra. unfold uu. lra.
    - change (2 ^ 9) with 512. unfold uu. lra. }
  destruct S as [r [F H]]. apply Rabs_bd in H.
  unfold f32_to_int in Hw. rewrite (to_int_fin U32 _ _ ltac:(cbn; lia) F) in Hw.
  assert (R0 : (0 <= r)%R) by (unfold uu in H; lra).
  rewrite Ztrunc_floor in Hw by exact R0. unfold clampZ in Hw. cbn [lo hi U32] in Hw.
  pose proof (Zfloor_lb r) as L.
  assert (Hz : 2 * h + 1 <= Zfloor r) by lia.
  apply IZR_le in Hz. rewrite plus_IZR, mult_IZR in Hz.
  assert (B : (IZR h <= 2 * gs + / 32768)%R) by (unfold uu in H; lra). split; [exact B|].
  assert (IZR h < 129)%R by lra. apply lt_IZR in H0. lia.
Qed.

Section Pixel.
  Context (lm : libm) (range spatial : f32) (gr gs : R) (h : Z) (lab : image f32) (v : Z -> Z -> Z -> R) (x y c : Z).
  Context (HP : gauss_pow_ok (powf lm)) (Fr : fin range gr) (Hgr : (/ 256 <= gr <= 256)%R) (Fs : fin spatial gs) (Hgs : (0 <= gs <= 64)%R).
  Context (Hw : window spatial = 2 * h + 1) (Hh : 1 <= h).
  Let X dx := padded (width (info_of lab)) x dx.
  Let Y dy := padded (height (info_of lab)) y dy.
  Context (Hin : inside lab x y).
  Context (Hv : forall dx dy, Z.abs dx <= h -> Z.abs dy <= h ->
             fin (value lab (X dx) (Y dy) c) (v (X dx) (Y dy) c) /\ (Rabs (v x y c - v (X dx) (Y dy) c) <= 9 * gr)%R).

  Lemma gs_low : (0.49 <= gs)%R.
  Proof using All.
    destruct (window_bound spatial gs h Fs Hgs Hw ltac:(lia)) as [B _]. assert (1 <= IZR h)%R by (apply IZR_le; lia). lra.
  Qed.
  Lemma in_offsets d : In d (offsets (window spatial)) -> Z.abs (fst d) <= h /\ Z.abs (snd d) <= h.
  Proof using All.
    rewrite Hw. unfold offsets. replace ((2 * h + 1) / 2) with h by (Z.to_euclidean_division_equations; lia).
    intros H. apply in_flat_map in H as [dy [H1 H2]]. apply in_map_iff in H2 as [dx [<- H2]]. apply in_zrange in H1, H2. cbn [fst snd]. lia.
  Qed.
  Lemma X_0 : X 0 = x /\ Y 0 = y.
  Proof using All.
    unfold X, Y, padded. destruct Hin as [H1 H2]. rewrite !Z.add_0_r.
    replace ((0 <=? x) && (x <? width (info_of lab))) with true by (symmetry; apply andb_true_iff; lia).
    replace ((0 <=? y) && (y <? height (info_of lab))) with true by (symmetry; apply andb_true_iff; lia). auto.
  Qed.

  Notation Ks := (1 / (2 * PI * (gs * gs)))%R.
  Notation Kr := (1 / (2 * PI * (gr * gr)))%R.
  Let val (d : Z * Z) := v (X (fst d)) (Y (snd d)) c.
  Let sim (d : Z * Z) := similarity gs gr (fst d) (snd d) (v x y c) (val d).
  Let centre (d : Z * Z) := (fst d =? 0) && (snd d =? 0).
  Let w (d : Z * Z) : R := if centre d then 0%R else (Ks * Kr * sim d)%R.
  Let W (d : Z * Z) := bweight lm range spatial (fst d) (snd d) (value lab x y c) (value lab (X (fst d)) (Y (snd d)) c).

  Lemma sim_pos d : (0 < sim d)%R. Proof using All. apply Rmult_lt_0_compat; apply exp_pos. Qed.
  Lemma range_exp d : Z.abs (fst d) <= h -> Z.abs (snd d) <= h -> (0 <= (v x y c - val d) ^ 2 / (2 * gr ^ 2) <= 40.5)%R.
  Proof using All.
    intros H1 H2. destruct (Hv (fst d) (snd d) H1 H2) as [_ H]. fold (val d) in H.
    assert (G2 : (0 < gr ^ 2)%R) by (apply pow_lt; lra).
    split; [apply Rmult_le_pos; [apply pow2_ge_0|left; apply Rinv_0_lt_compat; lra]|].
    apply Rmult_le_reg_r with (2 * gr ^ 2)%R; [lra|]. unfold Rdiv. rewrite Rmult_assoc, Rinv_l, Rmult_1_r by lra.
    replace (40.5 * (2 * gr ^ 2))%R with ((9 * gr) ^ 2)%R by lra. rewrite <- (Rabs_pos_eq ((v x y c - val d) ^ 2)) by apply pow2_ge_0.
    rewrite <- RPow_abs. apply pow_incr. split; [apply Rabs_pos|exact H].
  Qed.
  Lemma spatial_exp d : Z.abs (fst d) <= h -> Z.abs (snd d) <= h ->
    (0 <= IZR (fst d ^ 2 + snd d ^ 2) / (2 * gs ^ 2) <= 5)%R /\ 0 <= fst d ^ 2 + snd d ^ 2 <= 32768.
  Proof using All.
    intros H1 H2. destruct (window_bound spatial gs h Fs Hgs Hw ltac:(lia)) as [B B2]. pose proof gs_low as GL.
    assert (Hz : 0 <= fst d ^ 2 + snd d ^ 2 <= 2 * (h * h)) by nia.
    assert (G2 : (0 < gs ^ 2)%R) by (apply pow_lt; lra). split; [|nia]. destruct Hz as [Hz1 Hz2]. apply IZR_le in Hz1, Hz2. rewrite !mult_IZR in Hz2.
    split; [apply Rmult_le_pos; [lra|left; apply Rinv_0_lt_compat; lra]|].
    apply Rmult_le_reg_r with (2 * gs ^ 2)%R; [lra|]. unfold Rdiv. rewrite Rmult_assoc, Rinv_l, Rmult_1_r by lra.
    assert (1 <= IZR h)%R by (apply IZR_le; lia).
    assert (IZR h <= 2.001 * gs)%R by lra. assert (IZR h * IZR h <= (2.001 * gs) * (2.001 * gs))%R by (apply Rmult_le_compat; lra). nra.
  Qed.
  Lemma exp_low40 z : (0 <= z <= 40.5)%R -> (bpow radix2 (-59) <= exp (- z))%R.
  Proof using All.
    intros Hz. apply Rle_trans with (exp (- (40.5))).
    - rewrite exp_Ropp. change (-59) with (- (59)). rewrite bpow_opp. apply Rinv_le_contravar; [apply exp_pos|].
      assert (E : (exp 40.5 * exp 40.5 = exp 1 ^ 81)%R).
      { rewrite <- exp_plus. rewrite <- Rpower_pow by apply exp_pos. unfold Rpower. rewrite ln_exp. f_equal. rewrite INR_IZR_INZ. change (Z.of_nat 81) with 81. lra. }
      assert (E2 : (exp 1 ^ 81 <= bpow radix2 59 * bpow radix2 59)%R).
      { apply Rle_trans with ((27182819 / 10000000) ^ 81)%R; [apply pow_incr; pose proof e_bounds; pose proof (exp_pos 1); lra|].
        unfold Rdiv. rewrite Rpow_mult_distr, pow_inv. rewrite !pow_IZR. rewrite <- bpow_plus. change (bpow radix2 (59 + 59)) with (IZR (2 ^ 118)).
        assert (P : (0 < IZR (10000000 ^ Z.of_nat 81))%R) by (apply IZR_lt; vm_compute; reflexivity).
        apply Rmult_le_reg_r with (IZR (10000000 ^ Z.of_nat 81)); [exact P|]. rewrite Rmult_assoc, Rinv_l, Rmult_1_r by lra.
        rewrite <- mult_IZR. apply IZR_le. vm_compute. discriminate. }
      apply Rnot_lt_le. intros C. pose proof (bpow_gt_0 radix2 59). nra.
    - destruct (Req_dec z 40.5) as [->|]; [lra|]. left. apply exp_increasing. lra.
  Qed.
  Lemma exp_low5 z : (0 <= z <= 5)%R -> (bpow radix2 (-8) <= exp (- z))%R.
  Proof using All.
    intros Hz. apply Rle_trans with (exp (- (5))).
    - rewrite exp_Ropp. change (-8) with (- (8)). rewrite bpow_opp. apply Rinv_le_contravar; [apply exp_pos|].
      assert (E : (exp 5 = exp 1 ^ 5)%R).
      { rewrite <- Rpower_pow by apply exp_pos. unfold Rpower. rewrite ln_exp. f_equal. rewrite INR_IZR_INZ. change (Z.of_nat 5) with 5. lra. }
      rewrite E. apply Rle_trans with (2.75 ^ 5)%R; [apply pow_incr; pose proof e_bounds; pose proof (exp_pos 1); lra|].
      change (bpow radix2 8) with 256%R. lra.
    - destruct (Req_dec z 5) as [->|]; [lra|]. left. apply exp_increasing. lra.
  Qed.
  Lemma exp_le1 z : (0 <= z)%R -> (exp (- z) <= 1)%R.
  Proof using All. intros H. rewrite <- exp_0. destruct (Req_dec z 0) as [->|]; [rewrite Ropp_0; lra|left; apply exp_increasing; lra]. Qed.

  Lemma K_bounds : (/ 500000 <= Ks <= 65536 /\ / 500000 <= Kr <= 65536)%R.
  Proof using All.
    pose proof gs_low. split; [apply (K_range lm HP spatial gs Fs)|apply (K_range lm HP range gr Fr)]; lra.
  Qed.
  Lemma sim_bounds d : Z.abs (fst d) <= h -> Z.abs (snd d) <= h -> (bpow radix2 (-67) <= sim d <= 1)%R.
  Proof using All.
    intros H1 H2. pose proof (range_exp d H1 H2) as R1. destruct (spatial_exp d H1 H2) as [R2 _].
    unfold sim, similarity. split.
    - change (-67) with (-8 + -59). rewrite bpow_plus. apply Rmult_le_compat; try apply bpow_ge_0; [apply exp_low5|apply exp_low40]; assumption.
    - replace 1%R with (1 * 1)%R by lra. apply Rmult_le_compat; try (left; apply exp_pos); apply exp_le1; [apply R2|apply R1].
  Qed.
  Lemma prod_bounds d : Z.abs (fst d) <= h -> Z.abs (snd d) <= h -> (bpow radix2 (-107) <= Ks * Kr * sim d <= 4294967296)%R.
  Proof using All.
    intros H1 H2. destruct K_bounds as [K1 K2]. pose proof (sim_bounds d H1 H2) as SB. pose proof (bpow_gt_0 radix2 (-67)) as BP. split.
    - change (-107) with (-20 + -20 + -67). rewrite !bpow_plus. assert (bpow radix2 (-20) <= / 500000)%R by (cbn; lra). pose proof (bpow_ge_0 radix2 (-20)).
      repeat (apply Rmult_le_compat; try lra); apply Rmult_le_pos; lra.
    - replace 4294967296%R with (65536 * 65536 * 1)%R by lra. repeat (apply Rmult_le_compat; try lra); apply Rmult_le_pos; lra.
  Qed.

  Lemma weight_ok d : In d (offsets (window spatial)) -> (w d = 0 \/ low <= w d)%R /\ frel (W d) (w d) (3850 * uu).
  Proof using All.
    intros Hd. destruct (in_offsets d Hd) as [H1 H2]. destruct (Hv (fst d) (snd d) H1 H2) as [F1 _].
    assert (F0 : fin (value lab x y c) (v x y c)).
    { destruct X_0 as [E1 E2]. destruct (Hv 0 0) as [F _]; [lia|lia|]. rewrite E1, E2 in F. exact F. }
    pose proof (range_exp d H1 H2) as RE. destruct (spatial_exp d H1 H2) as [SE SZ]. pose proof (prod_bounds d H1 H2) as PB.
    pose proof gs_low as GL. destruct K_bounds as [K1 K2].
    pose proof (range_frel lm HP range gr Fr Hgr _ _ _ _ F0 F1 ltac:(fold (val d); lra)) as RF. fold (val d) in RF.
    unfold w, W, bweight. destruct (centre d) eqn:Ec.
    - split; [left; reflexivity|]. unfold closeness. unfold centre in Ec. rewrite Ec.
      destruct RF as [r [Fq Hq]]. exists 0%R. split; [|unfold rel; rewrite Rmult_0_r, Rminus_diag_eq, Rabs_R0 by reflexivity; lra].
      replace 0%R with (rnd32 (0 * r)) by (rewrite Rmult_0_l; unfold rnd32; apply (rnd_Z 0); cbn; lia).
      apply mul_fin; [split; reflexivity|exact Fq|]. rewrite Rmult_0_l, Rabs_R0. apply bpow_ge_0.
    - split.
      + right. apply Rle_trans with (2 := proj1 PB). unfold low. apply bpow_le. lia.
      + pose proof (spatial_frel lm HP spatial gs Fs ltac:(lra) (fst d) (snd d) Ec ltac:(lia) ltac:(lra)) as SF.
        assert (Es : (Ks * Kr * sim d = (Ks * exp (- (IZR (fst d ^ 2 + snd d ^ 2) / (2 * gs ^ 2)))) * (Kr * exp (- ((v x y c - val d) ^ 2 / (2 * gr ^ 2)))))%R).
        { unfold sim, similarity. ring. }
        rewrite Es in *.
        apply (frel_mul_w _ _ _ _ (1900 * uu) (1900 * uu) _ SF RF).
        * apply Rmult_lt_0_compat; [lra|apply exp_pos].
        * apply Rmult_lt_0_compat; [lra|apply exp_pos].
        * split; [apply Rle_trans with (2 := proj1 PB); unfold tiny; apply bpow_le; lia|]. pose proof huge_big. lra.
        * unfold uu; lra.
        * unfold uu; lra.
        * unfold uu; lra.
  Qed.

  Lemma mean_eq : bilateral_mean lm range spatial lab x y c
    = f32_div (weighted_sum (map (fun d => (W d, value lab (X (fst d)) (Y (snd d)) c)) (offsets (window spatial))))
              (fold_left f32_add (map fst (map (fun d => (W d, value lab (X (fst d)) (Y (snd d)) c)) (offsets (window spatial)))) f32_0).
  Proof using All.
    unfold bilateral_mean. cbv zeta.
    assert (E : map (fun '(dx, dy) => (bweight lm range spatial dx dy (value lab x y c) (neighbour lab x y c dx dy), neighbour lab x y c dx dy)) (offsets (window spatial))
              = map (fun d => (W d, value lab (X (fst d)) (Y (snd d)) c)) (offsets (window spatial))) by (apply map_ext; intros [dx dy]; reflexivity).
    rewrite E. reflexivity.
  Qed.
  Lemma offsets_len : len (offsets (window spatial)) = (2 * h + 1) ^ 2.
  Proof using All.
    rewrite Hw. unfold offsets. replace ((2 * h + 1) / 2) with h by (Z.to_euclidean_division_equations; lia).
    assert (G : forall (f : Z -> list (Z * Z)) k l, (forall i, len (f i) = k) -> len (flat_map f l) = k * len l).
    { clear. intros f k l H. induction l as [|a l IH]; [cbn; lia|]. cbn [flat_map]. rewrite len_app, H, IH, len_cons. lia. }
    rewrite (G _ (2 * h + 1)); [rewrite len_zrange by lia; lia|]. intros i. rewrite len_map, len_zrange; lia.
  Qed.
  Lemma in_off_10 : In (1, 0) (offsets (window spatial)).
  Proof using All.
    rewrite Hw. unfold offsets. replace ((2 * h + 1) / 2) with h by (Z.to_euclidean_division_equations; lia).
    apply in_flat_map. exists 0. split; [apply in_zrange; lia|]. apply in_map_iff. exists 1. split; [reflexivity|]. apply in_zrange; lia.
  Qed.

  Lemma sum_filter {A} (f : A -> bool) (k : R) g l : sum_over l (fun d => if f d then 0 else k * g d)%R = (k * sum_over (filter (fun d => negb (f d)) l) g)%R.
  Proof using. induction l as [|a l IH]; [cbn; lra|]. rewrite sum_over_cons, IH. cbn [filter]. destruct (f a); cbn [negb]; rewrite ?sum_over_cons; lra. Qed.
  Lemma around_eq : around h = filter (fun d => negb (centre d)) (offsets (window spatial)).
  Proof using All.
    rewrite Hw. unfold offsets, around. replace ((2 * h + 1) / 2) with h by (Z.to_euclidean_division_equations; lia).
    apply filter_ext. intros [dx dy]. reflexivity.
  Qed.
  Lemma sum_over_ext_in {A} (l : list A) f g : (forall i, In i l -> f i = g i) -> sum_over l f = sum_over l g.
  Proof using. induction l as [|a l IH]; intros H; [reflexivity|]. rewrite !sum_over_cons, (H a (or_introl eq_refl)), IH; [reflexivity|]. intros i Hi. apply H. right. exact Hi. Qed.
  Lemma sum_le {A} (l : list A) f (b : R) : (forall i, In i l -> f i <= b)%R -> (sum_over l f <= b * IZR (len l))%R.
  Proof using.
    induction l as [|a l IH]; intros H; [cbn; lra|]. rewrite sum_over_cons, len_cons, plus_IZR.
    pose proof (H a (or_introl eq_refl)). specialize (IH (fun i Hi => H i (or_intror Hi))). lra.
  Qed.
  Lemma sum_ge_one {A} (l : list A) f a : (forall i, In i l -> 0 <= f i)%R -> In a l -> (f a <= sum_over l f)%R.
  Proof using.
    intros H Ha. induction l as [|j l IH]; [destruct Ha|]. rewrite sum_over_cons.
    assert (0 <= sum_over l f)%R by (apply sum_over_nonneg; intros k Hk; apply H; right; exact Hk).
    destruct Ha as [->|Ha]; [lra|]. specialize (IH (fun k Hk => H k (or_intror Hk)) Ha). pose proof (H j (or_introl eq_refl)). lra.
  Qed.

  Context (m : R) (Hm : (1 <= m <= 1048576)%R) (Hmv : forall dx dy, Z.abs dx <= h -> Z.abs dy <= h -> (Rabs (v (X dx) (Y dy) c) <= m)%R).

  Lemma n_range : (9 <= IZR ((2 * h + 1) ^ 2) <= 66049)%R.
  Proof using All.
    destruct (window_bound spatial gs h Fs Hgs Hw ltac:(lia)) as [_ B]. split; apply IZR_le; nia.
  Qed.

  Lemma accuracy : exists r, fin (bilateral_mean lm range spatial lab x y c) r
    /\ (Rabs (r - mean_around gs gr h (info_of lab) v x y c) <= m * (1013 + IZR ((2 * h + 1) ^ 2)) / 4194304)%R.
  Proof using All.
    rewrite mean_eq. pose proof n_range as NR. destruct K_bounds as [K1 K2].
    assert (W0 : forall d, In d (offsets (window spatial)) -> (0 <= w d)%R).
    { intros d Hd. destruct (weight_ok d Hd) as [[->|H] _]; [lra|]. pose proof low_pos. lra. }
    destruct (wmean W (fun d => value lab (X (fst d)) (Y (snd d)) c) w val m (3850 * uu) (offsets (window spatial))) as [r [Fq Hq]].
    - lra.
    - unfold uu; lra.
    - intros d Hd. destruct (weight_ok d Hd) as [H1 H2]. destruct (in_offsets d Hd) as [B1 B2]. destruct (Hv _ _ B1 B2) as [F1 _].
      split; [exact H1|]. split; [exact H2|]. split; [exact F1|]. apply Hmv; assumption.
    - apply Rle_trans with (w (1, 0)); [|apply sum_ge_one; [exact W0|apply in_off_10]].
      destruct (weight_ok (1, 0) in_off_10) as [[H|H] _]; [|exact H]. exfalso.
      pose proof (prod_bounds (1, 0)) as PB. cbn [fst snd] in PB. specialize (PB ltac:(lia) ltac:(lia)). pose proof (bpow_gt_0 radix2 (-107)).
      change (w (1, 0)) with (Ks * Kr * sim (1%Z, 0%Z))%R in H. lra.
    - apply Rle_trans with (1048576 * (4294967296 * IZR (len (offsets (window spatial)))))%R.
      + apply Rmult_le_compat; try lra; [apply sum_over_nonneg; exact W0|]. apply sum_le. intros d Hd. destruct (in_offsets d Hd) as [B1 B2].
        pose proof (prod_bounds d B1 B2) as PB. unfold w. destruct (centre d); lra.
      + rewrite offsets_len. apply Rle_trans with (1048576 * (4294967296 * 66049))%R; [nra|].
        apply Rle_trans with (bpow radix2 100); [change (bpow radix2 100) with 1267650600228229401496703205376%R; lra|].
        unfold huge. replace (bpow radix2 120 / 4)%R with (bpow radix2 118); [apply bpow_le; lia|]. change 118 with (120 + -2). rewrite bpow_plus. reflexivity.
    - pose proof huge_big. lra.
    - rewrite offsets_len. unfold uu. lra.
    - exists r. split; [exact Fq|].
      assert (E : (sum_over (offsets (window spatial)) (fun d => w d * val d) / sum_over (offsets (window spatial)) w)%R = mean_around gs gr h (info_of lab) v x y c).
      { unfold mean_around. cbv zeta. rewrite around_eq.
        assert (E1 : sum_over (offsets (window spatial)) (fun d => w d * val d)%R = (Ks * Kr * sum_over (filter (fun d => negb (centre d)) (offsets (window spatial))) (fun d => sim d * val d))%R).
        { rewrite <- (sum_filter centre (Ks * Kr)%R (fun d => sim d * val d)%R). apply sum_over_ext_in. intros d _. unfold w. destruct (centre d); ring. }
        assert (E2 : sum_over (offsets (window spatial)) w = (Ks * Kr * sum_over (filter (fun d => negb (centre d)) (offsets (window spatial))) sim)%R).
        { rewrite <- sum_filter. reflexivity. }
        rewrite E1, E2.
        assert (SP : (0 < sum_over (filter (fun d => negb (centre d)) (offsets (window spatial))) sim)%R).
        { apply Rlt_le_trans with (sim (1, 0)); [apply sim_pos|]. apply sum_ge_one; [intros; left; apply sim_pos|].
          apply filter_In. split; [apply in_off_10|reflexivity]. }
        change (sum_over (filter (fun d => negb (centre d)) (offsets (window spatial)))
                  (fun d => similarity gs gr (fst d) (snd d) (v x y c) (v (padded (width (info_of lab)) x (fst d)) (padded (height (info_of lab)) y (snd d)) c)))
          with (sum_over (filter (fun d => negb (centre d)) (offsets (window spatial))) sim).
        change (sum_over (filter (fun d => negb (centre d)) (offsets (window spatial)))
                  (fun d => similarity gs gr (fst d) (snd d) (v x y c) (v (padded (width (info_of lab)) x (fst d)) (padded (height (info_of lab)) y (snd d)) c)
                            * v (padded (width (info_of lab)) x (fst d)) (padded (height (info_of lab)) y (snd d)) c)%R)
          with (sum_over (filter (fun d => negb (centre d)) (offsets (window spatial))) (fun d => sim d * val d)%R).
        set (A1 := sum_over _ _). set (A2 := sum_over _ sim) in *. assert (0 < Ks * Kr)%R by (apply Rmult_lt_0_compat; lra).
        generalize dependent (Ks * Kr)%R. clearbody A1 A2. intros; field. lra. }
      rewrite <- E. eapply Rle_trans; [exact Hq|]. rewrite offsets_len. unfold uu. nra.
  Qed.
End Pixel.
