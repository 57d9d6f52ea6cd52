(** * C80: bilateral_filter against the real bilateral mean, and pixels that stand out *)
From Coq Require Import Lra.
From Flocq Require Import Core BinarySingleNaN.
From Verif.Model Require Import Util MathM Filter Tone.
From Verif.Spec Require Import ImageS FloatS FilterS BsplineS PowS GaussS BilateralS BilatRealS ConvS ColorS LabS RealFilterS.
From Verif.Proofs Require Import BaseL ImageL ImageOps ToneL FloatL FloatL2 ApproxL PowL SrgbL SrgbL2 SrgbL3 ExpPiL GaussL RotL WmeanL BilatL LabL BilateralL FilterL.
From Verif.Props Require Import ImageP ToneP ConvP SrgbP BilateralP BilatP LabP GaussP.
Open Scope Z_scope.

(** the CIELAB image that the filter works on has finite samples of moderate size *)
Lemma lab_real p lm (img : image Z) : pow_ok (powf lm) -> rgb_input img ->
  exists lab v, srgb_to_lab_f32 p lm img D65 = Ret lab /\ info_of lab = info_of img /\ real_image lab v
    /\ measures img lab (byte_lab d65) (0.0063, 0.0531, 0.0221)%R
    /\ forall x y c, inside img x y -> 0 <= c < channels (info_of img) -> (Rabs (v x y c) <= 512)%R.
Proof.
  intros HP Hi. destruct (C81_lab p lm HP D65 img Hi) as [lab [E M]]. pose proof M as [Wl [Il M0]].
  exists lab, (fun x y c => B2R (value lab x y c)).
  assert (G : forall x y c, inside img x y -> 0 <= c < channels (info_of img) ->
     exists r, fin (value lab x y c) r /\ (Rabs r <= 512)%R).
  { intros x y c Hin Hc. destruct Hi as (Hwf & Hu & Hc3 & Hne).
    destruct (conv_srgb_lab p lm D65 img Hwf Hu Hc3 Hne) as [l1 [E1 [[_ [_ R1]] _]]].
    rewrite E in E1. injection E1 as <-. specialize (R1 x y Hin).
    pose proof (pixel_at_len img Hwf x y Hin) as Lp. assert (HPx : Forall is_u8 (pixel_at img x y)) by (apply pixels_samples; exact Hu).
    assert (C3 : forall r g b, is_u8 r -> is_u8 g -> is_u8 b -> forall k, 0 <= k < 3 ->
      exists q, fin (nth (Z.to_nat k) (srgb_to_lab (powf lm) (white_of D65) [r; g; b]) f32_0) q /\ (Rabs q <= 512)%R).
    { intros r g b Hr Hg Hb k Hk. change (white_of D65) with white_d65. destruct (lab_accurate (powf lm) (white_d65, d65) r g b HP Hr Hg Hb) as [A (fx & fy & fz & Ef & B1 & B2 & B3)]; [right; reflexivity|].
      cbn [fst snd] in A, Ef. rewrite Ef in A. destruct A as (A0 & B0 & C0 & -> & [a [Fa Ha]] & [b' [Fb Hb']] & [c' [Fc Hc']]). cbn [fst snd] in *.
      apply Rabs_bd in Ha, Hb', Hc'.
      assert (k = 0 \/ k = 1 \/ k = 2) as [->|[->| ->]] by lia; cbn; [exists a|exists b'|exists c']; (split; [assumption|]; apply Rabs_le; lra). }
    unfold colors in Hc3. unfold value. unfold len in Lp.
    destruct (alpha (info_of img)).
    - destruct (pixel_at img x y) as [|r [|g [|b [|al [|]]]]]; cbn in Lp; try lia.
      inversion HPx as [|? ? U1 HP1]; subst. inversion HP1 as [|? ? U2 HP2]; subst. inversion HP2 as [|? ? U3 HP3]; subst. inversion HP3 as [|? ? U4 HP4]; subst.
      rewrite (R1 [r; g; b] al eq_refl). specialize (C3 r g b U1 U2 U3).
      destruct (Z.eq_dec c 3) as [->|].
      + destruct (lab_accurate (powf lm) (white_d65, d65) r g b HP U1 U2 U3) as [(A0 & B0 & C0 & El & _) _]; [right; reflexivity|].
        change (white_of D65) with white_d65. cbn [fst snd] in El. rewrite El. exists (IZR al). unfold is_u8 in U4. split; [apply of_Z_isZ; lia|].
        rewrite Rabs_pos_eq by (apply IZR_le; lia). apply IZR_le. lia.
      + destruct (C3 c ltac:(lia)) as [q [Fq Hq]]. exists q. split; [|exact Hq].
        destruct (lab_accurate (powf lm) (white_d65, d65) r g b HP U1 U2 U3) as [(A0 & B0 & C0 & El & _) _]; [right; reflexivity|].
        change (white_of D65) with white_d65 in *. cbn [fst snd] in El. rewrite El in *.
        assert (c = 0 \/ c = 1 \/ c = 2) as [->|[->| ->]] by lia; exact Fq.
    - destruct (pixel_at img x y) as [|r [|g [|b [|]]]]; cbn in Lp; try lia.
      inversion HPx as [|? ? U1 HP1]; subst. inversion HP1 as [|? ? U2 HP2]; subst. inversion HP2 as [|? ? U3 HP3]; subst.
      rewrite R1. apply C3; auto; lia. }
  split; [exact E|]. split; [exact Il|]. split.
  - intros x y c Hin Hc. destruct (G x y c) as [r [F _]]; [unfold inside in *; rewrite <- Il; exact Hin|rewrite <- Il; exact Hc|]. split; [apply F|reflexivity].
  - split; [exact M|]. intros x y c Hin Hc. destruct (G x y c Hin Hc) as [r [[_ Er] Hr]]. rewrite Er. exact Hr.
Qed.

Lemma padded_window w x d h : 0 <= x < w -> Z.abs d <= h -> 0 <= padded w x d < w /\ Z.abs (padded w x d - x) <= h.
Proof. intros Hx Hd. unfold padded. destruct ((0 <=? x + d) && (x + d <? w)) eqn:E; [apply andb_true_iff in E|]; lia. Qed.

(** parameters inside the range of the analysis: h is the number of pixels the window extends to each side *)
Definition bilateral_params (range spatial : f32) (gr gs : R) (h : Z) : Prop :=
  fin range gr /\ (/ 256 <= gr <= 256)%R /\ fin spatial gs /\ (0 <= gs <= 64)%R /\ window spatial = 2 * h + 1 /\ 1 <= h.

Lemma params_checks range spatial gr gs h : bilateral_params range spatial gr gs h ->
  f32_ltb range f32_0 = false /\ f32_ltb spatial f32_0 = false /\ Z.odd (window spatial) = true /\ window spatial <= 65535.
Proof.
  intros (Fr & Hr & Fs & Hs & Hw & Hh). assert (F0 : fin f32_0 0) by (split; reflexivity).
  split; [unfold f32_ltb; rewrite (ltb_fin _ _ _ _ Fr F0); apply Rlt_bool_false; lra|].
  split; [unfold f32_ltb; rewrite (ltb_fin _ _ _ _ Fs F0); apply Rlt_bool_false; lra|].
  destruct (window_bound spatial gs h Fs Hs Hw ltac:(lia)) as [_ B]. rewrite Hw. split; [|lia].
  rewrite Z.odd_add, Z.odd_mul. reflexivity.
Qed.

(** the pixels of the window around (x, y) *)
Definition in_window {T} (img : image T) (h x y x' y' : Z) : Prop := inside img x' y' /\ Z.abs (x' - x) <= h /\ Z.abs (y' - y) <= h.

(** [lab]: the image in CIELAB; [v]: its samples as reals. Where the samples of the window differ from the
    sample in the middle by at most 9 range, the filtered sample is the real bilateral mean of the
    neighbours, to within m (1013 + n) / 2^22, where n is the number of pixels in the window and m bounds the samples. *)
Theorem C80_accuracy p lm b n (img : image Z) range spatial gr gs h :
  pow_ok (powf lm) -> gauss_pow_ok (powf lm) -> bilateral_input b img -> bilateral_params range spatial gr gs h ->
  exists lab v mid out,
    srgb_to_lab_f32 p lm img D65 = Ret lab /\ info_of lab = info_of img /\ real_image lab v
    /\ measures img lab (byte_lab d65) (0.0063, 0.0531, 0.0221)%R
    /\ lab_to_srgb_f32 p lm mid D65 = Ret out /\ info_of mid = info_of img /\ bilateral_filter p lm b n img range spatial = Ret out
    /\ (forall x y c, inside img x y -> 0 <= c < channels (info_of img) -> (Rabs (v x y c) <= 512)%R)
    /\ forall x y c m, inside img x y -> 0 <= c < channels (info_of img) -> (1 <= m <= 1048576)%R ->
       (forall x' y', in_window img h x y x' y' -> (Rabs (v x y c - v x' y' c) <= 9 * gr)%R /\ (Rabs (v x' y' c) <= m)%R) ->
       exists r, fin (value mid x y c) r
         /\ (Rabs (r - mean_around gs gr h (info_of img) v x y c) <= m * (1013 + IZR ((2 * h + 1) ^ 2)) / 4194304)%R.
Proof.
  intros HP HG Hi Hpar. destruct (params_checks _ _ _ _ _ Hpar) as (C1 & C2 & C3 & C4).
  destruct (C59_bilateral p lm b n img range spatial Hi C1 C2 C3 C4) as (lab & mid & out & El & Il & Im & Wm & V & Eo & Ef & _).
  assert (Hin : rgb_input img) by (destruct Hi as (H1 & H2 & H3 & H4 & _); exact (conj H1 (conj H2 (conj H3 H4)))).
  destruct (lab_real p lm img HP Hin) as (lab' & v & El' & _ & RV & M & B). rewrite El in El'. injection El' as <-.
  exists lab, v, mid, out. split; [exact El|]. split; [exact Il|]. split; [exact RV|]. split; [exact M|]. split; [exact Eo|]. split; [exact Im|]. split; [exact Ef|].
  split; [exact B|]. intros x y c m Hxy Hc Hm Hcalm. destruct Hpar as (Fr & Hr & Fs & Hs & Hw & Hh).
  rewrite (V x y c Hxy Hc). rewrite <- Il.
  assert (P : forall dx dy, Z.abs dx <= h -> Z.abs dy <= h ->
     in_window img h x y (padded (width (info_of lab)) x dx) (padded (height (info_of lab)) y dy)).
  { intros dx dy Hx Hy. destruct Hxy as [X1 Y1]. rewrite Il. destruct (padded_window _ x dx h X1 Hx) as [PX PX']. destruct (padded_window _ y dy h Y1 Hy) as [PY PY'].
    split; [split; assumption|]. split; assumption. }
  assert (Hxl : inside lab x y) by (unfold inside in *; rewrite Il; exact Hxy).
  apply (accuracy lm range spatial gr gs h lab v x y c HG Fr Hr Fs Hs Hw Hh Hxl); [|exact Hm|].
  - intros dx dy Hx Hy. pose proof (P dx dy Hx Hy) as W. split; [|apply Hcalm; exact W]. destruct W as [W _].
    apply RV; [unfold inside in *; rewrite Il in *; exact W|rewrite Il; exact Hc].
  - intros dx dy Hx Hy. apply Hcalm. apply P; assumption.
Qed.

(** the real mean lies between the smallest and the largest sample of the window *)
Lemma around_nonempty h : 1 <= h -> In (1, 0) (around h).
Proof.
  intros Hh. unfold around. apply filter_In. split; [|reflexivity]. apply in_flat_map. exists 0. split; [apply in_zrange; lia|].
  apply in_map_iff. exists 1. split; [reflexivity|apply in_zrange; lia].
Qed.
Lemma around_in h d : In d (around h) -> Z.abs (fst d) <= h /\ Z.abs (snd d) <= h /\ d <> (0, 0).
Proof.
  intros H. unfold around in H. apply filter_In in H as [H N]. apply in_flat_map in H as [dy [H1 H2]]. apply in_map_iff in H2 as [dx [<- H2]].
  apply in_zrange in H1, H2. cbn [fst snd]. split; [lia|]. split; [lia|]. intros E. injection E as -> ->. discriminate.
Qed.
Lemma sum_pos_le {A} (l : list A) f g : (forall i, In i l -> f i <= g i)%R -> (sum_over l f <= sum_over l g)%R.
Proof.
  induction l as [|a l IH]; intros H; [cbn; lra|]. rewrite !sum_over_cons. pose proof (H a (or_introl eq_refl)).
  specialize (IH (fun i Hi => H i (or_intror Hi))). lra.
Qed.
Lemma sum_scale {A} (l : list A) f k : (sum_over l (fun i => f i * k) = sum_over l f * k)%R.
Proof. induction l as [|a l IH]; [cbn; lra|]. rewrite !sum_over_cons, IH. lra. Qed.
Theorem C80_mean_between gs gr h inf v x y c (lo hi : R) : 1 <= h -> 0 <= x < width inf -> 0 <= y < height inf ->
  (forall x' y', 0 <= x' < width inf -> 0 <= y' < height inf -> Z.abs (x' - x) <= h -> Z.abs (y' - y) <= h -> (lo <= v x' y' c <= hi)%R) ->
  (lo <= mean_around gs gr h inf v x y c <= hi)%R.
Proof.
  intros Hh Hx Hy H. unfold mean_around. cbv zeta.
  set (val := fun d : Z * Z => v (padded (width inf) x (fst d)) (padded (height inf) y (snd d)) c).
  set (sim := fun d => similarity gs gr (fst d) (snd d) (v x y c) (val d)).
  change (lo <= sum_over (around h) (fun d => sim d * val d)%R / sum_over (around h) sim <= hi)%R.
  assert (SP : forall d, (0 < sim d)%R) by (intros d; apply Rmult_lt_0_compat; apply exp_pos).
  assert (S0 : (0 < sum_over (around h) sim)%R).
  { apply Rlt_le_trans with (sim (1, 0)); [apply SP|]. apply sum_ge_one; [intros; left; apply SP|apply around_nonempty; exact Hh]. }
  assert (HV : forall d, In d (around h) -> (lo <= val d <= hi)%R).
  { intros d Hd. destruct (around_in h d Hd) as (A1 & A2 & _). destruct (padded_window (width inf) x (fst d) h Hx A1) as [P1 P2].
    destruct (padded_window (height inf) y (snd d) h Hy A2) as [P3 P4]. apply H; assumption. }
  split.
  - apply Rmult_le_reg_r with (sum_over (around h) sim); [exact S0|]. unfold Rdiv. rewrite Rmult_assoc, Rinv_l, Rmult_1_r by lra.
    rewrite Rmult_comm, <- sum_scale. apply sum_pos_le. intros d Hd. apply Rmult_le_compat_l; [left; apply SP|apply HV; exact Hd].
  - apply Rmult_le_reg_r with (sum_over (around h) sim); [exact S0|]. unfold Rdiv. rewrite Rmult_assoc, Rinv_l, Rmult_1_r by lra.
    rewrite (Rmult_comm hi), <- sum_scale. apply sum_pos_le. intros d Hd. apply Rmult_le_compat_l; [left; apply SP|apply HV; exact Hd].
Qed.

(** in calm windows the filtered sample stays between the samples of the window, to within the same tolerance *)
Theorem C80_between p lm b n (img : image Z) range spatial gr gs h :
  pow_ok (powf lm) -> gauss_pow_ok (powf lm) -> bilateral_input b img -> bilateral_params range spatial gr gs h ->
  exists lab v mid out,
    srgb_to_lab_f32 p lm img D65 = Ret lab /\ real_image lab v /\ info_of lab = info_of img
    /\ lab_to_srgb_f32 p lm mid D65 = Ret out /\ info_of mid = info_of img /\ bilateral_filter p lm b n img range spatial = Ret out
    /\ forall x y c lo hi, inside img x y -> 0 <= c < channels (info_of img) -> (-512 <= lo)%R -> (hi <= 512)%R -> (hi - lo <= 9 * gr)%R ->
       (forall x' y', in_window img h x y x' y' -> (lo <= v x' y' c <= hi)%R) ->
       exists r, fin (value mid x y c) r
         /\ (lo - (1013 + IZR ((2 * h + 1) ^ 2)) / 8192 <= r <= hi + (1013 + IZR ((2 * h + 1) ^ 2)) / 8192)%R.
Proof.
  intros HP HG Hi Hpar. destruct (C80_accuracy p lm b n img range spatial gr gs h HP HG Hi Hpar) as (lab & v & mid & out & El & Il & RV & _ & Eo & Im & Ef & _ & H).
  exists lab, v, mid, out. split; [exact El|]. split; [exact RV|]. split; [exact Il|]. split; [exact Eo|]. split; [exact Im|]. split; [exact Ef|].
  intros x y c lo hi Hxy Hc Hlo Hhi Hd Hw.
  assert (C0 : in_window img h x y x y).
  { destruct Hpar as (_ & _ & _ & _ & _ & Hh). split; [exact Hxy|]. rewrite !Z.sub_diag. cbn. lia. }
  destruct (H x y c 512%R Hxy Hc ltac:(lra)) as [r [F Hr]].
  - intros x' y' W. pose proof (Hw _ _ W). pose proof (Hw _ _ C0). split; apply Rabs_le; lra.
  - exists r. split; [exact F|]. destruct Hpar as (_ & _ & _ & _ & _ & Hh).
    pose proof (C80_mean_between gs gr h (info_of img) v x y c lo hi Hh (proj1 Hxy) (proj2 Hxy)) as B.
    assert (B' : (lo <= mean_around gs gr h (info_of img) v x y c <= hi)%R).
    { apply B. intros x' y' X1 Y1 X2 Y2. apply Hw. split; [split; assumption|]. split; assumption. }
    apply Rabs_bd in Hr. lra.
Qed.

(** ** pixels that stand out *)

(** powers of e below -105 are 0 (e^-105 is less than half of the smallest positive f32), and NaN^y is NaN *)
Definition underflows (pow : f32 -> f32 -> f32) : Prop :=
  (forall (y : f32) s, fin y s -> (s <= -105)%R -> pow f32_e y = f32_0) /\ (forall y, pow f32_nan y = f32_nan).

Definition is_zero (w : f32) : Prop := exists s, w = B754_zero s.
Lemma fin_zero (x : f32) : fin x 0 -> is_zero x.
Proof.
  intros [F V]. destruct x as [s|s| |s m e Hb]; try discriminate; [exists s; reflexivity|].
  exfalso. cbn in V. destruct s; cbn in V; unfold F2R in V; cbn in V; apply Rmult_integral in V as [V|V]; try (apply eq_IZR in V; discriminate);
    pose proof (bpow_gt_0 radix2 e); cbn in *; lra.
Qed.
Lemma zero_fin x : is_zero x -> fin x 0. Proof. intros [s ->]. split; reflexivity. Qed.
Lemma zero_mul_l (a b : f32) r : is_zero a -> fin b r -> is_zero (f32_mul a b).
Proof.
  intros [s ->] F. destruct b as [s'|s'| |s' m e Hb]; [eexists; reflexivity|destruct F as [F _]; discriminate F|destruct F as [F _]; discriminate F|eexists; reflexivity].
Qed.
Lemma zero_mul_r (a b : f32) r : is_zero b -> fin a r -> is_zero (f32_mul a b).
Proof.
  intros [s ->] F. destruct a as [s'|s'| |s' m e Hb]; [eexists; reflexivity|destruct F as [F _]; discriminate F|destruct F as [F _]; discriminate F|eexists; reflexivity].
Qed.
Lemma zero_add (a b : f32) : is_zero a -> is_zero b -> is_zero (f32_add a b).
Proof. intros [s ->] [s' ->]. destruct s, s'; eexists; reflexivity. Qed.
Lemma zero_sum l a : is_zero a -> Forall is_zero l -> is_zero (fold_left f32_add l a).
Proof. revert a. induction l as [|w l IH]; intros a Ha Hl; [exact Ha|]. inversion Hl; subst. cbn. apply IH; [apply zero_add; assumption|assumption]. Qed.
Lemma zero_wsum (l : list (f32 * f32)) : Forall (fun wv => is_zero (fst wv) /\ exists r, fin (snd wv) r) l -> is_zero (weighted_sum l).
Proof.
  unfold weighted_sum. assert (Z0 : is_zero f32_0) by (exists false; reflexivity). revert Z0. generalize f32_0.
  induction l as [|[w v] l IH]; intros a Ha Hl; [exact Ha|]. inversion Hl as [|? ? [H1 [r H2]] H3]; subst. cbn. apply IH; [|exact H3].
  apply zero_add; [exact Ha|]. apply (zero_mul_l _ _ r); assumption.
Qed.
Lemma zero_div a b : is_zero a -> is_zero b -> f32_div a b = f32_nan.
Proof. intros [s ->] [s' ->]. destruct s, s'; reflexivity. Qed.

(** the range weight of a far value *)
Lemma range_zero lm range gr (A B : f32) a b : gauss_pow_ok (powf lm) -> underflows (powf lm) -> fin range gr -> (/ 256 <= gr <= 256)%R ->
  fin A a -> fin B b -> (15 * gr <= Rabs (a - b) <= 1048576)%R -> is_zero (gauss lm range (f32_abs (f32_sub A B))).
Proof.
  intros HG [HU _] Fr Hr FA FB Hd. set (d := (a - b)%R) in *. pose proof (g2_range gr Hr) as G2.
  destruct (coef_frel lm HG range gr Fr Hr) as [C1 C2]. pose proof (K_range lm HG range gr Fr Hr) as KR.
  pose proof huge_big as HB. pose proof tiny_small as TS.
  assert (FD : frel (f32_abs (f32_sub A B)) (Rabs d) (2.1 * uu)).
  { exists (Rabs (rnd32 d)). split.
    - apply abs_fin. apply sub_fin; [exact FA|exact FB|]. apply huge_fit. fold d. lra.
    - unfold rel. eapply Rle_trans; [apply Rabs_triang_inv2|]. pose proof (rel_err d) as E. rewrite two_uu in E.
      assert (L : (bpow radix2 (-126) <= Rabs d)%R).
      { apply Rle_trans with (bpow radix2 (-5)); [apply bpow_le; lia|]. cbn. lra. }
      specialize (E L). assert (0 <= uu * Rabs d)%R by (apply Rmult_le_pos; [unfold uu; lra|apply Rabs_pos]). lra. }
  assert (Dp : (0 < Rabs d)%R) by lra.
  assert (R2 : frel (f32_mul (f32_abs (f32_sub A B)) (f32_abs (f32_sub A B))) (Rabs d * Rabs d) (6.4 * uu)).
  { assert (Bd : (/ 400 <= Rabs d * Rabs d <= 1048576 * 1048576)%R).
    { split; [|apply Rmult_le_compat; lra]. replace (/ 400)%R with (/ 20 * / 20)%R by lra. apply Rmult_le_compat; lra. }
    apply (frel_mul_w _ _ _ _ (2.1 * uu) (2.1 * uu)); try assumption; try (unfold uu; lra). }
  assert (Z1 : (112.5 <= Rabs d * Rabs d / (2 * (gr * gr)))%R).
  { apply Rmult_le_reg_r with (2 * (gr * gr))%R; [lra|]. unfold Rdiv. rewrite Rmult_assoc, Rinv_l, Rmult_1_r by lra.
    assert (15 * gr * (15 * gr) <= Rabs d * Rabs d)%R by (apply Rmult_le_compat; lra). lra. }
  assert (Z2 : (Rabs d * Rabs d / (2 * (gr * gr)) <= bpow radix2 60)%R).
  { apply Rle_trans with (1048576 * 1048576 * 65536)%R.
    - unfold Rdiv. apply Rmult_le_compat; [apply Rmult_le_pos; lra|left; apply Rinv_0_lt_compat; lra|apply Rmult_le_compat; lra|].
      replace 65536%R with (/ / 65536)%R by lra. apply Rinv_le_contravar; lra.
    - change (bpow radix2 60) with 1152921504606846976%R. lra. }
  destruct (frel_negdiv _ _ _ (2 * (gr * gr)) (6.4 * uu) (4.3 * uu) R2 C2) as [s [Fq Hs]].
  - lra.
  - right. apply Rmult_lt_0_compat; lra.
  - intros _. lra.
  - apply Rle_trans with (1 := Z2). unfold huge. apply bpow_le. lia.
  - unfold uu; lra.
  - unfold uu; lra.
  - set (z := (Rabs d * Rabs d / (2 * (gr * gr)))%R) in *. unfold rel in Hs.
    assert (Hz : (Rabs (s - z) <= / 64 * z)%R).
    { eapply Rle_trans; [exact Hs|]. apply Rmult_le_compat_r; [lra|]. unfold uu. lra. }
    apply Rabs_bd in Hz. unfold gauss. rewrite (HU _ (- s)%R Fq) by lra.
    destruct C1 as [k [Fk _]]. apply (zero_mul_r _ _ k); [exists false; reflexivity|exact Fk].
Qed.

(** any NaN in L, a or b gives the colour black *)
Lemma sub_nan_r (x : f32) : f32_sub x f32_nan = f32_nan. Proof. destruct x as [[]|[]| |[] ? ? ?]; reflexivity. Qed.
Lemma mul_nan_l (x : f32) : f32_mul f32_nan x = f32_nan. Proof. destruct x as [[]|[]| |[] ? ? ?]; reflexivity. Qed.
Lemma div_nan_l (x : f32) : f32_div f32_nan x = f32_nan. Proof. destruct x as [[]|[]| |[] ? ? ?]; reflexivity. Qed.
Lemma nan_colour lm l a b : (forall y, powf lm f32_nan y = f32_nan) -> l = f32_nan \/ a = f32_nan \/ b = f32_nan ->
  lab_to_srgb (powf lm) white_d65 [l; a; b] = [0; 0; 0].
Proof.
  intros Hp H. unfold lab_to_srgb, xyz_to_srgb.
  assert (E : exists X Y Z, lab_to_xyz (powf lm) white_d65 [l; a; b] = [X; Y; Z] /\ (X = f32_nan \/ Y = f32_nan \/ Z = f32_nan)).
  { unfold lab_to_xyz, white_d65. cbv zeta. eexists _, _, _. split; [reflexivity|].
    assert (FI : lab_f_inv (powf lm) f32_nan = f32_nan) by reflexivity.
    destruct H as [->|[->| ->]].
    - left. rewrite add_nan_l, FI. reflexivity.
    - left. change (f32_div f32_nan (F32 500)) with f32_nan. rewrite add_nan_r, FI. reflexivity.
    - right; right. change (f32_div f32_nan (F32 200)) with f32_nan. rewrite sub_nan_r, FI. reflexivity. }
  destruct E as (X & Y & Z & -> & HN).
  assert (E2 : xyz_to_lin [X; Y; Z] = [f32_nan; f32_nan; f32_nan]).
  { unfold xyz_to_lin, mat3x3. destruct HN as [->|[->| ->]]; repeat (rewrite mul_nan_r || rewrite add_nan_r || rewrite add_nan_l); reflexivity. }
  rewrite E2. cbn [map]. unfold srgb_encode. change (f32_leb f32_nan (f32_dec 31308 7)) with false. cbv iota.
  rewrite Hp, mul_nan_r. reflexivity.
Qed.

(** A pixel away from the border whose L, a or b differs from that of every other pixel of its window by at
    least 15 range becomes black, whatever its colour and the colours around it. *)
Theorem C80_isolated p lm b n (img : image Z) range spatial gr gs h x y c :
  pow_ok (powf lm) -> gauss_pow_ok (powf lm) -> underflows (powf lm) -> bilateral_input b img -> bilateral_params range spatial gr gs h ->
  h <= x < width (info_of img) - h -> h <= y < height (info_of img) - h -> 0 <= c < 3 ->
  exists lab v out, srgb_to_lab_f32 p lm img D65 = Ret lab /\ real_image lab v /\ bilateral_filter p lm b n img range spatial = Ret out
    /\ ((forall x' y', in_window img h x y x' y' -> (x', y') <> (x, y) -> (15 * gr <= Rabs (v x y c - v x' y' c))%R) ->
        color_at out x y = [0; 0; 0]).
Proof.
  intros HP HG HU Hi Hpar Hx Hy Hc.
  destruct (params_checks _ _ _ _ _ Hpar) as (C1 & C2 & C3 & C4).
  destruct (C59_bilateral p lm b n img range spatial Hi C1 C2 C3 C4) as (lab & mid & out & El & Il & Im & Wm & V & Eo & Ef & Io).
  assert (Hin : rgb_input img) by (destruct Hi as (H1 & H2 & H3 & H4 & _); exact (conj H1 (conj H2 (conj H3 H4)))).
  destruct (lab_real p lm img HP Hin) as (lab' & v & El' & _ & RV & M & B). rewrite El in El'. injection El' as <-.
  exists lab, v, out. split; [exact El|]. split; [exact RV|]. split; [exact Ef|]. intros Hfar.
  destruct Hpar as (Fr & Hr & Fs & Hs & Hw & Hh). destruct (window_bound spatial gs h Fs Hs Hw ltac:(lia)) as [HB1 HB2].
  assert (Gl : (0.49 <= gs)%R) by (assert (1 <= IZR h)%R by (apply IZR_le; lia); lra).
  destruct Hin as (Hwf & Hu & Hc3 & Hne).
  assert (Hch : 3 <= channels (info_of img) <= 4) by (unfold colors in Hc3; destruct (alpha (info_of img)); lia).
  assert (Hxy : inside img x y) by (split; lia).
  assert (HN : value mid x y c = f32_nan).
  { rewrite (V x y c Hxy ltac:(lia)). unfold bilateral_mean. cbv zeta.
    set (l := map _ (offsets (window spatial))).
    assert (HL : Forall (fun wv : f32 * f32 => is_zero (fst wv) /\ exists r, fin (snd wv) r) l).
    { unfold l. apply Forall_forall. intros [wv vv] Hl. apply in_map_iff in Hl as [[dx dy] [E Hd]]. injection E as <- <-. cbn [fst snd].
      rewrite Hw in Hd. unfold offsets in Hd. replace ((2 * h + 1) / 2) with h in Hd by (Z.to_euclidean_division_equations; lia).
      apply in_flat_map in Hd as [dy' [Hdy Hd]]. apply in_map_iff in Hd as [dx' [Ed Hdx]]. injection Ed as -> ->. apply in_zrange in Hdy, Hdx.
      assert (PX : padded (width (info_of lab)) x dx = x + dx).
      { unfold padded. rewrite Il. replace ((0 <=? x + dx) && (x + dx <? width (info_of img))) with true; [reflexivity|]. symmetry. apply andb_true_iff. lia. }
      assert (PY : padded (height (info_of lab)) y dy = y + dy).
      { unfold padded. rewrite Il. replace ((0 <=? y + dy) && (y + dy <? height (info_of img))) with true; [reflexivity|]. symmetry. apply andb_true_iff. lia. }
      unfold neighbour. rewrite PX, PY.
      assert (FN : fin (value lab (x + dx) (y + dy) c) (v (x + dx) (y + dy) c)) by (apply RV; [unfold inside; rewrite Il; lia|rewrite Il; lia]).
      assert (F0 : fin (value lab x y c) (v x y c)) by (apply RV; [unfold inside; rewrite Il; lia|rewrite Il; lia]).
      split; [|eexists; exact FN]. unfold bweight.
      destruct ((dx =? 0) && (dy =? 0)) eqn:Ec.
      - (* the pixel itself *)
        unfold closeness. rewrite Ec. apply andb_true_iff in Ec as [E1 E2]. apply Z.eqb_eq in E1, E2. subst dx dy. rewrite !Z.add_0_r in *.
        destruct (range_frel lm HG range gr Fr Hr _ _ _ _ F0 F0) as [r [Fq _]]; [rewrite Rminus_diag_eq by reflexivity; unfold Rdiv; rewrite pow_i by lia; lra|].
        apply (zero_mul_l _ _ r); [exists false; reflexivity|exact Fq].
      - assert (Nz : (x + dx, y + dy) <> (x, y)).
        { intros E. injection E as E1 E2. assert (dx = 0) by lia. assert (dy = 0) by lia. subst. discriminate. }
        specialize (Hfar (x + dx) (y + dy)). assert (W : in_window img h x y (x + dx) (y + dy)) by (split; [split; lia|lia]).
        specialize (Hfar W Nz). pose proof (B (x + dx) (y + dy) c ltac:(apply W) ltac:(lia)) as B1. pose proof (B x y c Hxy ltac:(lia)) as B2.
        pose proof (Rabs_triang (v x y c) (- v (x + dx) (y + dy) c)) as TR. rewrite Rabs_Ropp in TR. fold (v x y c - v (x + dx)%Z (y + dy)%Z c)%R in TR.
        pose proof (range_zero lm range gr _ _ _ _ HG HU Fr Hr F0 FN ltac:(lra)) as RZ.
        assert (SZ : 0 <= dx ^ 2 + dy ^ 2 <= 2 * (h * h)) by nia.
        destruct (spatial_frel lm HG spatial gs Fs ltac:(lra) dx dy Ec) as [r [Fq _]].
        + nia.
        + assert (G2 : (0 < gs ^ 2)%R) by (apply pow_lt; lra). apply Rmult_le_reg_r with (2 * gs ^ 2)%R; [lra|].
          unfold Rdiv. rewrite Rmult_assoc, Rinv_l, Rmult_1_r by lra. destruct SZ as [_ SZ]. apply IZR_le in SZ. rewrite !mult_IZR in SZ.
          assert (1 <= IZR h)%R by (apply IZR_le; lia). assert (IZR h * IZR h <= (2.001 * gs) * (2.001 * gs))%R by (apply Rmult_le_compat; lra). nra.
        + apply (zero_mul_r _ _ r); assumption. }
    apply zero_div; [apply zero_wsum; exact HL|]. apply zero_sum; [exists false; reflexivity|].
    apply Forall_map. eapply Forall_impl; [|exact HL]. intros wv [H _]. exact H. }
  assert (Hxm : inside mid x y) by (unfold inside; rewrite Im; exact Hxy).
  destruct (conv_lab_srgb p lm D65 mid Wm (samples_any mid)) as [out' [Eo' [[_ [_ R]] _]]]; try (rewrite Im; assumption).
  rewrite Eo in Eo'. injection Eo' as <-. specialize (R x y Hxm). rewrite Im in R. change (white_of D65) with white_d65 in R.
  pose proof (pixel_at_len mid Wm x y Hxm) as L. rewrite Im in L. unfold colors in Hc3. unfold value in HN. unfold len in L.
  destruct HU as [_ HU].
  assert (K : forall l a bb r, nth (Z.to_nat c) (l :: a :: bb :: r) f32_0 = f32_nan -> lab_to_srgb (powf lm) white_d65 [l; a; bb] = [0; 0; 0]).
  { intros l a bb r Hn. apply nan_colour; [exact HU|]. assert (c = 0 \/ c = 1 \/ c = 2) as [->|[->| ->]] by lia; cbn in Hn; auto. }
  unfold color_at. destruct (alpha (info_of img)).
  - destruct (pixel_at mid x y) as [|l [|a [|bb [|al [|]]]]]; cbn in L; try lia. rewrite (R [l; a; bb] al eq_refl), (K l a bb [al] HN). reflexivity.
  - destruct (pixel_at mid x y) as [|l [|a [|bb [|]]]]; cbn in L; try lia. rewrite R, (K l a bb [] HN). reflexivity.
Qed.

(** ** the smoothed image need not stay within the colours of its surroundings *)

(** a power function that is correctly rounded wherever its result is a number *)
Definition ideal_pow' (x y : f32) : f32 := match x with B754_nan => f32_nan | _ => ideal_pow x y end.
Lemma exp_104 : (exp (- (104)) <= bpow radix2 (-151) * 2)%R.
Proof.
  replace (bpow radix2 (-151) * 2)%R with (bpow radix2 (-150)); [|change (-150) with (-151 + 1); rewrite bpow_plus; reflexivity].
  rewrite exp_Ropp. change (-150) with (- (150)). rewrite bpow_opp. apply Rinv_le_contravar; [apply bpow_gt_0|].
  assert (E : (exp 104 = exp 1 ^ 104)%R).
  { rewrite <- Rpower_pow by apply exp_pos. unfold Rpower. rewrite ln_exp. f_equal. rewrite INR_IZR_INZ. change (Z.of_nat 104) with 104. lra. }
  rewrite E. apply Rle_trans with ((271828 / 100000) ^ 104)%R; [|apply pow_incr; pose proof e_bounds; lra].
  unfold Rdiv. rewrite Rpow_mult_distr, pow_inv. rewrite !pow_IZR. change (bpow radix2 150) with (IZR (2 ^ 150)).
  assert (P : (0 < IZR (100000 ^ Z.of_nat 104))%R) by (apply IZR_lt; vm_compute; reflexivity).
  apply Rmult_le_reg_r with (IZR (100000 ^ Z.of_nat 104)); [exact P|]. rewrite Rmult_assoc, Rinv_l, Rmult_1_r by lra.
  rewrite <- mult_IZR. apply IZR_le. vm_compute. discriminate.
Qed.
Lemma round_tiny x : (0 < x < bpow radix2 (-150))%R -> round_to_f32 x = f32_0.
Proof.
  intros Hx. unfold round_to_f32.
  assert (C : cexp radix2 fexp32 x = -149).
  { unfold cexp. assert (M : (mag radix2 x <= -150)%Z) by (apply mag_le_bpow; [lra|rewrite Rabs_pos_eq by lra; apply Hx]).
    unfold SpecFloat.fexp, SpecFloat.emin. lia. }
  unfold scaled_mantissa. rewrite C.
  assert (Zn : ZnearestE (x * bpow radix2 (- (-149))) = 0).
  { apply Znearest_imp. change (IZR 0) with 0%R. rewrite Rminus_0_r, Rabs_pos_eq by (apply Rmult_le_pos; [lra|apply bpow_ge_0]).
    replace (/ 2)%R with (bpow radix2 (-150) * bpow radix2 (- -149))%R by (rewrite <- bpow_plus; cbn; lra).
    apply Rmult_lt_compat_r; [apply bpow_gt_0|apply Hx]. }
  rewrite Zn. reflexivity.
Qed.
Lemma ideal_underflow : underflows ideal_pow'.
Proof.
  split; [|reflexivity]. intros y s [_ Ey] Hs. change (ideal_pow' f32_e y) with (ideal_pow f32_e y). unfold ideal_pow.
  destruct e_log as (re & [_ Fe] & Hre & Hln). rewrite Fe, Ey. apply round_tiny. split; [apply exp_pos|]. unfold Rpower.
  apply Rlt_le_trans with (exp (- (104))).
  - apply exp_increasing. apply Rabs_bd in Hln. unfold uu in Hln. assert (0.9999 <= ln re)%R by lra. nra.
  - pose proof exp_104 as E. replace (bpow radix2 (-151) * 2)%R with (bpow radix2 (-150)) in E; [exact E|]. change (-150) with (-151 + 1). rewrite bpow_plus. reflexivity.
Qed.
Theorem C80_libraries_exist : pow_ok ideal_pow' /\ gauss_pow_ok ideal_pow' /\ underflows ideal_pow'.
Proof.
  split; [|split; [|exact ideal_underflow]].
  - intros x y r s Fx Fy Hr Hs. destruct (correct_ok _ ideal_correct x y r s Fx Fy Hr Hs) as [q [Fq Hq]]. exists q. split; [|exact Hq].
    destruct x; try exact Fq. destruct Fx as [Fx _]. discriminate Fx.
  - intros x y r s Fx Fy H. destruct C73_example as [HG _]. cbn [powf] in HG. destruct (HG x y r s Fx Fy H) as [q [Fq Hq]]. exists q. split; [|exact Hq].
    destruct x; try exact Fq. destruct Fx as [Fx _]. discriminate Fx.
Qed.

Definition lone_pixel : image Z := Image (Info 3 3 3 false)
  [255; 255; 255; 255; 255; 255; 255; 255; 255;  255; 255; 255; 100; 100; 100; 255; 255; 255;  255; 255; 255; 255; 255; 255; 255; 255; 255].
Definition half : f32 := f32_div (f32_of_Z 1) (f32_of_Z 2).
Lemma half_fin : fin half (/ 2).
Proof.
  unfold half. replace (/ 2)%R with (rnd32 (1 / 2)).
  - apply div_fin; [apply of_Z_isZ; lia|apply of_Z_isZ; lia|lra|]. rewrite Rabs_pos_eq by lra. apply Rle_trans with (bpow radix2 1); [cbn; lra|apply bpow_le; lia].
  - replace (1 / 2)%R with (/ 2)%R by lra. apply rnd_fmt. apply generic_format_FLT. exists (Float radix2 1 (-1)); [unfold F2R; cbn; lra| |]; vm_compute; [reflexivity|discriminate].
Qed.
Lemma lone_params : bilateral_params f32_1 half 1 (/ 2) 1.
Proof.
  split; [apply (of_Z_isZ 1); lia|]. split; [lra|]. split; [exact half_fin|]. split; [lra|]. split; [vm_compute; reflexivity|lia].
Qed.
Lemma lone_input : bilateral_input Seq lone_pixel.
Proof.
  split; [apply wfb_wf; reflexivity|]. split; [repeat constructor; unfold is_u8; lia|]. split; [reflexivity|]. split; [cbn; lia|]. split; [split; cbn; lia|exact I].
Qed.
(** every sample of this 3x3 image is at least 100, but the pixel in the middle comes out as 0 *)
Theorem C80_range_refuted p lm n : pow_ok (powf lm) -> gauss_pow_ok (powf lm) -> underflows (powf lm) ->
  samples (fun s => 100 <= s <= 255) lone_pixel
  /\ exists out, bilateral_filter p lm Seq n lone_pixel f32_1 half = Ret out /\ color_at out 1 1 = [0; 0; 0].
Proof.
  intros HP HG HU. split; [repeat constructor; lia|].
  destruct (C80_isolated p lm Seq n lone_pixel f32_1 half 1 (/ 2) 1 1 1 0 HP HG HU lone_input lone_params ltac:(cbn; lia) ltac:(cbn; lia) ltac:(lia)) as (lab & v & out & El & RV & Ef & H).
  exists out. split; [exact Ef|]. apply H.
  assert (Hin : rgb_input lone_pixel) by (destruct lone_input as (H1 & H2 & H3 & H4 & _); exact (conj H1 (conj H2 (conj H3 H4)))).
  destruct (C81_lab p lm HP D65 lone_pixel Hin) as [lab' [E' [_ [Il M]]]]. rewrite El in E'. injection E' as <-.
  assert (L0 : forall x y k, inside lone_pixel x y -> color_at lone_pixel x y = [k; k; k] ->
    (Rabs (v x y 0%Z - (116 * lab_curve (1.0000001 * linear_light k) - 16)) <= 0.0063)%R).
  { intros x y k Hi Ek. destruct (M x y k k k Hi Ek) as (L & A & B & l & a & b & Eo & Fl & _ & _ & H1 & _ & _).
    assert (Fv : fin (value lab x y 0) (v x y 0)) by (apply RV; [unfold inside in *; rewrite Il; exact Hi|rewrite Il; cbn; lia]).
    assert (Ev : value lab x y 0 = L).
    { unfold color_at in Eo. unfold value. destruct (pixel_at lab x y) as [|z0 r0]; [discriminate|]. cbn in Eo. injection Eo as -> _. reflexivity. }
    rewrite Ev in Fv. assert (v x y 0 = l) as -> by (destruct Fv as [_ <-]; destruct Fl as [_ <-]; reflexivity).
    unfold byte_lab, byte_xyz, real_xyz, real_lab in H1. cbn [fst snd] in H1.
    replace (0.2126729 * linear_light k + 0.7151522 * linear_light k + 0.0721750 * linear_light k)%R with (1.0000001 * linear_light k)%R in H1 by lra. exact H1. }
  assert (LL1 : linear_light 255 = 1%R).
  { unfold linear_light. cbn [Z.leb Z.compare Pos.compare Pos.compare_cont]. replace ((255 + 14.025) / 269.025)%R with 1%R by lra.
    unfold Rpower. rewrite ln_1, Rmult_0_r. apply exp_0. }
  assert (LL2 : (linear_light 100 <= 0.2)%R).
  { unfold linear_light. cbn [Z.leb Z.compare Pos.compare Pos.compare_cont]. replace 2.2%R with (INR 11 / INR 5)%R by (cbn; lra).
    apply Rpower_le_root; [lra|lra|lia|]. cbn. lra. }
  assert (CU : (lab_curve (1.0000001 * 1) >= 1)%R).
  { apply Rle_ge. apply Rle_trans with (lab_curve 1); [|apply curve_mono; lra]. rewrite curve_hi by (unfold dl3, dl; lra).
    unfold Rpower. rewrite ln_1, Rmult_0_r, exp_0. lra. }
  assert (CL : (lab_curve (1.0000001 * linear_light 100) <= 0.6)%R).
  { apply Rle_trans with (lab_curve 0.21); [apply curve_mono; lra|]. rewrite curve_hi by (unfold dl3, dl; lra).
    replace (/ 3)%R with (INR 1 / INR 3)%R by (cbn; lra). apply Rpower_le_root; [lra|lra|lia|]. cbn. lra. }
  pose proof (L0 1 1 100 ltac:(split; cbn; lia) eq_refl) as V1. apply Rabs_bd in V1.
  intros x' y' [Hi _] Hne.
  assert (Ec : color_at lone_pixel x' y' = [255; 255; 255]).
  { destruct Hi as [X Y]. cbn in X, Y.
    assert (x' = 0 \/ x' = 1 \/ x' = 2) as [->|[->| ->]] by lia; assert (y' = 0 \/ y' = 1 \/ y' = 2) as [->|[->| ->]] by lia; try reflexivity. congruence. }
  pose proof (L0 x' y' 255 Hi Ec) as V2. rewrite LL1 in V2. apply Rabs_bd in V2.
  rewrite Rabs_left1 by lra. lra.
Qed.

(** a calm image: grays 100 and 110, range 8; the lightness in the middle is the real mean to within 0.13 *)
Definition calm_image : image Z := Image (Info 3 3 3 false)
  [100; 100; 100; 110; 110; 110; 100; 100; 100;  100; 100; 100; 110; 110; 110; 100; 100; 100;  100; 100; 100; 110; 110; 110; 100; 100; 100].
Theorem C80_example p n :
  let lm := Libm ideal_pow' (fun x => x) (fun x => x) in
  exists lab v mid out r, srgb_to_lab_f32 p lm calm_image D65 = Ret lab /\ real_image lab v /\ lab_to_srgb_f32 p lm mid D65 = Ret out
    /\ bilateral_filter p lm Seq n calm_image (f32_of_Z 8) half = Ret out
    /\ fin (value mid 1 1 0) r /\ (Rabs (r - mean_around (/ 2) 8 1 (Info 3 3 3 false) v 1 1 0) <= 0.13)%R.
Proof.
  intros lm. destruct C80_libraries_exist as (HP & HG & _).
  assert (Hi : bilateral_input Seq calm_image).
  { split; [apply wfb_wf; reflexivity|]. split; [repeat constructor; unfold is_u8; lia|]. split; [reflexivity|]. split; [cbn; lia|]. split; [split; cbn; lia|exact I]. }
  assert (Hpar : bilateral_params (f32_of_Z 8) half 8 (/ 2) 1).
  { split; [apply (of_Z_isZ 8); lia|]. split; [lra|]. split; [exact half_fin|]. split; [lra|]. split; [vm_compute; reflexivity|lia]. }
  destruct (C80_accuracy p lm Seq n calm_image _ _ _ _ _ HP HG Hi Hpar) as (lab & v & mid & out & El & Il & RV & M & Eo & Im & Ef & B & H).
  destruct M as [_ [_ M]].
  assert (L0 : forall x y k, inside calm_image x y -> color_at calm_image x y = [k; k; k] ->
    (Rabs (v x y 0%Z - (116 * lab_curve (1.0000001 * linear_light k) - 16)) <= 0.0063)%R).
  { intros x y k Hin Ek. destruct (M x y k k k Hin Ek) as (L & A & B' & l & a & b & Eo' & Fl & _ & _ & H1 & _ & _).
    assert (Fv : fin (value lab x y 0) (v x y 0)) by (apply RV; [unfold inside in *; rewrite Il; exact Hin|rewrite Il; cbn; lia]).
    assert (Ev : value lab x y 0 = L).
    { unfold color_at in Eo'. unfold value. destruct (pixel_at lab x y) as [|z0 r0]; [discriminate|]. cbn in Eo'. injection Eo' as -> _. reflexivity. }
    rewrite Ev in Fv. assert (v x y 0 = l) as -> by (destruct Fv as [_ <-]; destruct Fl as [_ <-]; reflexivity).
    unfold byte_lab, byte_xyz, real_xyz, real_lab in H1. cbn [fst snd] in H1.
    replace (0.2126729 * linear_light k + 0.7151522 * linear_light k + 0.0721750 * linear_light k)%R with (1.0000001 * linear_light k)%R in H1 by lra. exact H1. }
  assert (LL : (0.14 <= linear_light 100 <= 0.2 /\ 0.14 <= linear_light 110 <= 0.2)%R).
  { unfold linear_light. cbn [Z.leb Z.compare Pos.compare Pos.compare_cont]. replace 2.2%R with (INR 11 / INR 5)%R by (cbn; lra).
    repeat split; (apply Rpower_le_root || apply Rpower_ge_root); try lra; try lia; cbn; lra. }
  destruct (H 1 1 0 512%R ltac:(split; cbn; lia) ltac:(cbn; lia) ltac:(lra)) as [r [F Hr]].
  - intros x' y' [Hin _]. split; [|apply B; [exact Hin|cbn; lia]].
    pose proof (L0 1 1 110 ltac:(split; cbn; lia) eq_refl) as V1.
    assert (Ec : exists k, color_at calm_image x' y' = [k; k; k] /\ (k = 100 \/ k = 110)).
    { destruct Hin as [X Y]. cbn in X, Y.
      assert (x' = 0 \/ x' = 1 \/ x' = 2) as [->|[->| ->]] by lia; assert (y' = 0 \/ y' = 1 \/ y' = 2) as [->|[->| ->]] by lia; eexists; (split; [reflexivity|auto]). }
    destruct Ec as [k [Ec Hk]]. pose proof (L0 x' y' k Hin Ec) as V2.
    pose proof (curve_lip (1.0000001 * linear_light 110) (1.0000001 * linear_light k)) as LP.
    assert (D : (Rabs (1.0000001 * linear_light 110 - 1.0000001 * linear_light k) <= 0.061)%R) by (apply Rabs_le; destruct Hk as [->| ->]; lra).
    assert (D2 : (Rabs (lab_curve (1.0000001 * linear_light 110) - lab_curve (1.0000001 * linear_light k)) <= 0.5)%R) by lra.
    apply Rabs_bd in V1, V2, D2. apply Rabs_le. lra.
  - exists lab, v, mid, out, r. split; [exact El|]. split; [exact RV|]. split; [exact Eo|]. split; [exact Ef|]. split; [exact F|].
    eapply Rle_trans; [exact Hr|]. change ((2 * 1 + 1) ^ 2) with 9. lra.
Qed.
