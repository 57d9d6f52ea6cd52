(** * C90: how accurate the 8-bit hue is, and what saturation does to colours (src/convert/colorspace.rs, src/tone.rs) *)
From Coq Require Import Reals Lra.
From Verif.Proofs Require Import BaseL ImageL ImageOps ToneL SimdL HsvL.
From Verif.Model Require Import Colorspace Tone.
From Verif.Spec Require Import ImageS ColorS HsvS WheelS.
From Verif.Props Require Import ImageP HsvP ToneP SatP Hsv32P.
Open Scope Z_scope.

(** an 8-bit colour image with at least one pixel *)
Definition color_image (img : image Z) : Prop :=
  wf img /\ samples is_u8 img /\ colors (info_of img) = 3 /\ 0 < width (info_of img) * height (info_of img).

Lemma color_pixel (img : image Z) x y r g b al : color_image img -> inside img x y -> pixel_at img x y = [r; g; b] ++ al ->
  is_u8 r /\ is_u8 g /\ is_u8 b /\ length al = (if alpha (info_of img) then 1%nat else 0%nat).
Proof.
  intros [Hwf [Hu [Hc _]]] Hin E.
  pose proof (pixels_samples is_u8 img x y Hu) as F. rewrite E in F.
  pose proof (pixel_at_len img Hwf x y Hin) as L. rewrite E in L. unfold len in L. cbn [app length] in L.
  unfold colors in Hc. cbn [app] in F.
  repeat split; try apply (Forall_inv F); try apply (Forall_inv (Forall_inv_tail F));
    try apply (Forall_inv (Forall_inv_tail (Forall_inv_tail F))).
  destruct (alpha (info_of img)); lia.
Qed.

(** ** the hue *)
Lemma quot_frac a n : 0 < n -> 0 <= a -> n * Z.quot a n <= a < n * Z.quot a n + n.
Proof. intros Hn Ha. rewrite Z.quot_div_nonneg by lia. pose proof (Z.div_mod a n ltac:(lia)). pose proof (Z.mod_pos_bound a n Hn). lia. Qed.

Lemma quot_real a n : 0 < n -> -n <= a <= n ->
  exists k : R, (IZR (Z.quot (43 * a) n) = 43 * (IZR a / IZR n) - k)%R
    /\ (0 <= a -> (0 <= k < 1)%R) /\ (a <= 0 -> (-1 < k <= 0)%R)
    /\ (0 <= a -> 0 <= Z.quot (43 * a) n <= 43) /\ (a <= 0 -> -43 <= Z.quot (43 * a) n <= 0).
Proof.
  intros Hn Ha. assert (HN : (0 < IZR n)%R) by (apply IZR_lt; lia).
  exists (43 * (IZR a / IZR n) - IZR (Z.quot (43 * a) n))%R. split; [lra|].
  assert (P : forall c, 0 <= c <= n -> (0 <= 43 * (IZR c / IZR n) - IZR (Z.quot (43 * c) n) < 1)%R /\ 0 <= Z.quot (43 * c) n <= 43).
  { intros c Hc. pose proof (quot_frac (43 * c) n Hn ltac:(lia)) as Q. set (q := Z.quot (43 * c) n) in *. clearbody q.
    split; [|nia].
    assert (E : (43 * (IZR c / IZR n) - IZR q = IZR (43 * c - n * q) / IZR n)%R) by (rewrite minus_IZR, !mult_IZR; field; lra).
    rewrite E. assert (0 <= IZR (43 * c - n * q))%R by (apply IZR_le; lia).
    assert (IZR (43 * c - n * q) < IZR n)%R by (apply IZR_lt; lia).
    split; [apply Rmult_le_pos; [lra|apply Rlt_le, Rinv_0_lt_compat; lra]|].
    apply Rmult_lt_reg_r with (IZR n); [lra|]. unfold Rdiv. rewrite Rmult_assoc, Rinv_l by lra. lra. }
  assert (Neg : Z.quot (43 * a) n = - Z.quot (43 * - a) n) by (replace (43 * - a) with (- (43 * a)) by ring; rewrite Z.quot_opp_l by lia; lia).
  split; [intros H0; apply (P a); lia|].
  split.
  { intros H0. destruct (P (-a) ltac:(lia)) as [P1 _]. rewrite Neg, opp_IZR. rewrite opp_IZR in P1.
    replace (- IZR a / IZR n)%R with (- (IZR a / IZR n))%R in P1 by (field; lra). lra. }
  split; [intros H0; apply (P a); lia|]. intros H0. rewrite Neg. destruct (P (-a) ltac:(lia)) as [_ P2]. lia.
Qed.

(** one step is 1/255 of the circle, a sixth of the circle is 42.5 steps *)
Definition hue_near (h : Z) (t : R) : Prop := (Rabs (IZR h - 42.5 * t) < 1 \/ h = 0%Z /\ Rabs (255 - 42.5 * t) < 1)%R.

Lemma hue_accurate r g b : is_u8 r -> is_u8 g -> is_u8 b -> ~ (r = g /\ g = b) ->
  exists t : R, (0 <= t < 6)%R /\ shares (max3 r g b) (max3 r g b - min3 r g b) r g b t /\ hue_near (hsv_hue r g b) t.
Proof.
  intros Hr Hg Hb Hne. unfold is_u8 in *. unfold hsv_hue. cbv zeta.
  set (M := max3 r g b). set (n := M - min3 r g b).
  assert (Hn : 0 < n <= 255) by (unfold n, M, max3, min3; lia).
  replace (n =? 0) with false by lia.
  assert (HN : (0 < IZR n)%R) by (apply IZR_lt; lia).
  assert (Q : forall a c, (IZR n * (IZR (a - c) / IZR n) = IZR a - IZR c)%R) by (intros a c; rewrite minus_IZR; field; lra).
  assert (QB : forall a c, -n <= a - c <= n -> (-1 <= IZR (a - c) / IZR n <= 1)%R).
  { intros a c H. assert (- IZR n <= IZR (a - c) <= IZR n)%R by (rewrite <- opp_IZR; split; apply IZR_le; lia).
    split; (apply Rmult_le_reg_r with (IZR n); [lra|]; unfold Rdiv; rewrite Rmult_assoc, Rinv_l; lra). }
  assert (QP : forall a c, c <= a -> (0 <= IZR (a - c) / IZR n)%R).
  { intros a c H. unfold Rdiv. apply Rmult_le_pos; [apply IZR_le; lia|]. apply Rlt_le, Rinv_0_lt_compat. lra. }
  assert (QN : forall a c, a < c -> (IZR (a - c) / IZR n < 0)%R).
  { intros a c H. assert (IZR (a - c) < 0)%R by (apply IZR_lt; lia).
    apply Rmult_lt_reg_r with (IZR n); [lra|]. unfold Rdiv. rewrite Rmult_assoc, Rinv_l by lra. lra. }
  unfold hue_near, shares.
  assert (AB : forall u : R, (-1 < u < 1)%R -> (Rabs u < 1)%R) by (intros u H; apply Rabs_def1; lra).
  destruct (Z.eqb_spec M r) as [E|E]; [|destruct (Z.eqb_spec M g) as [E2|E2]].
  - destruct (quot_real (g - b) n) as [k [Ek [K1 [K2 [K3 K4]]]]]; [lia|unfold n, M, max3, min3 in *; lia|].
    specialize (Q g b). specialize (QB g b ltac:(unfold n, M, max3, min3 in *; lia)). specialize (QP g b). specialize (QN g b).
    set (q := (IZR (g - b) / IZR n)%R) in *. clearbody q.
    destruct (Z.ltb_spec g b) as [L|L].
    + specialize (K2 ltac:(lia)). specialize (K4 ltac:(lia)). specialize (QN ltac:(lia)).
      exists (q + 6)%R. split; [lra|]. split.
      { destruct (sector_vals (q + 6)) as [_ [_ [_ [_ [_ S]]]]]. destruct S as [-> [-> ->]]; [lra|].
        assert (N : (n = r - g)) by (unfold n, M, max3, min3 in *; lia). rewrite N in *. rewrite minus_IZR in *. rewrite E. repeat split; lra. }
      destruct (Z.ltb_spec (Z.quot (43 * (g - b)) n) 0) as [L2|L2].
      * left. apply AB. rewrite plus_IZR, Ek. lra.
      * right. split; [lia|]. apply AB. assert (Z.quot (43 * (g - b)) n = 0) as Z0 by lia. rewrite Z0 in Ek. lra.
    + specialize (K1 ltac:(lia)). specialize (K3 ltac:(lia)). specialize (QP ltac:(lia)).
      exists q. split; [lra|]. split.
      { destruct (sector_vals q) as [S _]. destruct S as [-> [-> ->]]; [lra|].
        assert (N : (n = r - b)) by (unfold n, M, max3, min3 in *; lia). rewrite N in *. rewrite minus_IZR in *. rewrite E. repeat split; lra. }
      replace (Z.quot (43 * (g - b)) n <? 0) with false by lia. left. apply AB. rewrite Ek. lra.
  - destruct (quot_real (b - r) n) as [k [Ek [K1 [K2 [K3 K4]]]]]; [lia|unfold n, M, max3, min3 in *; lia|].
    specialize (Q b r). specialize (QB b r ltac:(unfold n, M, max3, min3 in *; lia)). specialize (QP b r). specialize (QN b r).
    set (q := (IZR (b - r) / IZR n)%R) in *. clearbody q.
    exists (q + 2)%R. split; [lra|].
    destruct (Z.ltb_spec b r) as [L|L].
    + specialize (K2 ltac:(lia)). specialize (K4 ltac:(lia)). specialize (QN ltac:(lia)). split.
      { destruct (sector_vals (q + 2)) as [_ [S _]]. destruct S as [-> [-> ->]]; [lra|].
        assert (N : (n = g - b)) by (unfold n, M, max3, min3 in *; lia). rewrite N in *. rewrite minus_IZR in *. rewrite E2. repeat split; lra. }
      replace (85 + Z.quot (43 * (b - r)) n <? 0) with false by lia. left. apply AB. rewrite plus_IZR, Ek. lra.
    + specialize (K1 ltac:(lia)). specialize (K3 ltac:(lia)). specialize (QP ltac:(lia)). split.
      { destruct (sector_vals (q + 2)) as [_ [_ [S _]]]. destruct S as [-> [-> ->]]; [lra|].
        assert (N : (n = g - r)) by (unfold n, M, max3, min3 in *; lia). rewrite N in *. rewrite minus_IZR in *. rewrite E2. repeat split; lra. }
      replace (85 + Z.quot (43 * (b - r)) n <? 0) with false by lia. left. apply AB. rewrite plus_IZR, Ek. lra.
  - assert (E3 : M = b) by (unfold M, max3 in *; lia).
    destruct (quot_real (r - g) n) as [k [Ek [K1 [K2 [K3 K4]]]]]; [lia|unfold n, M, max3, min3 in *; lia|].
    specialize (Q r g). specialize (QB r g ltac:(unfold n, M, max3, min3 in *; lia)). specialize (QP r g). specialize (QN r g).
    assert (Q1 : (r < b)%Z) by (unfold M, max3 in *; lia).
    assert (QL : (IZR (r - g) / IZR n < 2)%R) by lra.
    set (q := (IZR (r - g) / IZR n)%R) in *. clearbody q.
    exists (q + 4)%R. split; [lra|].
    destruct (Z.ltb_spec r g) as [L|L].
    + specialize (K2 ltac:(lia)). specialize (K4 ltac:(lia)). specialize (QN ltac:(lia)). split.
      { destruct (sector_vals (q + 4)) as [_ [_ [_ [S _]]]]. destruct S as [-> [-> ->]]; [lra|].
        assert (N : (n = b - r)) by (unfold n, M, max3, min3 in *; lia). rewrite N in *. rewrite minus_IZR in *. rewrite E3. repeat split; lra. }
      replace (170 + Z.quot (43 * (r - g)) n <? 0) with false by lia. left. apply AB. rewrite plus_IZR, Ek. lra.
    + specialize (K1 ltac:(lia)). specialize (K3 ltac:(lia)). specialize (QP ltac:(lia)). split.
      { destruct (sector_vals (q + 4)) as [_ [_ [_ [_ [S _]]]]]. destruct S as [-> [-> ->]]; [lra|].
        assert (N : (n = b - g)) by (unfold n, M, max3, min3 in *; lia). rewrite N in *. rewrite minus_IZR in *. rewrite E3. repeat split; lra. }
      replace (170 + Z.quot (43 * (r - g)) n <? 0) with false by lia. left. apply AB. rewrite plus_IZR, Ek. lra.
Qed.

(** the stored hue is less than one step (1/255 of the circle) from the exact one *)
Theorem C90_hue_accuracy p (img : image Z) : color_image img ->
  exists hsv, rgb_to_hsv p img = Ret hsv /\ info_of hsv = info_of img
    /\ forall x y r g b al, inside img x y -> pixel_at img x y = [r; g; b] ++ al -> ~ (r = g /\ g = b) ->
       exists h s v (t : R), pixel_at hsv x y = [h; s; v] ++ al /\ (0 <= t < 6)%R
         /\ shares (Z.max r (Z.max g b)) (Z.max r (Z.max g b) - Z.min r (Z.min g b)) r g b t
         /\ (Rabs (IZR h - 42.5 * t) < 1 \/ h = 0%Z /\ Rabs (255 - 42.5 * t) < 1)%R.
Proof.
  intros HI. pose proof HI as [Hwf [Hu [Hc Hne]]].
  destruct (C44_rgb_to_hsv p img Hwf Hu Hc Hne) as [hsv [E [R1 [I1 U1]]]]. exists hsv. split; [exact E|]. split; [exact I1|].
  intros x y r g b al Hin Ep Hd. destruct (color_pixel img x y r g b al HI Hin Ep) as [Hr [Hg [Hb Hl]]].
  pose proof (repixeled_pixel _ _ _ img hsv x y _ _ R1 Hin Ep Hl) as Eo. rewrite map_id in Eo. cbn [hsv_of] in Eo.
  destruct (hue_accurate r g b Hr Hg Hb Hd) as [t [T1 [T2 T3]]].
  exists (hsv_hue r g b), (hsv_saturation r g b), (hsv_value r g b), t. split; [exact Eo|]. split; [exact T1|]. split; [|exact T3].
  replace (Z.max r (Z.max g b)) with (max3 r g b) by (unfold max3; lia).
  replace (Z.min r (Z.min g b)) with (min3 r g b) by (unfold min3; lia). exact T2.
Qed.

(** ** saturation *)
Notation level := HsvS.level.
Lemma level_0 v : level v 0 = v. Proof. unfold level. rewrite Z.sub_0_r, Z.div_mul by lia. reflexivity. Qed.
Lemma level_255 v : level v 255 = 0. Proof. unfold level. rewrite Z.sub_diag, Z.mul_0_r. reflexivity. Qed.

Lemma gray_hsv v : hsv_hue v v v = 0 /\ hsv_saturation v v v = 0 /\ hsv_value v v v = v.
Proof.
  unfold hsv_hue, hsv_saturation, hsv_value. replace (max3 v v v) with v by (unfold max3; lia). replace (min3 v v v) with v by (unfold min3; lia).
  rewrite Z.sub_diag, Z.mul_0_r. cbn [Z.eqb]. destruct (Z.eqb_spec v 0); repeat split; try reflexivity.
Qed.

Lemma saturated_gray d v : -255 <= d <= 255 ->
  saturated d [v; v; v] = if d <=? 0 then [v; v; v] else [v; level v d; level v d].
Proof.
  intros Hd. unfold saturated. cbn [hsv_of shift_s]. destruct (gray_hsv v) as [-> [-> ->]]. cbn [Z.add].
  unfold rgb_of. destruct (Z.leb_spec d 0) as [L|L].
  - replace (byte d) with 0 by (unfold byte; lia). reflexivity.
  - replace (byte d) with d by (unfold byte; lia). replace (d =? 0) with false by lia.
    change (0 / 43) with 0. change (6 * (0 mod 43)) with 0. rewrite Z.sub_0_r, Z.div_mul by lia. reflexivity.
Qed.

Lemma sat_zero r g b : is_u8 r -> is_u8 g -> is_u8 b -> saturated 0 [r; g; b] = rgb_of (hsv_of [r; g; b]).
Proof.
  intros Br Bg Bb. destruct (C44_value_saturation_hue r g b Br Bg Bb) as [h [s [v' [F [_ [_ [_ [Hs _]]]]]]]].
  unfold saturated. rewrite F. cbn [shift_s]. rewrite Z.add_0_r. replace (byte s) with s by (unfold byte; clear - Hs; lia). reflexivity.
Qed.

Section Law.
  Context (p : profile) (img : image Z) (HI : color_image img).

  Lemma law d : -255 <= d <= 255 -> exists out, saturation p false img d = Ret out /\ info_of out = info_of img /\ color_image out
    /\ forall x y r g b al, inside img x y -> pixel_at img x y = [r; g; b] ++ al -> pixel_at out x y = saturated d [r; g; b] ++ al.
  Proof using HI.
    intros Hd. pose proof HI as [Hwf [Hu [Hc Hne]]].
    destruct (C41_saturation_scalar p img d Hwf Hu Hc Hne Hd) as [out [E [I R1]]]. exists out. split; [exact E|]. split; [exact I|].
    assert (P : forall x y r g b al, inside img x y -> pixel_at img x y = [r; g; b] ++ al -> pixel_at out x y = saturated d [r; g; b] ++ al).
    { intros x y r g b al Hin Ep. destruct (color_pixel img x y r g b al HI Hin Ep) as [Hr [Hg [Hb Hl]]].
      pose proof (repixeled_pixel _ _ _ img out x y _ _ R1 Hin Ep Hl) as Eo. rewrite map_id in Eo. exact Eo. }
    split; [|exact P].
    assert (Wo : wf out) by apply R1.
    split; [exact Wo|]. rewrite I. split; [|split; [exact Hc|exact Hne]].
    apply samples_pixels; [exact Wo|]. intros x y Hin. assert (Hin' : inside img x y) by (unfold inside in *; rewrite I in Hin; exact Hin).
    destruct (pixel_colors img x y Hwf Hin' (colors_channels img Hc)) as [cs [al [Ep [Hl Hr]]]].
    rewrite Hc in Hl. destruct (triple cs Hl) as [r [g [b ->]]]. rewrite (P x y r g b al Hin' Ep).
    destruct (color_pixel img x y r g b al HI Hin' Ep) as [Br [Bg [Bb _]]].
    apply Forall_app. split.
    - destruct (C41_value_kept d r g b Br Bg Bb) as [r' [g' [b' [-> [M1 M2]]]]].
      set (s := byte (hsv_saturation r g b + d)) in *. assert (Hs : 0 <= s <= 255) by apply byte_range. clearbody s.
      assert (0 <= Z.max r (Z.max g b) * (255 - s) / 255) by (apply Z.div_pos; [|lia]; unfold is_u8 in *; nia).
      unfold is_u8 in *. repeat constructor; lia.
    - pose proof (pixels_samples is_u8 img x y Hu) as F. rewrite Ep in F. apply Forall_app in F as [_ F]. exact F.
  Qed.

  (** -255 makes every pixel gray, of the largest of its samples *)
  Theorem C90_desaturate : exists out, saturation p false img (-255) = Ret out /\ info_of out = info_of img
    /\ forall x y r g b al, inside img x y -> pixel_at img x y = [r; g; b] ++ al ->
       let v := Z.max r (Z.max g b) in pixel_at out x y = [v; v; v] ++ al.
  Proof using HI.
    destruct (law (-255)) as [out [E [I [_ P]]]]; [lia|]. exists out. split; [exact E|]. split; [exact I|].
    intros x y r g b al Hin Ep v. rewrite (P x y r g b al Hin Ep). f_equal.
    destruct (color_pixel img x y r g b al HI Hin Ep) as [Br [Bg [Bb _]]].
    unfold saturated. cbn [hsv_of shift_s].
    destruct (C44_value_saturation_hue r g b Br Bg Bb) as [h [s [v' [E' [Ev [_ [_ [Hs [Hh _]]]]]]]]].
    cbn [hsv_of] in E'. injection E' as E1 E2 E3. rewrite E1, E2, E3.
    replace (byte (s + -255)) with 0 by (unfold byte; lia). unfold rgb_of. cbn [Z.eqb]. rewrite Ev. reflexivity.
  Qed.

  (** gray pixels: kept by d <= 0, turned into reds by d > 0 *)
  Theorem C90_gray d : -255 <= d <= 255 -> exists out, saturation p false img d = Ret out
    /\ forall x y v al, inside img x y -> pixel_at img x y = [v; v; v] ++ al ->
       pixel_at out x y = (if d <=? 0 then [v; v; v] else [v; v * (255 - d) / 255; v * (255 - d) / 255]) ++ al.
  Proof using HI.
    intros Hd. destruct (law d Hd) as [out [E [I [_ P]]]]. exists out. split; [exact E|].
    intros x y v al Hin Ep. rewrite (P x y v v v al Hin Ep), saturated_gray by exact Hd. reflexivity.
  Qed.

  (** fully desaturated and then fully saturated, every pixel is a pure red *)
  Theorem C90_all_red : exists out1 out, saturation p false img (-255) = Ret out1 /\ saturation p false out1 255 = Ret out
    /\ info_of out = info_of img
    /\ forall x y r g b al, inside img x y -> pixel_at img x y = [r; g; b] ++ al ->
       pixel_at out x y = [Z.max r (Z.max g b); 0; 0] ++ al.
  Proof using HI.
    destruct C90_desaturate as [o1 [E1 [I1 P1]]]. exists o1.
    destruct (law (-255)) as [o1' [E1' [_ [HI1 _]]]]; [lia|]. rewrite E1 in E1'. injection E1' as <-.
    pose proof HI1 as [W1 [U1 [C1 N1]]].
    destruct (C41_saturation_scalar p o1 255 W1 U1 C1 N1 ltac:(lia)) as [out [E [I R1]]]. exists out.
    split; [exact E1|]. split; [exact E|]. split; [congruence|].
    intros x y r g b al Hin Ep. specialize (P1 x y r g b al Hin Ep). cbv zeta in P1.
    assert (Hin1 : inside o1 x y) by (unfold inside in *; rewrite I1; exact Hin).
    destruct (color_pixel o1 x y _ _ _ al HI1 Hin1 P1) as [_ [_ [_ Hl]]].
    pose proof (repixeled_pixel _ _ _ o1 out x y _ _ R1 Hin1 P1 Hl) as Eo. rewrite map_id in Eo. rewrite Eo.
    rewrite saturated_gray by lia. cbn [Z.leb Z.compare]. rewrite level_255. reflexivity.
  Qed.

  (** a larger argument gives a smaller smallest sample; the largest sample is always kept *)
  Theorem C90_monotone d d' : -255 <= d -> d <= d' -> d' <= 255 ->
    exists out out', saturation p false img d = Ret out /\ saturation p false img d' = Ret out'
    /\ forall x y r g b al, inside img x y -> pixel_at img x y = [r; g; b] ++ al ->
       exists r1 g1 b1 r2 g2 b2, pixel_at out x y = [r1; g1; b1] ++ al /\ pixel_at out' x y = [r2; g2; b2] ++ al
         /\ Z.max r1 (Z.max g1 b1) = Z.max r (Z.max g b) /\ Z.max r2 (Z.max g2 b2) = Z.max r (Z.max g b)
         /\ Z.min r2 (Z.min g2 b2) <= Z.min r1 (Z.min g1 b1)
         /\ (d <= 0 -> Z.min r (Z.min g b) <= Z.min r1 (Z.min g1 b1)) /\ (0 <= d -> Z.min r1 (Z.min g1 b1) <= Z.min r (Z.min g b)).
  Proof using HI.
    intros H1 H2 H3. destruct (law d ltac:(lia)) as [out [E [I [_ P]]]]. destruct (law d' ltac:(lia)) as [out' [E' [I' [_ P']]]].
    exists out, out'. split; [exact E|]. split; [exact E'|]. intros x y r g b al Hin Ep.
    rewrite (P x y r g b al Hin Ep), (P' x y r g b al Hin Ep).
    destruct (color_pixel img x y r g b al HI Hin Ep) as [Br [Bg [Bb _]]].
    destruct (C41_value_kept d r g b Br Bg Bb) as [r1 [g1 [b1 [-> [M1 M2]]]]].
    destruct (C41_value_kept d' r g b Br Bg Bb) as [r2 [g2 [b2 [-> [M3 M4]]]]].
    exists r1, g1, b1, r2, g2, b2. split; [reflexivity|]. split; [reflexivity|]. split; [exact M1|]. split; [exact M3|].
    destruct (C41_value_kept 0 r g b Br Bg Bb) as [r0 [g0 [b0 [Z0 [M5 M6]]]]].
    destruct (trip r g b Br Bg Bb) as [rr [gg [bb [T1 [T2 [T3 _]]]]]].
    assert (Z0' : saturated 0 [r; g; b] = [rr; gg; bb]).
    { rewrite <- T1. apply sat_zero; assumption. }
    rewrite Z0' in Z0. injection Z0 as <- <- <-. rewrite T3 in M6.
    set (V := Z.max r (Z.max g b)) in *. assert (HV : 0 <= V <= 255) by (unfold V, is_u8 in *; lia). clearbody V.
    set (s := hsv_saturation r g b) in *. clearbody s.
    assert (Mono : forall a c, byte (s + a) >= byte (s + c) -> V * (255 - byte (s + a)) / 255 <= V * (255 - byte (s + c)) / 255).
    { intros a c Hac. apply Z.div_le_mono; [lia|]. apply Z.mul_le_mono_nonneg_l; lia. }
    rewrite M2, M4. split; [apply Mono; unfold byte; lia|]. rewrite M6.
    split; intros; apply Mono; unfold byte; lia.
  Qed.

  (** an argument of 0: no sample moves by more than 18, the largest and the smallest stay *)
  Theorem C90_zero : exists out, saturation p false img 0 = Ret out /\ info_of out = info_of img
    /\ forall x y r g b al, inside img x y -> pixel_at img x y = [r; g; b] ++ al ->
       exists r1 g1 b1, pixel_at out x y = [r1; g1; b1] ++ al
         /\ Z.max r1 (Z.max g1 b1) = Z.max r (Z.max g b) /\ Z.min r1 (Z.min g1 b1) = Z.min r (Z.min g b)
         /\ Z.abs (r1 - r) <= 18 /\ Z.abs (g1 - g) <= 18 /\ Z.abs (b1 - b) <= 18.
  Proof using HI.
    destruct (law 0 ltac:(lia)) as [out [E [I [_ P]]]]. exists out. split; [exact E|]. split; [exact I|].
    intros x y r g b al Hin Ep. rewrite (P x y r g b al Hin Ep).
    destruct (color_pixel img x y r g b al HI Hin Ep) as [Br [Bg [Bb _]]].
    destruct (trip r g b Br Bg Bb) as [rr [gg [bb [T1 T]]]]. exists rr, gg, bb. split; [|exact T]. f_equal.
    rewrite <- T1. apply sat_zero; assumption.
  Qed.
End Law.

(** pure green, pure blue, a magenta with more red than blue, gray *)
Definition ex_sat : image Z := Image (Info 2 2 3 false) [0; 255; 0; 0; 0; 255; 255; 30; 245; 100; 100; 100].
Example C90_example : color_image ex_sat.
Proof. split; [apply wfb_wf; reflexivity|]. split; [|split; reflexivity]. repeat (constructor; [unfold is_u8; lia|]). constructor. Qed.

(** Expected: an argument of 0 changes nothing, the strongest channel stays the strongest, grays stay gray. *)
Theorem C90_identity_refuted : ~ (forall (img : image Z), color_image img -> saturation Release false img 0 = Ret img).
Proof. intros H. specialize (H ex_sat C90_example). vm_compute in H. discriminate. Qed.
Theorem C90_order_refuted : ~ (forall (img out : image Z), color_image img -> saturation Release false img 0 = Ret out ->
  forall x y r g b r' g' b', inside img x y -> pixel_at img x y = [r; g; b] -> pixel_at out x y = [r'; g'; b'] -> b < r -> b' < r').
Proof.
  intros H. destruct (C90_zero Release ex_sat C90_example) as [out [E _]]. specialize (H ex_sat out C90_example E).
  vm_compute in E. injection E as <-.
  specialize (H 0 1 255 30 245 253 30 255 ltac:(unfold inside; cbn; lia) eq_refl eq_refl ltac:(lia)). lia.
Qed.
Theorem C90_gray_refuted : ~ (forall (img out : image Z) d, color_image img -> -255 <= d <= 255 -> saturation Release false img d = Ret out ->
  forall x y v, inside img x y -> pixel_at img x y = [v; v; v] -> pixel_at out x y = [v; v; v]).
Proof.
  intros H. destruct (C90_gray Release ex_sat C90_example 100 ltac:(lia)) as [out [E P]].
  specialize (H ex_sat out 100 C90_example ltac:(lia) E 1 1 100 ltac:(unfold inside; cbn; lia) eq_refl).
  specialize (P 1 1 100 [] ltac:(unfold inside; cbn; lia) eq_refl). rewrite H in P. cbn in P. discriminate.
Qed.
