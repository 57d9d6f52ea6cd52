(** * C81: linear light, XYZ and CIELAB values against the real formulas *)
From Coq Require Import Lra.
From Verif.Proofs Require Import BaseL ImageL ImageOps ToneL FloatL TransformL ApproxL PowL SrgbL SrgbL2 SrgbL3 LabL.
From Verif.Model Require Import Tone.
From Verif.Spec Require Import ImageS FloatS ColorS ConvS PowS LabS.
From Verif.Props Require Import ImageP MatP HsvP ToneP ConvP SrgbP.
Open Scope Z_scope.

(** the three samples X are finite and within e of the three reals x *)
Definition triple_within (X : list f32) (x e : R * R * R) : Prop :=
  exists A B C a b c, X = [A; B; C] /\ fin A a /\ fin B b /\ fin C c
    /\ (Rabs (a - fst (fst x)) <= fst (fst e))%R /\ (Rabs (b - snd (fst x)) <= snd (fst e))%R /\ (Rabs (c - snd x) <= snd e)%R.
Definition color_at {T} (img : image T) (x y : Z) : list T := firstn 3 (pixel_at img x y).

(** [out] has the size and layout of [img], and the real colour of every pixel is f r g b, to within e *)
Definition measures (img : image Z) (out : image f32) (f : Z -> Z -> Z -> R * R * R) (e : R * R * R) : Prop :=
  wf out /\ info_of out = info_of img
  /\ forall x y r g b, inside img x y -> color_at img x y = [r; g; b] -> triple_within (color_at out x y) (f r g b) e.

Definition rgb_input (img : image Z) : Prop :=
  wf img /\ samples is_u8 img /\ colors (info_of img) = 3 /\ 0 < width (info_of img) * height (info_of img).

Lemma measures_conv op f g F e : converts is_u8 op f g ->
  (forall r g b, is_u8 r -> is_u8 g -> is_u8 b -> triple_within (f [r; g; b]) (F r g b) e) ->
  forall img : image Z, rgb_input img -> exists out, op img = Ret out /\ measures img out F e.
Proof.
  intros HC HF img (Hwf & Hs & Hc & Hne). destruct (HC img Hwf Hs Hc Hne) as [out [E [[Wo [_ HR]] HI]]].
  exists out. split; [exact E|]. split; [exact Wo|]. split; [exact HI|].
  intros x y r gg b Hin Ec. specialize (HR x y Hin). pose proof (pixel_at_len img Hwf x y Hin) as Lp.
  assert (HP : Forall is_u8 (pixel_at img x y)) by (apply pixels_samples; exact Hs).
  unfold color_at in *. unfold colors in Hc. unfold len in Lp.
  assert (U : is_u8 r /\ is_u8 gg /\ is_u8 b).
  { destruct (pixel_at img x y) as [|a0 [|a1 [|a2 l]]]; cbn in Ec; try discriminate. injection Ec as -> -> ->.
    inversion HP as [|? ? Ua HP1]; subst. inversion HP1 as [|? ? Ub HP2]; subst. inversion HP2 as [|? ? Ud HP3]; subst. auto. }
  destruct U as (Ur & Ug & Ub). specialize (HF r gg b Ur Ug Ub).
  destruct (alpha (info_of img)).
  - destruct (pixel_at img x y) as [|a0 [|a1 [|a2 [|al [|]]]]]; cbn in Lp; try lia. cbn in Ec. injection Ec as -> -> ->.
    rewrite (HR [r; gg; b] al eq_refl). destruct HF as (A & B & C & a & b' & c & -> & H). exists A, B, C, a, b', c. split; [reflexivity|exact H].
  - destruct (pixel_at img x y) as [|a0 [|a1 [|a2 [|]]]]; cbn in Lp; try lia. cbn in Ec. injection Ec as -> -> ->.
    rewrite HR. destruct HF as (A & B & C & a & b' & c & -> & H). exists A, B, C, a, b', c. split; [reflexivity|exact H].
Qed.

Section Conv.
  Context (p : profile) (lm : libm) (HP : pow_ok (powf lm)).

  (** linearize_srgb *)
  Theorem C81_linear (img : image Z) : rgb_input img ->
    exists out, linearize_srgb_f32 p lm img = Ret out
      /\ measures img out (fun r g b => (linear_light r, linear_light g, linear_light b)) (/ 250000, / 250000, / 250000)%R.
  Proof using HP.
    apply (measures_conv _ _ _ _ _ (conv_linearize p lm)). intros r g b Hr Hg Hb.
    destruct (decode_ap _ r HP Hr) as [x [Fx Hx]]. destruct (decode_ap _ g HP Hg) as [y [Fy Hy]]. destruct (decode_ap _ b HP Hb) as [z [Fz Hz]].
    cbn [map]. eexists _, _, _, x, y, z. split; [reflexivity|]. cbn [fst snd]. unfold uu in *.
    split; [exact Fx|]. split; [exact Fy|]. split; [exact Fz|]. split; [|split]; lra.
  Qed.
  (** srgb_to_xyz *)
  Theorem C81_xyz (img : image Z) : rgb_input img ->
    exists out, srgb_to_xyz_f32 p lm img = Ret out /\ measures img out byte_xyz (/ 200000, / 200000, / 200000)%R.
  Proof using HP.
    apply (measures_conv _ _ _ _ _ (conv_srgb_xyz p lm)). intros r g b Hr Hg Hb.
    destruct (xyz_ap _ r g b HP Hr Hg Hb) as [X [Y [Z [-> [[x [Fx Hx]] [[y [Fy Hy]] [z [Fz Hz]]]]]]]].
    exists X, Y, Z, x, y, z. split; [reflexivity|]. split; [exact Fx|]. split; [exact Fy|]. split; [exact Fz|].
    unfold byte_xyz, real_xyz. cbn [fst snd].
    replace (0.0193339 * linear_light r + 0.1191920 * linear_light g + 0.9503041 * linear_light b)%R with (zr (linear_light r) (linear_light g) (linear_light b)) by (unfold zr; lra).
    replace (0.2126729 * linear_light r + 0.7151522 * linear_light g + 0.0721750 * linear_light b)%R with (SrgbL2.yr (linear_light r) (linear_light g) (linear_light b)) by (unfold SrgbL2.yr; lra).
    unfold uu in *. split; [|split]; [eapply Rle_trans; [exact Hx|lra] | eapply Rle_trans; [exact Hy|lra] | eapply Rle_trans; [exact Hz|lra]].
  Qed.
  (** srgb_to_lab, both white points *)
  Definition white_real (w : white) : R * R := match w with D50 => d50 | D65 => d65 end.
  Theorem C81_lab w (img : image Z) : rgb_input img ->
    exists out, srgb_to_lab_f32 p lm img w = Ret out /\ measures img out (byte_lab (white_real w)) (0.0063, 0.0531, 0.0221)%R.
  Proof using HP.
    apply (measures_conv _ _ _ _ _ (conv_srgb_lab p lm w)). intros r g b Hr Hg Hb.
    destruct (lab_accurate (powf lm) (white_of w, white_real w) r g b HP Hr Hg Hb) as [(A & B & C & E & [x [Fx Hx]] & [y [Fy Hy]] & [z [Fz Hz]]) _].
    { destruct w; [left|right]; reflexivity. }
    cbn [fst snd] in *. exists A, B, C, x, y, z. cbn [fst snd]. split; [exact E|]. split; [exact Fx|]. split; [exact Fy|]. split; [exact Fz|].
    split; [|split]; lra.
  Qed.

  (** Lab of a gray pixel, D65: the two colour axes are nearly 0 *)
  Theorem C81_gray_d65 (img : image Z) : rgb_input img ->
    exists out, srgb_to_lab_f32 p lm img D65 = Ret out
      /\ forall x y v, inside img x y -> color_at img x y = [v; v; v] ->
         exists L A B l a b, color_at out x y = [L; A; B] /\ fin L l /\ fin A a /\ fin B b /\ (-0.01 <= l <= 100.01)%R /\ (Rabs a <= 0.14)%R /\ (Rabs b <= 0.04)%R.
  Proof using HP.
    intros Hi. destruct (C81_lab D65 img Hi) as [out [E [_ [_ H]]]]. exists out. split; [exact E|]. intros x y v Hin Ec.
    destruct (H x y v v v Hin Ec) as (L & A & B & l & a & b & Eo & Fl & Fa & Fb & H1 & H2 & H3).
    exists L, A, B, l, a, b. split; [exact Eo|]. split; [exact Fl|]. split; [exact Fa|]. split; [exact Fb|].
    assert (U : is_u8 v).
    { destruct Hi as (Hwf & Hs & _ & _). assert (HPx : Forall is_u8 (pixel_at img x y)) by (apply pixels_samples; exact Hs).
      unfold color_at in Ec. destruct (pixel_at img x y) as [|a0 l0]; [discriminate|]. cbn in Ec. injection Ec as -> _. inversion HPx; assumption. }
    pose proof (linear_range v U) as LR.
    unfold byte_lab, byte_xyz, real_xyz, real_lab, white_real, d65 in H1, H2, H3. cbn [fst snd] in *.
    set (t := linear_light v) in *. clearbody t.
    set (X := ((0.4124564 * t + 0.3575761 * t + 0.1804375 * t) / 0.950489)%R) in *.
    set (Y := (0.2126729 * t + 0.7151522 * t + 0.0721750 * t)%R) in *.
    set (Z := ((0.0193339 * t + 0.1191920 * t + 0.9503041 * t) / 1.08884)%R) in *.
    assert (DX : (Rabs (X - Y) <= 0.0000202)%R) by (apply Rabs_le; unfold X, Y; lra).
    assert (DZ : (Rabs (Y - Z) <= 0.0000094)%R) by (apply Rabs_le; unfold Z, Y; lra).
    assert (DY : (0 <= Y <= 1.0000002)%R) by (unfold Y; lra).
    clearbody X Y Z.
    pose proof (curve_lip X Y) as P1. pose proof (curve_lip Y Z) as P2.
    assert (P3 : (0 <= 116 * lab_curve Y - 16 <= 100.001)%R).
    { pose proof (curve_mono 0 Y ltac:(lra)) as M1. pose proof (curve_lip_le Y 1.0000002 ltac:(lra)) as M2.
      pose proof (curve_lip_le 1 1.0000002 ltac:(lra)) as M3.
      rewrite (curve_lo 0) in M1 by (unfold dl3, dl; lra).
      rewrite (curve_hi 1) in M3 by (unfold dl3, dl; lra).
      assert (R1 : Rpower 1 (/ 3) = 1%R) by (unfold Rpower; rewrite ln_1, Rmult_0_r; apply exp_0). rewrite R1 in M3. lra. }
    apply Rabs_bd in H1, H2, H3. assert (Q1 : (Rabs (lab_curve X - lab_curve Y) <= 0.000158)%R) by lra. assert (Q2 : (Rabs (lab_curve Y - lab_curve Z) <= 0.0000736)%R) by lra.
    apply Rabs_bd in Q1, Q2. split; [lra|]. split; apply Rabs_le; lra.
  Qed.

  (** lightness lies between 0 and 100, to within 0.01 *)
  Theorem C81_lightness_range w (img : image Z) : rgb_input img ->
    exists out, srgb_to_lab_f32 p lm img w = Ret out
      /\ forall x y, inside img x y -> exists L A B l, color_at out x y = [L; A; B] /\ fin L l /\ (-0.01 <= l <= 100.01)%R.
  Proof using HP.
    intros Hi. destruct (C81_lab w img Hi) as [out [E [_ [_ H]]]]. exists out. split; [exact E|]. intros x y Hin.
    assert (exists r g b, color_at img x y = [r; g; b] /\ is_u8 r /\ is_u8 g /\ is_u8 b) as (r & g & b & Ec & Ur & Ug & Ub).
    { destruct Hi as (Hwf & Hs & Hc & _). assert (HPx : Forall is_u8 (pixel_at img x y)) by (apply pixels_samples; exact Hs).
      pose proof (pixel_at_len img Hwf x y Hin) as Lp. unfold color_at. unfold colors in Hc. unfold len in Lp.
      destruct (pixel_at img x y) as [|a0 [|a1 [|a2 l]]]; cbn in Lp; try (destruct (alpha (info_of img)); lia).
      inversion HPx as [|? ? Ua HP1]; subst. inversion HP1 as [|? ? Ub HP2]; subst. inversion HP2 as [|? ? Ud HP3]; subst.
      exists a0, a1, a2. split; [reflexivity|]. auto. }
    destruct (H x y r g b Hin Ec) as (L & A & B & l & a & bb & Eo & Fl & Fa & Fb & H1 & _ & _).
    exists L, A, B, l. split; [exact Eo|]. split; [exact Fl|].
    pose proof (linear_range r Ur) as LR. pose proof (linear_range g Ug) as LG. pose proof (linear_range b Ub) as LB.
    unfold byte_lab, byte_xyz, real_xyz, real_lab in H1. cbn [fst snd] in *.
    set (Y := (0.2126729 * linear_light r + 0.7151522 * linear_light g + 0.0721750 * linear_light b)%R) in *.
    assert (DY : (0 <= Y <= 1.0000002)%R) by (unfold Y; lra). clearbody Y.
    pose proof (curve_mono 0 Y ltac:(lra)) as M1. pose proof (curve_lip_le Y 1.0000002 ltac:(lra)) as M2.
    pose proof (curve_lip_le 1 1.0000002 ltac:(lra)) as M3.
    rewrite (curve_lo 0) in M1 by (unfold dl3, dl; lra).
    rewrite (curve_hi 1) in M3 by (unfold dl3, dl; lra).
    assert (R1 : Rpower 1 (/ 3) = 1%R) by (unfold Rpower; rewrite ln_1, Rmult_0_r; apply exp_0). rewrite R1 in M3.
    apply Rabs_bd in H1. lra.
  Qed.

  (** with D50 the matrix (made for D65) is not adapted: white is not neutral *)
  Theorem C81_gray_d50_refuted :
    exists out, srgb_to_lab_f32 p lm (Image (Info 1 1 3 false) [255; 255; 255]) D50 = Ret out
      /\ exists L A B b, color_at out 0 0 = [L; A; B] /\ fin B b /\ (b <= -19.1)%R.
  Proof using HP.
    assert (Hi : rgb_input (Image (Info 1 1 3 false) [255; 255; 255])).
    { split; [apply wfb_wf; reflexivity|]. split; [repeat constructor; unfold is_u8; lia|]. split; [reflexivity|]. cbn. lia. }
    destruct (C81_lab D50 _ Hi) as [out [E [_ [_ H]]]]. exists out. split; [exact E|].
    destruct (H 0 0 255 255 255) as (L & A & B & l & a & b & Eo & Fl & Fa & Fb & _ & _ & H3); [split; cbn; lia|reflexivity|].
    exists L, A, B, b. split; [exact Eo|]. split; [exact Fb|].
    unfold byte_lab, byte_xyz, real_xyz, real_lab, white_real, d50 in H3. cbn [fst snd] in *.
    assert (L1 : linear_light 255 = 1%R).
    { unfold linear_light. cbn [Z.leb Z.compare Pos.compare Pos.compare_cont]. replace ((255 + 14.025) / 269.025)%R with 1%R by lra.
      unfold Rpower. rewrite ln_1, Rmult_0_r. apply exp_0. }
    rewrite L1 in H3.
    set (Y := (0.2126729 * 1 + 0.7151522 * 1 + 0.0721750 * 1)%R) in *. set (Z := ((0.0193339 * 1 + 0.1191920 * 1 + 0.9503041 * 1) / 0.825188)%R) in *.
    assert (BY : (1 <= Y <= 1.0000002)%R) by (unfold Y; lra). assert (BZ : (1.319 <= Z)%R) by (unfold Z; lra). clearbody Y Z.
    rewrite (curve_hi Z) in H3 by (unfold dl3, dl; lra).
    pose proof (curve_lip_le 1 Y ltac:(lra)) as M2. rewrite (curve_hi 1) in M2 by (unfold dl3, dl; lra).
    assert (R1 : Rpower 1 (/ 3) = 1%R) by (unfold Rpower; rewrite ln_1, Rmult_0_r; apply exp_0). rewrite R1 in M2.
    assert (RZ : (1.096 <= Rpower Z (/ 3))%R).
    { replace (/ 3)%R with (INR 1 / INR 3)%R by (cbn; lra). apply Rpower_ge_root; [lra|lra|lia|]. cbn. lra. }
    apply Rabs_bd in H3. lra.
  Qed.
End Conv.

(** the library's linear light is not the sRGB standard's: gamma 2.2 instead of 2.4 *)
Theorem C81_standard_refuted p lm : pow_ok (powf lm) ->
  (standard_light 128 < 0.217)%R
  /\ exists out, linearize_srgb_f32 p lm (Image (Info 1 1 3 false) [128; 128; 128]) = Ret out
     /\ exists R' G B r, color_at out 0 0 = [R'; G; B] /\ fin R' r /\ (0.24 < r)%R.
Proof.
  intros HP. split.
  - unfold standard_light. cbn [Z.leb Z.compare Pos.compare Pos.compare_cont].
    replace 2.4%R with (INR 12 / INR 5)%R by (cbn; lra).
    apply Rle_lt_trans with 0.216%R; [|lra]. apply Rpower_le_root; [lra|lra|lia|]. cbn. lra.
  - assert (Hi : rgb_input (Image (Info 1 1 3 false) [128; 128; 128])).
    { split; [apply wfb_wf; reflexivity|]. split; [repeat constructor; unfold is_u8; lia|]. split; [reflexivity|]. cbn. lia. }
    destruct (C81_linear p lm HP _ Hi) as [out [E [_ [_ H]]]]. exists out. split; [exact E|].
    destruct (H 0 0 128 128 128) as (A & B & C & a & b & c & Eo & Fa & Fb & Fc & H1 & _ & _); [split; cbn; lia|reflexivity|].
    exists A, B, C, a. split; [exact Eo|]. split; [exact Fa|]. cbn [fst snd] in H1.
    assert (LL : (0.241 <= linear_light 128)%R).
    { unfold linear_light. cbn [Z.leb Z.compare Pos.compare Pos.compare_cont]. replace 2.2%R with (INR 11 / INR 5)%R by (cbn; lra).
      apply Rpower_ge_root; [lra|lra|lia|]. cbn. lra. }
    apply Rabs_bd in H1. lra.
Qed.

(** accurate power functions exist, and a colour image is an input *)
Theorem C81_example : exists pow, pow_ok pow /\ rgb_input (Image (Info 2 1 4 true) [10; 200; 30; 255; 7; 7; 7; 0]).
Proof.
  destruct C68_accurate_powers_exist as [H1 [pow H2]]. exists pow. split; [apply H1; exact H2|].
  split; [apply wfb_wf; reflexivity|]. split; [repeat constructor; unfold is_u8; lia|]. split; [reflexivity|]. cbn. lia.
Qed.
