(** * C83: from XYZ and CIELAB back to 8-bit sRGB, and the tone operations in CIELAB, against the real formulas *)
From Coq Require Import Lra.
From Flocq Require Import Core.
From Verif.Proofs Require Import BaseL ImageL ImageOps ToneL FloatL FloatL2 TransformL ApproxL PowL SrgbL SrgbL2 SrgbL3 LabL LabInvL.
From Verif.Model Require Import Tone.
From Verif.Spec Require Import ImageS FloatS ColorS ConvS PowS LabS LabInvS.
From Verif.Props Require Import ImageP MatP HsvP ToneP ConvP SrgbP LabP.
Open Scope Z_scope.

(** a colour image that is not empty *)
Definition color_input {T} (img : image T) : Prop :=
  wf img /\ colors (info_of img) = 3 /\ 0 < width (info_of img) * height (info_of img).
(** [out] has the size and layout of [img], and every colour triple of [img] is related by R to the one of [out] at its place *)
Definition relates {T S} (R : list T -> list S -> Prop) (img : image T) (out : image S) : Prop :=
  wf out /\ info_of out = info_of img /\ forall x y, inside img x y -> R (color_at img x y) (color_at out x y).

Lemma relates_conv {T S} (P : T -> Prop) op f g (R : list T -> list S -> Prop) : converts P op f g ->
  (forall a b c, P a -> P b -> P c -> len (f [a; b; c]) = 3 /\ R [a; b; c] (f [a; b; c])) ->
  forall img : image T, color_input img -> samples P img -> exists out, op img = Ret out /\ relates R img out.
Proof.
  intros HC HR img (Hwf & Hc & Hne) Hs. destruct (HC img Hwf Hs Hc Hne) as [out [E [[Wo [_ Hp]] HI]]].
  exists out. split; [exact E|]. split; [exact Wo|]. split; [exact HI|]. intros x y Hin. specialize (Hp x y Hin).
  pose proof (pixel_at_len img Hwf x y Hin) as Lp.
  assert (HP : Forall P (pixel_at img x y)) by (apply pixels_samples; exact Hs).
  unfold color_at. unfold colors in Hc. unfold len in Lp.
  destruct (alpha (info_of img)).
  - destruct (pixel_at img x y) as [|a [|b [|c [|al [|]]]]]; cbn in Lp; try lia.
    rewrite (Hp [a; b; c] al eq_refl). inversion HP as [|? ? Pa HP1]; subst. inversion HP1 as [|? ? Pb HP2]; subst. inversion HP2 as [|? ? Pc HP3]; subst.
    destruct (HR a b c Pa Pb Pc) as [L H]. change (firstn 3 [a; b; c; al]) with [a; b; c].
    replace (firstn 3 (f [a; b; c] ++ [g al])) with (f [a; b; c]); [exact H|].
    unfold len in L. destruct (f [a; b; c]) as [|u [|v [|w [|]]]]; cbn in L; try lia. reflexivity.
  - destruct (pixel_at img x y) as [|a [|b [|c [|]]]]; cbn in Lp; try lia.
    rewrite Hp. inversion HP as [|? ? Pa HP1]; subst. inversion HP1 as [|? ? Pb HP2]; subst. inversion HP2 as [|? ? Pc HP3]; subst.
    destruct (HR a b c Pa Pb Pc) as [L H]. change (firstn 3 [a; b; c]) with [a; b; c].
    replace (firstn 3 (f [a; b; c])) with (f [a; b; c]); [exact H|].
    unfold len in L. destruct (f [a; b; c]) as [|u [|v [|w [|]]]]; cbn in L; try lia. reflexivity.
Qed.

Section Back.
  Context (p : profile) (lm : libm) (HP : pow_wide (powf lm)).
  Open Scope R_scope.

  (** lab_to_srgb *)
  Theorem C83_lab_to_srgb w (img : image f32) : color_input img ->
    exists out, lab_to_srgb_f32 p lm img w = Ret out
      /\ relates (fun lab rgb => forall L A B l a b, lab = [L; A; B] -> fin L l -> fin A a -> fin B b -> moderate (l, a, b) ->
           shows3 (/ 8000) rgb (lab_light (white_real w) (l, a, b))) img out.
  Proof using HP.
    intros Hi. apply (relates_conv any _ _ _ _ (conv_lab_srgb p lm w)); [|exact Hi|apply samples_any].
    intros L0 A0 B0 _ _ _. split; [destruct w; reflexivity|]. intros L A B l a b E FL FA FB Hm. injection E as -> -> ->.
    apply lab_to_srgb_shows; auto. destruct w; [left|right]; split; reflexivity.
  Qed.
  (** xyz_to_srgb *)
  Theorem C83_xyz_to_srgb (img : image f32) : color_input img ->
    exists out, xyz_to_srgb_f32 p lm img = Ret out
      /\ relates (fun xyz rgb => forall X Y Z x y z, xyz = [X; Y; Z] -> fin X x -> fin Y y -> fin Z z ->
             -0.2 <= x <= 8.8 -> -0.2 <= y <= 8.8 -> -0.2 <= z <= 8.8 ->
           shows3 (/ 60000) rgb (xyz_light (x, y, z))) img out.
  Proof using HP.
    intros Hi. apply (relates_conv any _ _ _ _ (conv_xyz_srgb p lm)); [|exact Hi|apply samples_any].
    intros X0 Y0 Z0 _ _ _. split; [reflexivity|]. intros X Y Z x y z E FX FY FZ Hx Hy Hz. injection E as -> -> ->.
    destruct (light_ap X Y Z x y z 0 (fin_ap _ _ FX) (fin_ap _ _ FY) (fin_ap _ _ FZ) ltac:(unfold uu; lra) Hx Hy Hz) as (A & B & C & E & HA & HB & HC).
    unfold xyz_to_srgb. rewrite E. cbn [map]. eexists _, _, _. split; [reflexivity|].
    assert (Sh : forall X t, approx X t (5.28 * 0 + 500 * uu) -> -30 <= t <= 31 -> shows (/ 60000) (srgb_encode (powf lm) X) t).
    { intros V t HV Ht. destruct (encode_shows (powf lm) V t _ HP HV Ht ltac:(unfold uu; lra)) as (x' & q & H1 & H2 & H3). exists x', q. split; [unfold uu in *; lra|]. split; assumption. }
    unfold xyz_light in *. cbn [fst snd] in *. split; [|split]; apply Sh; auto; lra.
  Qed.

  (** an edit of the lightness of an 8-bit image: the result shows a colour close to the edited one *)
  Definition edited (f : R -> R) (e : R) (cs out : list Z) : Prop :=
    forall r g b, cs = [r; g; b] ->
    exists l a b', Rabs (l - f (fst (fst (byte_lab d50 r g b)))) <= e /\ Rabs (a - snd (fst (byte_lab d50 r g b))) <= 0.0531 /\ Rabs (b' - snd (byte_lab d50 r g b)) <= 0.0221
      /\ moderate (l, a, b') /\ shows3 (/ 8000) out (lab_light d50 (l, a, b')).
  Lemma edit_close (F : f32 -> f32) (f : R -> R) e r g b : is_u8 r -> is_u8 g -> is_u8 b -> 0 <= e <= 0.01 ->
    (forall L l, approx L l 0.0062 -> -0.92 <= l <= 111.6 -> approx (F L) (f l) e /\ -112 <= f l - l <= 101) ->
    edited f e [r; g; b] (edit_lightness (powf lm) white_d50 F [r; g; b]).
  Proof using HP.
    intros Hr Hg Hb He HF r0 g0 b0 E. injection E as <- <- <-.
    destruct (lab_accurate (powf lm) (white_d50, d50) r g b (wide_ok _ HP) Hr Hg Hb (or_introl eq_refl)) as [(L & A & B & E & HL & HA & HB) (fx & fy & fz & Eb & Bx & By & Bz)].
    cbn [fst snd] in E, Eb, HL, HA, HB. unfold edit_lightness. rewrite E. rewrite Eb in HL, HA, HB |- *. cbn [fst snd] in *.
    destruct (HF L (116 * fy - 16) HL ltac:(lra)) as [[l [Fl Hl]] Hd]. destruct HA as [a [Fa Ha]]. destruct HB as [b' [Fb Hb']].
    exists l, a, b'. split; [exact Hl|]. split; [lra|]. split; [lra|].
    assert (M : moderate (l, a, b')).
    { apply Rabs_bd in Hl, Ha, Hb'. unfold moderate. lra. }
    split; [exact M|]. apply lab_to_srgb_shows; auto. left. split; reflexivity.
  Qed.
  Lemma edit_len F r g b : len (edit_lightness (powf lm) white_d50 F [r; g; b]) = 3%Z.
  Proof. reflexivity. Qed.

  Theorem C83_brightness_lab (img : image Z) bias : rgb_input img -> (-255 <= bias <= 255)%Z ->
    exists out, brightness_lab p lm img bias = Ret out /\ relates (edited (fun l => l + 100 * IZR bias / 255) 0.0063) img out.
  Proof using HP.
    intros (Hw & Hs & Hc & Hn) Hb. apply (relates_conv is_u8 _ _ _ _ (C63_brightness_lab p lm bias Hb)); [|repeat split; try apply Hw; assumption|exact Hs].
    intros r g b Hr Hg Hb'. split; [apply edit_len|]. apply edit_close; auto; [lra|]. intros L l HL Hl.
    assert (Br : -255 <= IZR bias <= 255) by (split; [apply (IZR_le (-255))|apply (IZR_le _ 255)]; lia).
    assert (D : approx (f32_div (f32_of_Z bias) (f32_of_Z 255)) (IZR bias / 255) uu).
    { assert (Rabs (IZR bias) <= 255) by (apply Rabs_le'; lra).
      apply (ap_div_exact 0 _ _ _ _ 0); [apply ap_Z; lia|apply (of_Z_isZ 255); lia|lia|lra| |]; unfold uu; cbn; lra. }
    assert (M : approx (f32_mul (f32_div (f32_of_Z bias) (f32_of_Z 255)) (f32_of_Z 100)) (IZR bias / 255 * 100) (228 * uu)).
    { apply (ap_mul 7 1 100 _ _ _ _ uu 0); [exact D|apply (ap_Z 100); lia|lia| | | |]; try (apply Rabs_le'); unfold uu; cbn; lra. }
    split; [|lra]. replace (l + 100 * IZR bias / 255) with (l + IZR bias / 255 * 100) by field.
    apply (ap_add 8 _ _ _ _ 0.0062 (228 * uu)); [exact HL|exact M|lia| |unfold uu; cbn; lra].
    assert (Rabs (l + IZR bias / 255 * 100) <= 212) by (apply Rabs_le'; lra). unfold uu; cbn; lra.
  Qed.
  Theorem C83_contrast_lab (img : image Z) gain g : rgb_input img -> fin gain g -> 0 <= g <= 1 ->
    exists out, contrast_lab p lm img gain = Ret out /\ relates (edited (fun l => g * l) 0.0063) img out.
  Proof using HP.
    intros (Hw & Hs & Hc & Hn) Fg Hg.
    assert (G0 : f32_ltb gain f32_0 = false).
    { change (f32_ltb gain f32_0) with (BinarySingleNaN.Bltb gain f32_0). rewrite (ltb_fin gain f32_0 g 0 Fg); [apply Rlt_bool_false; lra|apply (of_Z_isZ 0); lia]. }
    assert (G1 : f32_ltb f32_1 gain = false).
    { change (f32_ltb f32_1 gain) with (BinarySingleNaN.Bltb f32_1 gain). rewrite (ltb_fin f32_1 gain 1 g); [apply Rlt_bool_false; lra|apply (of_Z_isZ 1); lia|exact Fg]. }
    apply (relates_conv is_u8 _ _ _ _ (C63_contrast_lab p lm gain G0 G1)); [|repeat split; try apply Hw; assumption|exact Hs].
    intros r g' b Hr Hg' Hb'. split; [apply edit_len|]. apply edit_close; auto; [lra|]. intros L l HL Hl. split.
    - replace (g * l) with (l * g) by ring.
      apply (ap_mul 7 112 1 _ _ _ _ 0.0062 0); [exact HL|apply fin_ap; exact Fg|lia| | | |]; try (apply Rabs_le'); unfold uu; cbn; lra.
    - assert (Rabs ((1 - g) * l) <= 1 * 112) by (rewrite Rabs_mult; apply Rmult_le_compat; try apply Rabs_pos; apply Rabs_le'; lra).
      assert (-0.92 <= (1 - g) * l). { destruct (Rle_lt_dec 0 l); [assert (0 <= (1 - g) * l) by (apply Rmult_le_pos; lra); lra|].
        assert (g * - l <= 1 * - l) by (apply Rmult_le_compat_r; lra). assert (0 <= g * - l) by (apply Rmult_le_pos; lra). lra. }
      apply Rabs_bd in H. lra.
  Qed.

  (** what [shows] means for the byte, away from the jump of the transfer curve at 0.0031308: the byte is at most half a level
      above and one and a half levels below the exact value *)
  Lemma root_slope s t : 0.0031308 <= s -> s <= t -> 0 <= 269.025 * Rpower t (/ 2.2) - 269.025 * Rpower s (/ 2.2) <= 2900 * (t - s).
  Proof using.
    intros Hs Ht. destruct (Req_dec s t) as [->|N]; [lra|].
    destruct (MVT_cor2 (fun x => Rpower x (/ 2.2)) (fun x => / 2.2 * Rpower x (/ 2.2 - 1)) s t ltac:(lra)) as [c [E Hc]].
    { intros c Hc. apply derivable_pt_lim_power. lra. }
    assert (B : 0 < Rpower c (/ 2.2 - 1) <= 23.5).
    { split; [apply Rpower_pos|]. replace (/ 2.2 - 1) with (- (INR 6 / INR 11)) by (cbn; lra). rewrite Rpower_Ropp.
      replace 23.5 with (/ (/ 23.5)) by lra. apply Rinv_le_contravar; [lra|].
      apply Rle_trans with (Rpower 0.0031308 (INR 6 / INR 11)); [|apply Rle_Rpower_l; [cbn|]; lra].
      apply Rpower_ge_root; [lra|lra|lia|]. cbn. lra. }
    replace (269.025 * Rpower t (/ 2.2) - 269.025 * Rpower s (/ 2.2)) with (269.025 * (Rpower t (/ 2.2) - Rpower s (/ 2.2))) by ring. rewrite E.
    assert (0 <= / 2.2 * Rpower c (/ 2.2 - 1) * (t - s)) by (apply Rmult_le_pos; [apply Rmult_le_pos|]; lra).
    assert (/ 2.2 * Rpower c (/ 2.2 - 1) * (t - s) <= / 2.2 * 23.5 * (t - s)) by (apply Rmult_le_compat_r; lra). lra.
  Qed.
  Theorem C83_bytes v x : shows (/ 8000) v x -> (x <= 0.003 \/ 0.0033 <= x) ->
    (0 <= v <= 255)%Z /\ (IZR v <= encode x + / 2 \/ v = 0%Z) /\ (encode x - 3 / 2 <= IZR v \/ v = 255%Z).
  Proof using.
    intros (x' & q & Hx & Hq & ->) Hj. apply Rabs_bd in Hx, Hq.
    assert (D : Rabs (encode x' - encode x) <= 0.42).
    { unfold encode. destruct (Rle_dec x' 0.0031308), (Rle_dec x 0.0031308); try lra.
      - apply Rabs_le'; lra.
      - destruct (Rle_lt_dec x x') as [L|L].
        + pose proof (root_slope x x' ltac:(lra) L). apply Rabs_le'; lra.
        + pose proof (root_slope x' x ltac:(lra) ltac:(lra)). apply Rabs_le'; lra. }
    apply Rabs_bd in D. pose proof (Zfloor_lb q) as F1. pose proof (Zfloor_ub q) as F2.
    split; [lia|]. split.
    - destruct (Z_le_gt_dec (Zfloor q) 0) as [L|G]; [right; lia|left].
      apply Rle_trans with (IZR (Zfloor q)); [apply IZR_le; lia|lra].
    - destruct (Z_le_gt_dec 255 (Zfloor q)) as [L|G]; [right; lia|left].
      apply Rle_trans with (IZR (Zfloor q)); [lra|apply IZR_le; lia].
  Qed.
  (** the transfer curve is not monotone: it jumps down at 0.0031308 *)
  Theorem C83_jump : 10.3 <= encode 0.0031308 /\ encode 0.0031309 <= 6.
  Proof using.
    unfold encode. destruct (Rle_dec 0.0031308 0.0031308); [|lra]. destruct (Rle_dec 0.0031309 0.0031308); [lra|]. split; [lra|].
    assert (Rpower 0.0031309 (/ 2.2) <= 0.0731); [|lra].
    replace (/ 2.2) with (INR 5 / INR 11) by (cbn; lra). apply Rpower_le_root; [lra|lra|lia|]. cbn. lra.
  Qed.

  (** brightening black by 128 gives brown, not gray *)
  Theorem C83_tint_refuted (img : image Z) : rgb_input img ->
    exists out, brightness_lab p lm img 128 = Ret out
      /\ forall x y, inside img x y -> color_at img x y = [0; 0; 0]%Z ->
         exists r g b, color_at out x y = [r; g; b] /\ (118 <= r)%Z /\ (b <= 96)%Z.
  Proof using HP.
    intros Hi. destruct (C83_brightness_lab img 128 Hi ltac:(lia)) as [out [E (_ & _ & H)]]. exists out. split; [exact E|]. intros x y Hin Ec.
    destruct (H x y Hin 0%Z 0%Z 0%Z Ec) as (l & a & b & Hl & Ha & Hb & M & Sh).
    assert (Z0 : byte_lab d50 0 0 0 = (0, 0, 0)).
    { unfold byte_lab, byte_xyz, real_xyz, real_lab, linear_light. cbn [Z.leb Z.compare fst snd d50].
      replace (0.4124564 * (0 / 3294) + 0.3575761 * (0 / 3294) + 0.1804375 * (0 / 3294)) with 0 by lra.
      replace (0.2126729 * (0 / 3294) + 0.7151522 * (0 / 3294) + 0.0721750 * (0 / 3294)) with 0 by lra.
      replace (0.0193339 * (0 / 3294) + 0.1191920 * (0 / 3294) + 0.9503041 * (0 / 3294)) with 0 by lra.
      replace (0 / 0.964212) with 0 by lra. replace (0 / 0.825188) with 0 by lra. rewrite (curve_lo 0) by (unfold dl3, dl; lra).
      f_equal; [f_equal|]; unfold dl; field. }
    rewrite Z0 in Hl, Ha, Hb. cbn [fst snd] in Hl, Ha, Hb. apply Rabs_bd in Hl, Ha, Hb.
    destruct Sh as (r & g & b' & Eo & Sr & Sg & Sb). exists r, g, b'. split; [exact Eo|].
    unfold lab_light, lab_xyz, xyz_light in Sr, Sb. cbn [fst snd d50] in Sr, Sb.
    assert (N1 : 0.5705 <= (l + 16) / 116 <= 0.5708) by lra. assert (N2 : 0.5703 <= (l + 16) / 116 + a / 500 <= 0.5710) by lra. assert (N3 : 0.5703 <= (l + 16) / 116 - b / 200 <= 0.5710) by lra.
    rewrite !uncurve_hi in Sr, Sb by (unfold dl; lra).
    assert (Cu : forall n u v, 0 <= u -> u <= n <= v -> u ^ 3 <= n ^ 3 <= v ^ 3) by (intros n u v Hu Hn; split; apply pow_incr; lra).
    pose proof (Cu _ 0.5705 0.5708 ltac:(lra) N1) as C1. pose proof (Cu _ 0.5703 0.5710 ltac:(lra) N2) as C2. pose proof (Cu _ 0.5703 0.5710 ltac:(lra) N3) as C3.
    set (n1 := ((l + 16) / 116) ^ 3) in *. set (n2 := ((l + 16) / 116 + a / 500) ^ 3) in *. set (n3 := ((l + 16) / 116 - b / 200) ^ 3) in *. clearbody n1 n2 n3.
    set (lr := 3.2404542 * (0.964212 * n2) - 1.5371385 * n1 - 0.4985314 * (0.825188 * n3)) in *.
    set (lb := 0.0556434 * (0.964212 * n2) - 0.2040259 * n1 + 1.0572252 * (0.825188 * n3)) in *.
    assert (Lr : 0.217 <= lr) by (unfold lr; lra). assert (Lb : 0.13 <= lb <= 0.1355) by (unfold lb; lra). clearbody lr lb.
    split.
    - destruct (C83_bytes r lr Sr ltac:(lra)) as (_ & _ & [H1| ->]); [|lia].
      assert (0.4985 <= Rpower lr (/ 2.2)).
      { replace (/ 2.2) with (INR 5 / INR 11) by (cbn; lra). apply Rpower_ge_root; [lra|lra|lia|].
        apply Rle_trans with (0.217 ^ 5); [cbn; lra|apply pow_incr; lra]. }
      unfold encode in H1. destruct (Rle_dec lr 0.0031308); [lra|]. apply le_IZR. lra.
    - destruct (C83_bytes b' lb Sb ltac:(lra)) as (_ & [H1| ->] & _); [|lia].
      assert (Rpower lb (/ 2.2) <= 0.4035).
      { replace (/ 2.2) with (INR 5 / INR 11) by (cbn; lra). apply Rpower_le_root; [lra|lra|lia|].
        apply Rle_trans with (0.1355 ^ 5); [apply pow_incr; lra|cbn; lra]. }
      unfold encode in H1. destruct (Rle_dec lb 0.0031308); [lra|]. apply le_IZR. lra.
  Qed.
End Back.

(** accurate power functions exist for this range too, and a colour image is an input *)
Lemma ideal_wide : pow_wide ideal_pow.
Proof.
  intros x y r s Fx Fy Hr Hs.
  assert (Hp : (/ 1073741824 <= Rpower r s <= 32768)%R).
  { destruct (Rle_lt_dec r 2) as [L|G]; [pose proof (power_range r s ltac:(lra) Hs); lra|]. split.
    - pose proof (Rpower_ge_1 r s ltac:(lra) ltac:(lra)). lra.
    - apply Rle_trans with (Rpower r 3); [apply Rle_Rpower; lra|]. apply Rle_trans with (Rpower 32 3); [apply Rle_Rpower_l; lra|].
      rewrite Rpower_3 by lra. cbn. lra. }
  exists (rnd32 (Rpower r s)). split.
  - destruct Fx as [_ <-]. destruct Fy as [_ <-]. apply round_to_fin. rewrite Rabs_pos_eq by lra. apply Rle_trans with (bpow radix2 15); [cbn; lra|apply bpow_le; lia].
  - eapply Rle_trans; [apply rel_err|].
    + rewrite Rabs_pos_eq by lra. apply Rle_trans with (bpow radix2 (-30)); [apply bpow_le; lia|]. cbn. lra.
    + rewrite Rabs_pos_eq by lra. cbn. lra.
Qed.
Theorem C83_example : (exists pow, pow_wide pow) /\ rgb_input (Image (Info 2 1 4 true) [0; 0; 0; 255; 7; 90; 7; 0])
  /\ moderate (50, 20, -30)%R /\ color_input (Image (Info 1 1 3 false) [f32_of_Z 50; f32_of_Z 20; f32_of_Z (-30)]).
Proof.
  split; [exists ideal_pow; exact ideal_wide|]. split.
  - split; [apply wfb_wf; reflexivity|]. split; [repeat constructor; unfold is_u8; lia|]. split; [reflexivity|]. cbn. lia.
  - split; [unfold moderate; lra|]. split; [apply wfb_wf; reflexivity|]. split; [reflexivity|]. cbn. lia.
Qed.
