(** * C44, C45: 8-bit HSV (src/colorspace.rs) *)
From Verif.Proofs Require Import BaseL ImageL ImageOps ToneL HsvL.
From Verif.Model Require Import Colorspace.
Open Scope Z_scope.

Definition ex_rgb : image Z := Image (Info 2 2 3 false) [200;10;30; 0;0;0; 77;77;77; 13;200;255].
Example ex_rgb_wf : wf ex_rgb. Proof. apply wfb_wf. reflexivity. Qed.
Example ex_rgb_u8 : samples is_u8 ex_rgb.
Proof. unfold samples, is_u8. repeat constructor; cbn; lia. Qed.

Lemma triple (cs : list Z) : len cs = 3 -> exists r g b, cs = [r; g; b].
Proof.
  destruct cs as [|r [|g [|b [|? ?]]]]; cbn; intros H; try (unfold len in H; cbn in H; lia). eauto.
Qed.
Lemma colors_channels {T} (img : image T) : colors (info_of img) = 3 -> alpha (info_of img) = false \/ 0 < channels (info_of img).
Proof. unfold colors. destruct (alpha _); intros; [right; lia|left; reflexivity]. Qed.

Lemma wh_3 {T} (img : image T) : wf img -> colors (info_of img) = 3 ->
  width (info_of img) * height (info_of img) * (3 + (if alpha (info_of img) then 1 else 0)) <= u32_max.
Proof.
  intros Hwf Hc. pose proof (wf_full _ Hwf). unfold colors in Hc.
  replace (3 + _) with (channels (info_of img)) by lia. assumption.
Qed.

Section HSV.
  Context (p : profile) (img : image Z) (Hwf : wf img) (Hu : samples is_u8 img)
          (Hc : colors (info_of img) = 3) (Hne : 0 < width (info_of img) * height (info_of img)).
  Lemma map3 (f : list Z -> outcome (list Z)) (f' : list Z -> list Z) :
    (forall r g b, is_u8 r -> is_u8 g -> is_u8 b -> f [r; g; b] = Ret (f' [r; g; b]) /\ len (f' [r; g; b]) = 3) ->
    exists out, map_pixels_if_alpha p f (fun a => Ret a) img = Ret out /\ repixeled f' (fun a => a) 3 img out.
  Proof.
    intros Hf. unfold samples in Hu. rewrite Forall_forall in Hu. apply map_if_alpha_repixeled; auto; try lia.
    - apply wh_3; assumption.
    - apply colors_channels. exact Hc.
    - intros cs Hl Hs. rewrite Hc in Hl. destruct (triple cs Hl) as [r [g [b ->]]].
      apply Hf; apply Hu, Hs; cbn; tauto.
  Qed.

  (** ** C44: every RGB pixel becomes (H, S, V), the alpha sample is kept *)
  Theorem C44_rgb_to_hsv : exists out, rgb_to_hsv p img = Ret out
    /\ repixeled hsv_of (fun a => a) 3 img out /\ info_of out = info_of img /\ samples is_u8 out.
  Proof.
    destruct (map3 (rgb_to_hsv_px p) hsv_of) as [out [E H]].
    - intros r g b Hr Hg Hb. split; [apply rgb_to_hsv_px_ok; assumption|reflexivity].
    - exists out. split; [exact E|]. split; [exact H|]. split; [apply (repixeled_info _ _ _ _ _ H Hc)|].
      apply samples_pixels; [apply H|]. intros x y Hin. rewrite (repixeled_inside _ _ _ _ _ x y H) in Hin.
      destruct (pixel_colors img x y Hwf Hin (colors_channels img Hc)) as [cs [rest [Ep [Hl Hr]]]].
      rewrite (repixeled_pixel _ _ _ _ _ x y cs rest H Hin Ep Hr).
      pose proof (pixels_samples is_u8 img x y Hu) as HF. rewrite Ep in HF. apply Forall_app in HF as [HF1 HF2].
      apply Forall_app. split; [|rewrite map_id; exact HF2].
      rewrite Hc in Hl. destruct (triple cs Hl) as [r [g [b ->]]].
      pose proof (Forall_inv HF1) as Hr1. pose proof (Forall_inv (Forall_inv_tail HF1)) as Hg1.
      pose proof (Forall_inv (Forall_inv_tail (Forall_inv_tail HF1))) as Hb1.
      pose proof (hue_range r g b Hr1 Hg1 Hb1). pose proof (sat_range r g b Hr1 Hg1 Hb1). pose proof (mm r g b Hr1 Hg1 Hb1).
      unfold hsv_of, hsv_value. repeat constructor; unfold is_u8; lia.
  Qed.

  (** ** C45: the way back *)
  Theorem C45_hsv_to_rgb : exists out, hsv_to_rgb p img = Ret out
    /\ repixeled rgb_of (fun a => a) 3 img out /\ info_of out = info_of img /\ samples is_u8 out.
  Proof.
    destruct (map3 (hsv_to_rgb_px p) rgb_of) as [out [E H]].
    - intros h s v Hh Hs Hv. split; [apply hsv_to_rgb_px_ok; assumption|].
      destruct (rgb_of_max h s v Hh Hs Hv) as [r [g [b [-> _]]]]. reflexivity.
    - exists out. split; [exact E|]. split; [exact H|]. split; [apply (repixeled_info _ _ _ _ _ H Hc)|].
      apply samples_pixels; [apply H|]. intros x y Hin. rewrite (repixeled_inside _ _ _ _ _ x y H) in Hin.
      destruct (pixel_colors img x y Hwf Hin (colors_channels img Hc)) as [cs [rest [Ep [Hl Hr]]]].
      rewrite (repixeled_pixel _ _ _ _ _ x y cs rest H Hin Ep Hr).
      pose proof (pixels_samples is_u8 img x y Hu) as HF. rewrite Ep in HF. apply Forall_app in HF as [HF1 HF2].
      apply Forall_app. split; [|rewrite map_id; exact HF2].
      rewrite Hc in Hl. destruct (triple cs Hl) as [h [s [v ->]]].
      pose proof (Forall_inv HF1) as Hr1. pose proof (Forall_inv (Forall_inv_tail HF1)) as Hg1.
      pose proof (Forall_inv (Forall_inv_tail (Forall_inv_tail HF1))) as Hb1.
      destruct (rgb_of_max h s v Hr1 Hg1 Hb1) as [r [g [b [-> [? [? [? _]]]]]]]. repeat apply Forall_cons; try assumption. apply Forall_nil.
  Qed.
End HSV.

(** what the triples mean *)
Theorem C44_value_saturation_hue r g b : is_u8 r -> is_u8 g -> is_u8 b ->
  exists h s v, hsv_of [r; g; b] = [h; s; v]
    /\ v = Z.max r (Z.max g b)
    /\ (v = 0 -> s = 0)
    /\ (v > 0 -> s * v <= 255 * (v - Z.min r (Z.min g b)) < (s + 1) * v)
    /\ 0 <= s <= 255 /\ 0 <= h <= 254
    /\ (r = g /\ g = b -> h = 0 /\ s = 0).
Proof.
  intros Hr Hg Hb. exists (hsv_hue r g b), (hsv_saturation r g b), (hsv_value r g b).
  pose proof (mm r g b Hr Hg Hb) as Hmm. pose proof (sat_range r g b Hr Hg Hb). pose proof (hue_range r g b Hr Hg Hb).
  unfold is_u8 in *.
  assert (EM : Z.max r (Z.max g b) = max3 r g b) by (unfold max3; lia).
  assert (Em : Z.min r (Z.min g b) = min3 r g b) by (unfold min3; lia).
  rewrite EM, Em. unfold hsv_value in *.
  split; [reflexivity|]. split; [reflexivity|]. split; [|split; [|split; [|split]]]; auto.
  - intros E. unfold hsv_saturation. rewrite E. reflexivity.
  - intros HV. unfold hsv_saturation. replace (max3 r g b =? 0) with false by lia.
    pose proof (Z.div_mod (255 * (max3 r g b - min3 r g b)) (max3 r g b)).
    pose proof (Z.mod_pos_bound (255 * (max3 r g b - min3 r g b)) (max3 r g b)). nia.
  - intros [-> ->]. unfold hsv_hue, hsv_saturation. cbv zeta. unfold max3, min3. rewrite !Z.max_id, !Z.min_id, Z.sub_diag.
    split; [reflexivity|]. destruct (b =? 0); reflexivity.
Qed.
Theorem C45_max_min h s v : is_u8 h -> is_u8 s -> is_u8 v ->
  exists r g b, rgb_of [h; s; v] = [r; g; b] /\ Z.max r (Z.max g b) = v
    /\ Z.min r (Z.min g b) = v * (255 - s) / 255
    /\ (s = 0 -> r = v /\ g = v /\ b = v).
Proof.
  intros Hh Hs Hv. destruct (rgb_of_max h s v Hh Hs Hv) as [r [g [b [E [? [? [? [E1 E2]]]]]]]].
  exists r, g, b. unfold max3, min3, level in *. split; [exact E|]. split; [lia|]. split; [lia|].
  intros ->. cbv in E. change (rgb_of [h; 0; v] = [r; g; b]) in E. unfold rgb_of in E. cbv zeta in E.
  rewrite Z.eqb_refl in E. injection E as <- <- <-. auto.
Qed.

Lemma trip r g b : is_u8 r -> is_u8 g -> is_u8 b ->
  exists r' g' b', rgb_of (hsv_of [r; g; b]) = [r'; g'; b']
    /\ Z.max r' (Z.max g' b') = Z.max r (Z.max g b) /\ Z.min r' (Z.min g' b') = Z.min r (Z.min g b)
    /\ Z.abs (r' - r) <= 18 /\ Z.abs (g' - g) <= 18 /\ Z.abs (b' - b) <= 18.
Proof.
  intros Hr Hg Hb. pose proof (mm r g b Hr Hg Hb) as Hmm.
  destruct (rgb_of_max (hsv_hue r g b) (hsv_saturation r g b) (max3 r g b)) as [r' [g' [b' [E [_ [_ [_ [E1 E2]]]]]]]].
  { pose proof (hue_range r g b Hr Hg Hb). unfold is_u8. lia. }
  { apply sat_range; assumption. }
  { unfold is_u8. lia. }
  exists r', g', b'. unfold hsv_of, hsv_value. split; [exact E|].
  assert (EM : Z.max r (Z.max g b) = max3 r g b) by (unfold max3; lia).
  assert (Em : Z.min r (Z.min g b) = min3 r g b) by (unfold min3; lia).
  assert (EM' : Z.max r' (Z.max g' b') = max3 r' g' b') by (unfold max3; lia).
  assert (Em' : Z.min r' (Z.min g' b') = min3 r' g' b') by (unfold min3; lia).
  rewrite EM, Em, EM', Em'. split; [exact E1|].
  destruct (Z_lt_le_dec (min3 r g b) (max3 r g b)) as [Hlt|Hge].
  - assert (Es : hsv_saturation r g b = 255 * (max3 r g b - min3 r g b) / max3 r g b)
      by (unfold hsv_saturation; replace (max3 r g b =? 0) with false by lia; reflexivity).
    rewrite Es in *. split.
    + rewrite E2. apply level_S; lia.
    + destruct (trip_nongray r g b Hr Hg Hb Hlt) as [r2 [g2 [b2 [E3 H]]]]. rewrite E in E3. injection E3 as <- <- <-. exact H.
  - assert (r = max3 r g b /\ g = max3 r g b /\ b = max3 r g b /\ min3 r g b = max3 r g b) as (A & B & C & D) by lia.
    assert (Es : hsv_saturation r g b = 0).
    { unfold hsv_saturation. rewrite D, Z.sub_diag. destruct (max3 r g b =? 0); reflexivity. }
    rewrite Es in *. unfold level in E2. rewrite Z.sub_0_r, Z.div_mul in E2 by lia.
    assert (Hx : min3 r' g' b' <= r' <= max3 r' g' b' /\ min3 r' g' b' <= g' <= max3 r' g' b' /\ min3 r' g' b' <= b' <= max3 r' g' b')
      by (clear; unfold max3, min3; lia).
    clear - Hx A B C D E1 E2. lia.
Qed.

(** the round trip keeps maximum, minimum and alpha exactly and moves no channel by more than 18 *)
Theorem C45_round_trip p (img : image Z) : wf img -> samples is_u8 img ->
  colors (info_of img) = 3 -> 0 < width (info_of img) * height (info_of img) ->
  exists hsv out, rgb_to_hsv p img = Ret hsv /\ hsv_to_rgb p hsv = Ret out /\ info_of out = info_of img
    /\ forall x y, inside img x y ->
       exists r g b r' g' b' al, pixel_at img x y = [r; g; b] ++ al /\ pixel_at out x y = [r'; g'; b'] ++ al
         /\ Z.max r' (Z.max g' b') = Z.max r (Z.max g b) /\ Z.min r' (Z.min g' b') = Z.min r (Z.min g b)
         /\ Z.abs (r' - r) <= 18 /\ Z.abs (g' - g) <= 18 /\ Z.abs (b' - b) <= 18.
Proof.
  intros Hwf Hu Hc Hne. destruct (C44_rgb_to_hsv p img Hwf Hu Hc Hne) as [hsv [E1 [R1 [I1 U1]]]].
  destruct (C45_hsv_to_rgb p hsv) as [out [E2 [R2 [I2 U2]]]]; try rewrite I1; auto; [apply R1|].
  exists hsv, out. split; [exact E1|]. split; [exact E2|]. split; [congruence|].
  intros x y Hin. destruct (pixel_colors img x y Hwf Hin (colors_channels img Hc)) as [cs [al [Ep [Hl Hr]]]].
  rewrite Hc in Hl. destruct (triple cs Hl) as [r [g [b ->]]].
  pose proof (pixels_samples is_u8 img x y Hu) as HF. rewrite Ep in HF. apply Forall_app in HF as [HF1 _].
  destruct (trip r g b (Forall_inv HF1) (Forall_inv (Forall_inv_tail HF1)) (Forall_inv (Forall_inv_tail (Forall_inv_tail HF1))))
    as [r' [g' [b' [E H]]]].
  exists r, g, b, r', g', b', al. split; [exact Ep|]. split; [|exact H].
  rewrite <- E. rewrite <- (map_id al) at 1. rewrite <- (map_id al) at 1.
  apply (repixeled_pixel _ _ _ hsv out x y _ _ R2).
  - apply (repixeled_inside _ _ _ _ _ x y R1). exact Hin.
  - apply (repixeled_pixel _ _ _ img hsv x y _ _ R1 Hin Ep Hr).
  - rewrite map_length, I1. exact Hr.
Qed.

(** gray images survive exactly *)
Theorem C45_gray_round_trip p (img : image Z) : wf img -> samples is_u8 img ->
  colors (info_of img) = 3 -> 0 < width (info_of img) * height (info_of img) ->
  (forall x y, inside img x y -> exists v al, pixel_at img x y = [v; v; v] ++ al) ->
  exists hsv, rgb_to_hsv p img = Ret hsv /\ hsv_to_rgb p hsv = Ret img.
Proof.
  intros Hwf Hu Hc Hne Hg. destruct (C45_round_trip p img Hwf Hu Hc Hne) as [hsv [out [E1 [E2 [I H]]]]].
  exists hsv. split; [exact E1|]. rewrite E2. f_equal.
  assert (Hwo : wf out).
  { destruct (C44_rgb_to_hsv p img Hwf Hu Hc Hne) as [hsv' [E1' [R1 [I1 U1]]]]. rewrite E1 in E1'. injection E1' as <-.
    destruct (C45_hsv_to_rgb p hsv) as [out' [E2' [R2 _]]]; try rewrite I1; auto; [apply R1|].
    rewrite E2 in E2'. injection E2' as <-. apply R2. }
  apply image_ext; auto. intros x y Hin. assert (Hin' : inside img x y) by (unfold inside in *; rewrite I in Hin; exact Hin).
  destruct (H x y Hin') as [r [g [b [r' [g' [b' [al [Ep [Eo [EM [Em _]]]]]]]]]]].
  destruct (Hg x y Hin') as [v [al' Ev]]. rewrite Ev in Ep. injection Ep as <- <- <- <-.
  rewrite Eo, Ev. f_equal. assert (r' = v /\ g' = v /\ b' = v) as (-> & -> & ->) by lia. reflexivity.
Qed.

(** fewer than three colour channels: an indexing panic *)
Theorem C44_needs_three p (img : image Z) : wf img -> 0 < width (info_of img) * height (info_of img) ->
  colors (info_of img) < 3 ->
  rgb_to_hsv p img = Panic /\ hsv_to_rgb p img = Panic.
Proof.
  intros Hwf Hne Hc.
  assert (Hs : forall cs : list Z, len cs = colors (info_of img) -> cs = [] \/ (exists a, cs = [a]) \/ exists a b, cs = [a; b]).
  { intros [|a [|b [|c ?]]] Hl; unfold len in Hl; cbn [length] in Hl; eauto. lia. }
  split; apply map_if_alpha_panic; auto; intros cs Hl; destruct (Hs cs Hl) as [->|[[a ->]|[a [b ->]]]]; try reflexivity.
  unfold hsv_to_rgb_px. change (vget [a; b] 1) with (Ret b). change (vget [a; b] 2) with (@Panic Z).
  change (vget [a; b] 0) with (Ret a). rewrite !bind_Ret. destruct (b =? 0); reflexivity.
Qed.

Example C44_example : wf ex_rgb /\ samples is_u8 ex_rgb /\ colors (info_of ex_rgb) = 3
  /\ match rgb_to_hsv Debug ex_rgb with
     | Ret hsv => data hsv = [251;242;200; 0;0;0; 0;0;77; 137;242;255]
         /\ match hsv_to_rgb Debug hsv with Ret out => data out = [200;10;40; 0;0;0; 77;77;77; 13;210;255] | _ => False end
     | _ => False end.
Proof. split; [exact ex_rgb_wf|]. split; [exact ex_rgb_u8|]. split; [reflexivity|]. vm_compute. auto. Qed.
(** the bound 18 is attained *)
Example C45_worst : rgb_of (hsv_of [23; 0; 248]) = [5; 0; 248]. Proof. reflexivity. Qed.
