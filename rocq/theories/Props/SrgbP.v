(** * C68: what a u8 image loses on the way through a linear, XYZ or CIELAB image *)
From Coq Require Import Lra.
From Verif.Proofs Require Import BaseL ImageL ImageOps ToneL FloatL TransformL PowL SrgbL SrgbL2 SrgbL3.
From Verif.Model Require Import Tone.
From Verif.Spec Require Import ImageS FloatS ColorS ConvS PowS.
From Verif.Props Require Import ImageP MatP HsvP ToneP ConvP.
Open Scope Z_scope.

(** from colours to images *)
Lemma trip1 f (img out : image Z) : repixeled f (fun a => a) 3 img out -> info_of out = info_of img ->
  (forall r g b, is_u8 r -> is_u8 g -> is_u8 b -> exists r' g' b', f [r; g; b] = [r'; g'; b'] /\ near r r' /\ near g g' /\ near b b') ->
  wf img -> samples is_u8 img -> colors (info_of img) = 3 -> loses_at_most_one img out.
Proof.
  intros [Wo [_ HR]] HI Hf Hwf Hs Hc.
  split; [exact HI|]. split; [exact Wo|].
  intros x y c s Hin Hc0 Es. specialize (HR x y Hin). pose proof (pixel_at_len img Hwf x y Hin) as Lp.
  assert (HP : Forall is_u8 (pixel_at img x y)).
  { apply pixels_samples. exact Hs. }
  assert (Key : forall a b d : Z, is_u8 a -> is_u8 b -> is_u8 d -> forall (i : nat) v, nth_error [a; b; d] i = Some v ->
    exists v', nth_error (f [a; b; d]) i = Some v' /\ 0 <= v' <= 255 /\ (v' = v \/ v' = v - 1)).
  { intros a b d Ha Hb Hd i v Ei. destruct (Hf a b d Ha Hb Hd) as [a' [b' [d' [-> [Na [Nb Nd]]]]]].
    unfold near, is_u8 in *. destruct i as [|[|[|i]]]; cbn in Ei |- *; [| | |destruct i; discriminate]; injection Ei as <-;
      eexists; (split; [reflexivity|]); lia. }
  unfold sample in *. destruct (alpha (info_of img)) eqn:Ha.
  - assert (exists a b d al, pixel_at img x y = [a; b; d] ++ [al]) as [a [b [d [al Ep]]]].
    { unfold colors in Hc. rewrite Ha in Hc. unfold len in Lp.
      destruct (pixel_at img x y) as [|a [|b [|d [|al [|]]]]]; cbn in Lp; try lia. exists a, b, d, al. reflexivity. }
    rewrite (HR _ _ Ep). rewrite Ep in Es, HP. unfold is_alpha. rewrite Ha. cbn [andb].
    assert (EC : channels (info_of img) = 4) by (unfold colors in Hc; rewrite Ha in Hc; lia). rewrite EC.
    inversion HP as [|? ? Ua HP1]; subst. inversion HP1 as [|? ? Ub HP2]; subst. inversion HP2 as [|? ? Ud HP3]; subst. inversion HP3 as [|? ? Ual _]; subst.
    destruct (c =? 4 - 1) eqn:E4.
    + apply Z.eqb_eq in E4. subst c. cbn in Es. injection Es as <-. exists al. split; [|split; [exact Ual|reflexivity]].
      destruct (Hf a b d Ua Ub Ud) as [a' [b' [d' [-> _]]]]. reflexivity.
    + assert (Hc3 : (Z.to_nat c < 3)%nat).
      { assert (Z.to_nat c < 4)%nat by (apply (proj1 (nth_error_Some ([a; b; d] ++ [al]) (Z.to_nat c))); rewrite Es; discriminate). lia. }
      rewrite nth_error_app1 in Es by (cbn; lia). destruct (Key a b d Ua Ub Ud _ _ Es) as [v' [E' Hv']].
      exists v'. split; [|exact Hv']. rewrite nth_error_app1; [exact E'|]. apply nth_error_Some. rewrite E'. discriminate.
  - assert (exists a b d, pixel_at img x y = [a; b; d]) as [a [b [d Ep]]].
    { apply triple'. unfold colors in Hc. rewrite Ha in Hc. lia. }
    rewrite HR, Ep. rewrite Ep in Es, HP. unfold is_alpha. rewrite Ha. cbn [andb].
    inversion HP as [|? ? Ua HP1]; subst. inversion HP1 as [|? ? Ub HP2]; subst. inversion HP2 as [|? ? Ud HP3]; subst.
    exact (Key a b d Ua Ub Ud _ _ Es).
Qed.

Lemma trip op f : converts is_u8 op f (fun a => a) ->
  (forall r g b, is_u8 r -> is_u8 g -> is_u8 b -> exists r' g' b', f [r; g; b] = [r'; g'; b'] /\ near r r' /\ near g g' /\ near b b') ->
  forall img : image Z, wf img -> samples is_u8 img -> colors (info_of img) = 3 -> 0 < width (info_of img) * height (info_of img) ->
  exists out, op img = Ret out /\ loses_at_most_one img out.
Proof.
  intros HC Hf img Hwf Hs Hc Hne. destruct (HC img Hwf Hs Hc Hne) as [out [E [HR HI]]].
  exists out. split; [exact E|]. apply (trip1 f); assumption.
Qed.

(** the trip of one colour triple through linear light *)
Lemma linear_colour pow r g b : pow_ok pow -> is_u8 r -> is_u8 g -> is_u8 b ->
  exists r' g' b', map (srgb_encode pow) (map (srgb_decode pow) [r; g; b]) = [r'; g'; b'] /\ near r r' /\ near g g' /\ near b b'.
Proof.
  intros HP Hr Hg Hb. eexists _, _, _. split; [reflexivity|].
  assert (K : forall v, is_u8 v -> near v (srgb_encode pow (srgb_decode pow v))).
  { intros v Hv. apply (encode_close pow _ v HP Hv). eapply ApproxL.ap_weaken; [apply (decode_ap pow v HP Hv)|]. unfold ApproxL.uu. lra. }
  split; [|split]; apply K; assumption.
Qed.

Lemma linear_conv p lm : converts is_u8 (fun i => let! j := linearize_srgb_f32 p lm i in unlinearize_srgb_f32 p lm j)
  (fun cs => map (srgb_encode (powf lm)) (map (srgb_decode (powf lm)) cs)) (fun a => a).
Proof.
  eapply conv_ext; [reflexivity| |apply (conv_comp is_u8 _ _ _ _ _ _ (conv_linearize p lm) (conv_unlinearize p lm))].
  exact alpha_there_and_back.
Qed.

(** sRGB -> linear light -> sRGB: alpha comes back exactly, a colour sample comes back or loses one *)
Theorem C68_linear_round_trip p lm (img : image Z) : pow_ok (powf lm) ->
  wf img -> samples is_u8 img -> colors (info_of img) = 3 -> 0 < width (info_of img) * height (info_of img) ->
  exists out, (let! j := linearize_srgb_f32 p lm img in unlinearize_srgb_f32 p lm j) = Ret out
    /\ loses_at_most_one img out.
Proof.
  intros HP. apply (trip _ _ (linear_conv p lm)). intros r g b. apply linear_colour. exact HP.
Qed.

(** samples up to 10 come back exactly whatever the power function; so does 255 if powers of 1 are exact *)
Theorem C68_linear_exact p lm (img : image Z) :
  wf img -> samples is_u8 img -> colors (info_of img) = 3 -> 0 < width (info_of img) * height (info_of img) ->
  exists out, (let! j := linearize_srgb_f32 p lm img in unlinearize_srgb_f32 p lm j) = Ret out /\
    forall x y c s, inside img x y -> 0 <= c -> sample img x y c = Some s ->
      s <= 10 \/ (s = 255 /\ forall e, powf lm f32_1 e = f32_1) -> sample out x y c = Some s.
Proof.
  intros Hwf Hs Hc Hne. destruct (linear_conv p lm img Hwf Hs Hc Hne) as [out [E [[Wo [_ HR]] HI]]].
  exists out. split; [exact E|]. intros x y c s Hin Hc0 Es Hd. specialize (HR x y Hin).
  assert (HP : Forall is_u8 (pixel_at img x y)) by (apply pixels_samples; exact Hs).
  assert (K : is_u8 s -> srgb_encode (powf lm) (srgb_decode (powf lm) s) = s).
  { intros U. unfold is_u8 in U. destruct Hd as [Hd|[-> He]]; [apply dark_exact; lia|apply white_exact; exact He]. }
  assert (M : forall l, Forall is_u8 l -> nth_error l (Z.to_nat c) = Some s ->
     nth_error (map (srgb_encode (powf lm)) (map (srgb_decode (powf lm)) l)) (Z.to_nat c) = Some s).
  { intros l Fl El. rewrite Forall_forall in Fl. pose proof (Fl s (nth_error_In _ _ El)) as U.
    rewrite (map_nth_error _ _ _ (map_nth_error (srgb_decode (powf lm)) _ _ El)). f_equal. apply K. exact U. }
  unfold sample in *. destruct (alpha (info_of img)) eqn:Ha; [|rewrite HR; apply M; assumption].
  pose proof (pixel_at_len img Hwf x y Hin) as Lp.
  destruct (exists_last (l := pixel_at img x y)) as [cs [al Ep]].
  { intros En. rewrite En in Es. destruct (Z.to_nat c); discriminate. }
  rewrite (HR _ _ Ep). rewrite Ep in Es, HP. apply Forall_app in HP. destruct HP as [HP1 _].
  destruct (Nat.lt_ge_cases (Z.to_nat c) (length cs)) as [L|G].
  - rewrite nth_error_app1 in Es by exact L. rewrite nth_error_app1 by (rewrite !map_length; exact L). apply M; assumption.
  - rewrite nth_error_app2 in Es by exact G. rewrite nth_error_app2 by (rewrite !map_length; exact G). rewrite !map_length. exact Es.
Qed.

(** sRGB -> XYZ -> sRGB *)
Theorem C68_xyz_round_trip p lm (img : image Z) : pow_ok (powf lm) ->
  wf img -> samples is_u8 img -> colors (info_of img) = 3 -> 0 < width (info_of img) * height (info_of img) ->
  exists out, (let! j := srgb_to_xyz_f32 p lm img in xyz_to_srgb_f32 p lm j) = Ret out /\ loses_at_most_one img out.
Proof.
  intros HP. apply (trip _ _ (proj1 (proj2 (C48_alpha_round_trip p lm D50)))). intros r g b Hr Hg Hb. apply xyz_round_trip; assumption.
Qed.

(** sRGB -> CIELAB -> sRGB, with either white point *)
Theorem C68_lab_round_trip p lm w (img : image Z) : pow_ok (powf lm) ->
  wf img -> samples is_u8 img -> colors (info_of img) = 3 -> 0 < width (info_of img) * height (info_of img) ->
  exists out, (let! j := srgb_to_lab_f32 p lm img w in lab_to_srgb_f32 p lm j w) = Ret out /\ loses_at_most_one img out.
Proof.
  intros HP. apply (trip _ _ (proj1 (C48_alpha_round_trip p lm w))). intros r g b Hr Hg Hb.
  destruct (lab_round_trip (powf lm) (white_of w) (fun l => l) r g b HP) as [r' [g' [b' [E N]]]]; try assumption.
  { destruct w; [left|right]; reflexivity. }
  { auto. }
  exists r', g', b'. split; [|exact N]. rewrite <- E. unfold edit_lightness, srgb_to_lab, xyz_to_lab.
  destruct (white_of w) as [[xn yn] zn]. reflexivity.
Qed.

(** brightness_lab with bias 0 and contrast_lab with gain 1 are the CIELAB round trip: they darken a
    sample by at most one and never brighten it *)
Theorem C68_brightness_lab_0 p lm (img : image Z) : pow_ok (powf lm) ->
  wf img -> samples is_u8 img -> colors (info_of img) = 3 -> 0 < width (info_of img) * height (info_of img) ->
  exists out, brightness_lab p lm img 0 = Ret out /\ loses_at_most_one img out.
Proof.
  intros HP. apply (trip _ _ (C63_brightness_lab p lm 0 ltac:(lia))). intros r g b Hr Hg Hb.
  apply lab_round_trip; try assumption; [left; reflexivity|].
  intros L l FL BL.
  assert (Z0 : fin (f32_mul (f32_div (f32_of_Z 0) (f32_of_Z 255)) (f32_of_Z 100)) 0%R).
  { split; vm_compute; reflexivity. }
  assert (Fm : Generic_fmt.generic_format Zaux.radix2 (SpecFloat.fexp 24 128) l) by (destruct FL as [_ <-]; apply BinarySingleNaN.generic_format_B2R).
  assert (E : rnd32 (l + 0) = l) by (rewrite Rplus_0_r; apply rnd_fmt; exact Fm).
  rewrite <- E. apply add_fin; [exact FL|exact Z0|]. rewrite Rplus_0_r. eapply (ApproxL.small_bpow 7); [lia|exact BL].
Qed.
Theorem C68_contrast_lab_1 p lm (img : image Z) : pow_ok (powf lm) ->
  wf img -> samples is_u8 img -> colors (info_of img) = 3 -> 0 < width (info_of img) * height (info_of img) ->
  exists out, contrast_lab p lm img f32_1 = Ret out /\ loses_at_most_one img out.
Proof.
  intros HP. apply (trip _ _ (C63_contrast_lab p lm f32_1 ltac:(vm_compute; reflexivity) ltac:(vm_compute; reflexivity))). intros r g b Hr Hg Hb.
  apply lab_round_trip; try assumption; [left; reflexivity|].
  intros L l FL BL.
  assert (Z0 : fin f32_1 1%R) by (apply (of_Z_isZ 1); lia).
  assert (Fm : Generic_fmt.generic_format Zaux.radix2 (SpecFloat.fexp 24 128) l) by (destruct FL as [_ <-]; apply BinarySingleNaN.generic_format_B2R).
  assert (E : rnd32 (l * 1) = l) by (rewrite Rmult_1_r; apply rnd_fmt; exact Fm).
  rewrite <- E. apply mul_fin; [exact FL|exact Z0|]. rewrite Rmult_1_r. eapply (ApproxL.small_bpow 7); [lia|exact BL].
Qed.

(** libraries with an accurate power function exist: any correctly rounded one is accurate, and there is one *)
Theorem C68_accurate_powers_exist :
  (forall pow, correctly_rounded pow -> pow_ok pow) /\ exists pow, correctly_rounded pow.
Proof. split; [exact correct_ok|exists ideal_pow; exact ideal_correct]. Qed.

(** even with a correctly rounded power function the trip through linear light is not the identity:
    the colour (124, 124, 124) comes back as (123, 123, 123) *)
Theorem C68_identity_refuted p lm : correctly_rounded (powf lm) ->
  let img := Image (Info 1 1 3 false) [124; 124; 124] in
  (let! j := linearize_srgb_f32 p lm img in unlinearize_srgb_f32 p lm j) = Ret (Image (Info 1 1 3 false) [123; 123; 123]).
Proof.
  intros HP img.
  assert (Wf : wf img) by (apply wfb_wf; reflexivity).
  destruct (linear_conv p lm img) as [out [E [[Wo [_ HR]] HI]]]; try assumption; try reflexivity; try (cbn; lia).
  { repeat constructor; cbn; unfold is_u8; lia. }
  rewrite E. f_equal. destruct out as [inf d]. cbn [info_of] in HI. subst inf. unfold img. cbn [info_of]. f_equal.
  specialize (HR 0 0 ltac:(split; cbn; lia)). cbn [alpha info_of img] in HR.
  change (pixel_at img 0 0) with [124; 124; 124] in HR. cbn [map] in HR. rewrite !(trip124 _ HP) in HR.
  pose proof (wf_data _ Wo) as Wl.
  destruct d as [|a [|b [|c [|? ?]]]]; unfold len in Wl; cbn in Wl; try lia. change ([a; b; c] = [123; 123; 123]) in HR. exact HR.
Qed.

(** the encoder is not monotone: the brighter linear value 0.0031309 becomes 5, the darker 0.0031308 becomes 10 *)
Theorem C68_monotone_refuted p lm : pow_ok (powf lm) ->
  let img := Image (Info 2 1 3 false) [f32_dec 31308 7; f32_dec 31308 7; f32_dec 31308 7; f32_dec 31309 7; f32_dec 31309 7; f32_dec 31309 7] in
  f32_ltb (f32_dec 31308 7) (f32_dec 31309 7) = true /\
  unlinearize_srgb_f32 p lm img = Ret (Image (Info 2 1 3 false) [10; 10; 10; 5; 5; 5]).
Proof.
  intros HP img. split; [vm_compute; reflexivity|].
  assert (Wf : wf img) by (apply wfb_wf; reflexivity).
  destruct (conv_unlinearize p lm img Wf (samples_any img) eq_refl ltac:(reflexivity)) as [out [E [[Wo [_ HR]] HI]]].
  rewrite E. f_equal. destruct out as [inf d]. cbn [info_of] in HI. subst inf. unfold img. cbn [info_of]. f_equal.
  destruct (dip _ HP) as [D1 D2].
  pose proof (HR 0 0 ltac:(split; cbn; lia)) as H0. pose proof (HR 1 0 ltac:(split; cbn; lia)) as H1. cbn [alpha info_of img] in H0, H1.
  change (pixel_at img 0 0) with [f32_dec 31308 7; f32_dec 31308 7; f32_dec 31308 7] in H0.
  change (pixel_at img 1 0) with [f32_dec 31309 7; f32_dec 31309 7; f32_dec 31309 7] in H1.
  cbn [map] in H0, H1. rewrite D1 in H0. rewrite D2 in H1.
  pose proof (wf_data _ Wo) as Wl. cbn [info_of data width height channels img] in Wl.
  destruct d as [|a [|b [|c [|a' [|b' [|c' [|? ?]]]]]]]; unfold len in Wl; cbn [length] in Wl; try lia.
  change ([a; b; c] = [10; 10; 10]) in H0. change ([a'; b'; c'] = [5; 5; 5]) in H1. congruence.
Qed.

(** the hypotheses hold of a 2x1 RGBA image and a correctly rounded library *)
Example C68_example : exists out, brightness_lab Debug (Libm ideal_pow (fun x => x) (fun x => x)) ex_rgba 0 = Ret out
  /\ loses_at_most_one ex_rgba out.
Proof.
  apply C68_brightness_lab_0; [apply correct_ok, ideal_correct|exact ex_rgba_wf|exact ex_rgba_u8|reflexivity|cbn; lia].
Qed.
