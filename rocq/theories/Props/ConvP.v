(** * C48 (colour conversions keep size and alpha), C63 (tone operations in CIELAB) *)
From Verif.Proofs Require Import BaseL ImageL ImageOps ToneL FloatL TransformL.
From Verif.Model Require Import Tone.
From Verif.Spec Require Import ImageS ColorS ConvS HistS.
From Verif.Props Require Import ImageP MatP HistP HsvP ToneP.
Open Scope Z_scope.

(** [op] converts every non-empty image with three colour channels (and possibly alpha) pixel by
    pixel: the colour triple cs becomes the triple f cs, alpha a becomes g a, size and layout stay *)
Definition converts {T S} (P : T -> Prop) (op : image T -> outcome (image S)) (f : list T -> list S) (g : T -> S) : Prop :=
  forall img, wf img -> samples P img -> colors (info_of img) = 3 -> 0 < width (info_of img) * height (info_of img) ->
    exists out, op img = Ret out /\ repixeled f g 3 img out /\ info_of out = info_of img.

Notation any := (fun _ => True).
Lemma samples_any {T} (img : image T) : samples any img.
Proof. apply Forall_forall. auto. Qed.

Lemma triple' {T} (cs : list T) : len cs = 3 -> exists a b c, cs = [a; b; c].
Proof. destruct cs as [|r [|g [|b [|? ?]]]]; cbn; intros H; try (unfold len in H; cbn in H; lia). eauto. Qed.

Lemma conv_pixels p {T S} (P : T -> Prop) (F : list T -> outcome (list S)) (G : T -> outcome S) f g :
  (forall a b c, P a -> P b -> P c -> F [a; b; c] = Ret (f [a; b; c]) /\ len (f [a; b; c]) = 3) ->
  (forall a, P a -> G a = Ret (g a)) ->
  converts P (map_pixels_if_alpha p F G) f g.
Proof.
  intros HF HG img Hwf HP Hc Hne. unfold samples in HP. rewrite Forall_forall in HP.
  destruct (map_if_alpha_repixeled p img F G f g 3) as [out [E R]]; auto; try lia.
  - apply wh_3; assumption.
  - apply colors_channels. exact Hc.
  - intros cs Hl Hs. rewrite Hc in Hl. destruct (triple' cs Hl) as [r [b [c ->]]].
    apply HF; apply HP, Hs; cbn; tauto.
  - exists out. split; [exact E|]. split; [exact R|]. apply (repixeled_info _ _ _ _ _ R Hc).
Qed.

(** a sample map is a pixel map *)
Lemma recolored_repixeled {T S} (f g : T -> S) k (img : image T) out : wf img ->
  alpha (info_of img) = false \/ 0 < channels (info_of img) -> colors (info_of img) = k ->
  recolored f g img out -> repixeled (map f) g k img out.
Proof.
  intros Hwf HC Hk [I [Wo H]]. split; [exact Wo|]. split.
  { rewrite I. unfold colors in Hk. destruct (info_of img) as [w h c a]; cbn [width height channels alpha] in *. f_equal. lia. }
  intros x y Hin.
  assert (Hino : inside out x y) by (unfold inside; rewrite I; exact Hin).
  pose proof (pixel_at_len img Hwf x y Hin) as Li. pose proof (pixel_at_len out Wo x y Hino) as Lo. rewrite I in Lo.
  assert (N : forall j s, nth_error (pixel_at img x y) j = Some s ->
     nth_error (pixel_at out x y) j = Some (if is_alpha (info_of img) (Z.of_nat j) then g s else f s)).
  { intros j s Hs. specialize (H x y (Z.of_nat j) s Hin ltac:(lia)). unfold sample in H. rewrite Nat2Z.id in H. auto. }
  destruct (alpha (info_of img)) eqn:Ha.
  - intros cs a Ep. rewrite Ep in N, Li. rewrite len_app in Li. apply nth_error_ext. intros j.
    destruct (nth_error (cs ++ [a]) j) as [s|] eqn:Es.
    + rewrite (N j s Es). destruct (Nat.lt_ge_cases j (length cs)) as [L|L].
      * rewrite nth_error_app1 in Es |- * by (rewrite ?map_length; exact L). rewrite (map_nth_error f j cs Es).
        unfold is_alpha. rewrite Ha. replace (Z.of_nat j =? channels (info_of img) - 1) with false by (unfold len in Li; cbn in Li; lia). reflexivity.
      * rewrite nth_error_app2 in Es |- * by (rewrite ?map_length; exact L). rewrite map_length.
        destruct (j - length cs)%nat as [|?] eqn:Ej; [|destruct n; discriminate]. injection Es as <-. cbn [nth_error].
        unfold is_alpha. rewrite Ha. replace (Z.of_nat j =? channels (info_of img) - 1) with true by (unfold len in Li; cbn in Li; lia). reflexivity.
    + rewrite (proj2 (nth_error_None (map f cs ++ [g a]) j)) by (apply nth_error_None in Es; rewrite app_length in *; rewrite map_length; cbn in *; lia).
      apply nth_error_None. apply nth_error_None in Es. rewrite app_length in Es. unfold len in *. cbn in *. lia.
  - apply nth_error_ext. intros j. destruct (nth_error (pixel_at img x y) j) as [s|] eqn:Es.
    + rewrite (N j s Es), (map_nth_error f j _ Es). unfold is_alpha. rewrite Ha. reflexivity.
    + rewrite (proj2 (nth_error_None (map f (pixel_at img x y)) j)) by (rewrite map_length; apply nth_error_None; exact Es).
      apply nth_error_None. apply nth_error_None in Es. unfold len in *. lia.
Qed.

Lemma conv_channels p {T S} (P : T -> Prop) (F G : T -> outcome S) f g :
  (forall a, P a -> F a = Ret (f a)) -> (forall a, P a -> G a = Ret (g a)) ->
  converts P (map_channels_if_alpha p F G) (map f) g.
Proof.
  intros HF HG img Hwf HP Hc Hne. unfold samples in HP. rewrite Forall_forall in HP.
  destruct (map_if_alpha_recolored p img F G f g) as [out [E R]]; auto.
  { apply colors_channels. exact Hc. }
  exists out. split; [exact E|]. split; [|apply R]. apply recolored_repixeled; auto. apply colors_channels. exact Hc.
Qed.

Lemma conv_comp {A B C} (P : A -> Prop) (op1 : image A -> outcome (image B)) (op2 : image B -> outcome (image C)) f1 g1 f2 g2 :
  converts P op1 f1 g1 -> converts any op2 f2 g2 ->
  converts P (fun i => let! j := op1 i in op2 j) (fun cs => f2 (f1 cs)) (fun a => g2 (g1 a)).
Proof.
  intros H1 H2 img Hwf HP Hc Hne. destruct (H1 img Hwf HP Hc Hne) as [m [-> [R1 I1]]]. rewrite bind_Ret.
  destruct (H2 m) as [out [E [R2 I2]]]; try rewrite I1; auto using samples_any; [apply R1|].
  exists out. split; [exact E|]. split; [|congruence].
  destruct R2 as [Wo [_ P2]]. split; [exact Wo|]. split.
  { rewrite I2, I1. unfold colors in Hc. destruct (info_of img) as [w h c a]; cbn [width height channels alpha] in *. f_equal. lia. }
  intros x y Hin. assert (Hinm : inside m x y) by (unfold inside; rewrite I1; exact Hin).
  destruct R1 as [_ [_ P1]]. specialize (P1 x y Hin). specialize (P2 x y Hinm). rewrite I1 in P2.
  destruct (alpha (info_of img)).
  - intros cs a Ep. apply P2, P1, Ep.
  - rewrite P2, P1. reflexivity.
Qed.
Lemma conv_ext {A B} (P : A -> Prop) (op op' : image A -> outcome (image B)) f g g' :
  (forall i, op i = op' i) -> (forall a, P a -> g a = g' a) -> converts P op f g -> converts P op' f g'.
Proof.
  intros He Hg H img Hwf HP Hc Hne. destruct (H img Hwf HP Hc Hne) as [out [E [R I]]]. exists out. rewrite <- He.
  split; [exact E|]. split; [|exact I]. destruct R as [Wo [Io R]]. split; [exact Wo|]. split; [exact Io|].
  intros x y Hin. specialize (R x y Hin). pose proof (pixels_samples P img x y HP) as FP. destruct (alpha (info_of img)).
  - intros cs a Ep. rewrite (R cs a Ep). do 2 f_equal. apply Hg. rewrite Ep in FP. apply Forall_app in FP as [_ FP]. apply (Forall_inv FP).
  - exact R.
Qed.

(** only the values on colour triples matter *)
Lemma conv_fext {A B} (P : A -> Prop) (op : image A -> outcome (image B)) f f' g :
  (forall a b c, P a -> P b -> P c -> f [a; b; c] = f' [a; b; c]) -> converts P op f g -> converts P op f' g.
Proof.
  intros Hf H img Hwf HP Hc Hne. destruct (H img Hwf HP Hc Hne) as [out [E [R I]]]. exists out.
  split; [exact E|]. split; [|exact I]. destruct R as [Wo [Io R]]. split; [exact Wo|]. split; [exact Io|].
  intros x y Hin. specialize (R x y Hin). pose proof (pixels_samples P img x y HP) as FP.
  pose proof (pixel_at_len img Hwf x y Hin) as Li. unfold colors in Hc.
  assert (K : forall cs, len cs = 3 -> Forall P cs -> f cs = f' cs).
  { intros cs Hl HF. destruct (triple' cs Hl) as [a [b [c ->]]]. rewrite Forall_forall in HF. apply Hf; apply HF; cbn; tauto. }
  destruct (alpha (info_of img)).
  - intros cs a Ep. rewrite (R cs a Ep). rewrite Ep, len_app in Li. rewrite Ep in FP. apply Forall_app in FP as [FP _].
    rewrite K; [reflexivity| |exact FP]. unfold len in *. cbn in Li. lia.
  - rewrite R. apply K; [lia|exact FP].
Qed.

Lemma mat_px p a b c d e f g h i x y z :
  unwrap (vector_mul_mut p num_f32 [a; b; c; d; e; f; g; h; i] [x; y; z] []) = Ret (mat3x3 a b c d e f g h i [x; y; z])
  /\ len (mat3x3 a b c d e f g h i [x; y; z]) = 3.
Proof. split; reflexivity. Qed.

(** the white points of the API *)
Definition white_of (w : white) : f32 * f32 * f32 := match w with D50 => white_d50 | D65 => white_d65 end.

Lemma leb_10 x : is_u8 x -> f32_leb (f32_of_Z x) (f32_of_Z 10) = (x <=? 10).
Proof.
  unfold is_u8. intros H.
  assert (T : forallb (fun x => Bool.eqb (f32_leb (f32_of_Z x) (f32_of_Z 10)) (x <=? 10)) (zrange 0 256) = true) by (vm_compute; reflexivity).
  rewrite forallb_forall in T. apply Bool.eqb_prop, T, in_zrange. lia.
Qed.
Lemma decode_ok lm x : is_u8 x -> linearize lm x = srgb_decode (powf lm) x.
Proof. intros H. unfold linearize, srgb_decode. cbv zeta. rewrite leb_10 by exact H. reflexivity. Qed.
Lemma encode_ok lm x : unlinearize lm x = srgb_encode (powf lm) x.
Proof.
  unfold unlinearize, srgb_encode. change GAMMA with (f32_dec 22 1). change (f32_of_Z 1) with f32_1.
  destruct (f32_leb x _); reflexivity.
Qed.

(** the f32 range of a colour is zero only for grays *)
Lemma range_neb d : 0 <= d <= 255 -> f32_neb (f32_div (f32_of_Z d) (f32_of_Z 255)) f32_0 = negb (d =? 0).
Proof.
  intros H.
  assert (T : forallb (fun d => Bool.eqb (f32_neb (f32_div (f32_of_Z d) (f32_of_Z 255)) f32_0) (negb (d =? 0))) (zrange 0 256) = true) by (vm_compute; reflexivity).
  rewrite forallb_forall in T. apply Bool.eqb_prop, (T d), in_zrange. lia.
Qed.
Lemma hsv_px_ok p r g b : is_u8 r -> is_u8 g -> is_u8 b -> rgb_to_hsv_f32_px p [r; g; b] = Ret (hsv_of_rgb [r; g; b]).
Proof.
  unfold is_u8. intros Hr Hg Hb. unfold rgb_to_hsv_f32_px.
  change (vget [r; g; b] 0) with (Ret r). change (vget [r; g; b] 1) with (Ret g). change (vget [r; g; b] 2) with (Ret b).
  rewrite !bind_Ret. cbv zeta. unfold hsv_of_rgb. cbv zeta.
  rewrite <- (Z.max_assoc r g b), <- (Z.min_assoc r g b).
  set (mx := Z.max r (Z.max g b)). set (mn := Z.min r (Z.min g b)).
  assert (0 <= mn <= mx /\ mx <= 255) by lia. clearbody mx mn.
  rewrite isub_ok by ity_lia. rewrite bind_Ret. rewrite range_neb by lia.
  replace (mx =? mn) with (mx - mn =? 0) by lia.
  destruct (mx - mn =? 0); destruct (mx =? 0); cbn [negb]; reflexivity.
Qed.
Lemma rgb_px_ok h s v : hsv_to_rgb_f32_px [h; s; v] = Ret (rgb_of_hsv [h; s; v]).
Proof.
  unfold hsv_to_rgb_f32_px, rgb_of_hsv.
  change (vget [h; s; v] 0) with (Ret h). change (vget [h; s; v] 1) with (Ret s). change (vget [h; s; v] 2) with (Ret v).
  rewrite !bind_Ret. cbv zeta. change (f32_of_Z 0) with f32_0. destruct (f32_eqb s f32_0); [reflexivity|]. rewrite ?bind_Ret.
  change (f32_of_Z 1) with f32_1. unfold to_byte.
  pose proof (float_to_int_range U8 (f32_floor (f32_mul h (f32_of_Z 6))) ltac:(cbn; lia)) as K.
  change (lo U8 <= f32_to_int U8 (f32_floor (f32_mul h (f32_of_Z 6))) <= hi U8) in K.
  set (k := f32_to_int U8 (f32_floor (f32_mul h (f32_of_Z 6)))) in *. clearbody k.
  f_equal.
  destruct (Z.eqb_spec k 0); [subst; reflexivity|]. destruct (Z.eqb_spec k 1); [subst; reflexivity|].
  destruct (Z.eqb_spec k 2); [subst; reflexivity|]. destruct (Z.eqb_spec k 3); [subst; reflexivity|].
  destruct (Z.eqb_spec k 4); [subst; reflexivity|].
  assert (5 <= k) by (cbn in K; lia). rewrite nth_overflow; [reflexivity|]. cbn. lia.
Qed.

Section Conversions.
  Context (p : profile) (lm : libm).
  Notation F := f32_of_Z.
  Notation pow := (powf lm).

  (** alpha samples going back to u8 are rounded *)
  Definition alpha_back (a : f32) : Z := f32_to_int U8 (f32_round a).

  Lemma conv_linearize : converts is_u8 (linearize_srgb_f32 p lm) (map (srgb_decode pow)) F.
  Proof.
    apply (conv_fext is_u8 _ (map (linearize lm))).
    { intros a b c Ha Hb Hc. cbn [map]. rewrite !decode_ok by assumption. reflexivity. }
    unfold linearize_srgb_f32. rewrite (table_256 _ _ (linearize lm)) by reflexivity.
    intros img Hwf HP Hc Hne. rewrite bind_Ret.
    refine (conv_channels p is_u8 (fun i => vget (map (linearize lm) (zrange 0 256)) i) (fun a => Ret (F a)) (linearize lm) F _ _ img Hwf HP Hc Hne); [|reflexivity].
    intros a Ha. apply table_get. exact Ha.
  Qed.
  Lemma conv_unlinearize : converts any (unlinearize_srgb_f32 p lm) (map (srgb_encode pow)) alpha_back.
  Proof. apply conv_channels; [|reflexivity]. intros a _. rewrite <- encode_ok. reflexivity. Qed.
  Lemma conv_to_xyz : converts any (srgb_lin_to_xyz_f32 p) lin_to_xyz (fun a => a).
  Proof. apply conv_pixels; [|reflexivity]. intros a b c _ _ _. apply mat_px. Qed.
  Lemma conv_from_xyz : converts any (xyz_to_srgb_lin_f32 p) xyz_to_lin (fun a => a).
  Proof. apply conv_pixels; [|reflexivity]. intros a b c _ _ _. apply mat_px. Qed.
  Lemma conv_lab w : converts any (fun i => xyz_to_lab_f32 p lm i w) (xyz_to_lab pow (white_of w)) (fun a => a).
  Proof. apply conv_pixels; [|reflexivity]. intros a b c _ _ _. destruct w; split; reflexivity. Qed.
  Lemma conv_xyz w : converts any (fun i => lab_to_xyz_f32 p lm i w) (lab_to_xyz pow (white_of w)) (fun a => a).
  Proof. apply conv_pixels; [|reflexivity]. intros a b c _ _ _. destruct w; split; reflexivity. Qed.

  Lemma conv_srgb_xyz : converts is_u8 (srgb_to_xyz_f32 p lm) (srgb_to_xyz pow) F.
  Proof. apply (conv_comp is_u8 (linearize_srgb_f32 p lm) (srgb_lin_to_xyz_f32 p) _ _ _ _ conv_linearize conv_to_xyz). Qed.
  Lemma conv_xyz_srgb : converts any (xyz_to_srgb_f32 p lm) (xyz_to_srgb pow) alpha_back.
  Proof. apply (conv_comp any (xyz_to_srgb_lin_f32 p) (unlinearize_srgb_f32 p lm) _ _ _ _ conv_from_xyz conv_unlinearize). Qed.
  Lemma conv_srgb_lab w : converts is_u8 (fun i => srgb_to_lab_f32 p lm i w) (srgb_to_lab pow (white_of w)) F.
  Proof. apply (conv_comp is_u8 (srgb_to_xyz_f32 p lm) (fun i => xyz_to_lab_f32 p lm i w) _ _ _ _ conv_srgb_xyz (conv_lab w)). Qed.
  Lemma conv_lab_srgb w : converts any (fun i => lab_to_srgb_f32 p lm i w) (lab_to_srgb pow (white_of w)) alpha_back.
  Proof. apply (conv_comp any (fun i => lab_to_xyz_f32 p lm i w) (xyz_to_srgb_f32 p lm) _ _ _ _ (conv_xyz w) conv_xyz_srgb). Qed.

  Lemma alpha_there_and_back a : is_u8 a -> alpha_back (F a) = a.
  Proof.
    intros Ha. unfold is_u8 in Ha. apply to_int_isZ; [|cbn; lia|cbn; lia]. apply nearby_isZ, of_Z_isZ. lia.
  Qed.

  Lemma hsv_f32 : converts is_u8 (rgb_to_hsv_f32 p) hsv_of_rgb (fun a => f32_div (F a) (F 255)).
  Proof.
    apply conv_pixels; [|reflexivity]. intros a b c Ha Hb Hc. split; [apply hsv_px_ok; assumption|reflexivity].
  Qed.
  Lemma hsv_f32_back : converts any (hsv_to_rgb_f32 p) rgb_of_hsv (fun a => f32_to_int U8 (f32_round (f32_mul a (F 255)))).
  Proof.
    apply conv_pixels; [|reflexivity]. intros a b c _ _ _. split; [apply rgb_px_ok|].
    unfold rgb_of_hsv. cbv zeta. destruct (f32_eqb b _); [reflexivity|].
    set (k := Z.to_nat _). clearbody k. destruct k as [|[|[|[|[|[|k]]]]]]; reflexivity.
  Qed.

  (** every conversion is total on images with three colour channels, keeps size and layout, replaces
      every colour by the value of the published formula (Spec/ConvS.v) and carries alpha through
      (alpha samples change between u8 and f32 representation only) *)
  Theorem C48_conversions w :
    converts is_u8 (linearize_srgb_f32 p lm) (map (srgb_decode pow)) F
    /\ converts any (unlinearize_srgb_f32 p lm) (map (srgb_encode pow)) alpha_back
    /\ converts any (srgb_lin_to_xyz_f32 p) lin_to_xyz (fun a => a)
    /\ converts any (xyz_to_srgb_lin_f32 p) xyz_to_lin (fun a => a)
    /\ converts any (fun i => xyz_to_lab_f32 p lm i w) (xyz_to_lab pow (white_of w)) (fun a => a)
    /\ converts any (fun i => lab_to_xyz_f32 p lm i w) (lab_to_xyz pow (white_of w)) (fun a => a)
    /\ converts is_u8 (srgb_to_xyz_f32 p lm) (srgb_to_xyz pow) F
    /\ converts any (xyz_to_srgb_f32 p lm) (xyz_to_srgb pow) alpha_back
    /\ converts is_u8 (fun i => srgb_to_lab_f32 p lm i w) (srgb_to_lab pow (white_of w)) F
    /\ converts any (fun i => lab_to_srgb_f32 p lm i w) (lab_to_srgb pow (white_of w)) alpha_back
    /\ converts is_u8 (rgb_to_hsv_f32 p) hsv_of_rgb (fun a => f32_div (F a) (F 255))
    /\ converts any (hsv_to_rgb_f32 p) rgb_of_hsv (fun a => f32_to_int U8 (f32_round (f32_mul a (F 255)))).
  Proof.
    split; [exact conv_linearize|]. split; [exact conv_unlinearize|]. split; [exact conv_to_xyz|]. split; [exact conv_from_xyz|].
    split; [exact (conv_lab w)|]. split; [exact (conv_xyz w)|]. split; [exact conv_srgb_xyz|]. split; [exact conv_xyz_srgb|].
    split; [exact (conv_srgb_lab w)|]. split; [exact (conv_lab_srgb w)|]. split; [exact hsv_f32|exact hsv_f32_back].
  Qed.

  (** u8 -> f32 colour space -> u8: size, layout and every alpha sample are unchanged, and the new colour
      of a pixel depends on its old colour only *)
  Theorem C48_alpha_round_trip w :
    converts is_u8 (fun i => let! j := srgb_to_lab_f32 p lm i w in lab_to_srgb_f32 p lm j w)
      (fun cs => lab_to_srgb pow (white_of w) (srgb_to_lab pow (white_of w) cs)) (fun a => a)
    /\ converts is_u8 (fun i => let! j := srgb_to_xyz_f32 p lm i in xyz_to_srgb_f32 p lm j)
      (fun cs => xyz_to_srgb pow (srgb_to_xyz pow cs)) (fun a => a)
    /\ converts is_u8 (fun i => let! j := rgb_to_hsv_f32 p i in hsv_to_rgb_f32 p j)
      (fun cs => rgb_of_hsv (hsv_of_rgb cs)) (fun a => a).
  Proof.
    split; [|split].
    - eapply conv_ext; [reflexivity| |apply (conv_comp is_u8 _ _ _ _ _ _ (conv_srgb_lab w) (conv_lab_srgb w))].
      exact alpha_there_and_back.
    - eapply conv_ext; [reflexivity| |apply (conv_comp is_u8 _ _ _ _ _ _ conv_srgb_xyz conv_xyz_srgb)].
      exact alpha_there_and_back.
    - eapply conv_ext; [reflexivity| |apply (conv_comp is_u8 _ _ _ _ _ _ hsv_f32 hsv_f32_back)].
      intros a Ha.
      assert (T : forallb (fun c => f32_to_int U8 (f32_round (f32_mul (f32_div (f32_of_Z c) (f32_of_Z 255)) (f32_of_Z 255))) =? c) (zrange 0 256) = true) by (vm_compute; reflexivity).
      rewrite forallb_forall in T. unfold is_u8 in Ha. apply Z.eqb_eq, T, in_zrange. lia.
  Qed.
End Conversions.

(** ** C63: tone operations in CIELAB *)
Definition on_first {T} (f : T -> T) (cs : list T) : list T := match cs with c :: r => f c :: r | [] => [] end.

Lemma conv_edit0 p {T} (f : T -> T) : converts any (edit_channel p (fun c => Ret (f c)) 0) (on_first f) (fun a => a).
Proof.
  intros img Hwf _ Hc Hne.
  assert (HC : 3 <= channels (info_of img)) by (unfold colors in Hc; destruct (alpha (info_of img)); lia).
  destruct (C09_edit_channel p f 0 img Hwf ltac:(lia)) as [out [E [Wo [I N]]]].
  exists out. split; [exact E|]. split; [|exact I]. split; [exact Wo|]. split.
  { rewrite I. unfold colors in Hc. destruct (info_of img) as [w h c a]; cbn [width height channels alpha] in *. f_equal. lia. }
  intros x y Hin.
  assert (Hino : inside out x y) by (unfold inside; rewrite I; exact Hin).
  pose proof (pixel_at_len img Hwf x y Hin) as Li. pose proof (pixel_at_len out Wo x y Hino) as Lo. rewrite I in Lo.
  assert (Q : pixel_at out x y = on_first f (pixel_at img x y)).
  { apply nth_error_ext. intros j. destruct (Nat.lt_ge_cases j (length (pixel_at img x y))) as [L|L].
    - specialize (N x y (Z.of_nat j) Hin). rewrite Nat2Z.id in N. rewrite N by (unfold len in Li; lia).
      destruct (pixel_at img x y) as [|c r]; [cbn in L; lia|]. cbn [on_first]. destruct j; reflexivity.
    - rewrite (proj2 (nth_error_None (pixel_at out x y) j)) by (unfold len in *; lia).
      symmetry. apply nth_error_None. destruct (pixel_at img x y); cbn in *; lia. }
  destruct (alpha (info_of img)) eqn:Ha; [|exact Q].
  intros cs a Ep. rewrite Q, Ep. rewrite Ep, len_app in Li. destruct cs as [|c r]; [|reflexivity].
  exfalso. unfold len in Li. cbn in Li. lia.
Qed.

(** a bias of brightness_lab is accepted if its magnitude is at most 255 *)
Theorem C63_brightness_lab p lm bias : -255 <= bias <= 255 ->
  converts is_u8 (fun i => brightness_lab p lm i bias)
    (edit_lightness (powf lm) white_d50 (fun l => (l + #bias / #255 * #100)%F)) (fun a => a).
Proof.
  intros Hb. destruct (check_bias p bias Hb) as [Ea Ec].
  apply (conv_fext is_u8 _ (fun cs => lab_to_srgb (powf lm) white_d50 (on_first (fun num => f32_add num (f32_mul (f32_div (f32_of_Z bias) (f32_of_Z 255)) (f32_of_Z 100))) (srgb_to_lab (powf lm) white_d50 cs)))); [intros a b c _ _ _; reflexivity|].
  eapply conv_ext; [| |apply (conv_comp is_u8 _ _ _ _ _ _ (conv_comp is_u8 _ _ _ _ _ _ (conv_srgb_lab p lm D50)
      (conv_edit0 p (fun num => f32_add num (f32_mul (f32_div (f32_of_Z bias) (f32_of_Z 255)) (f32_of_Z 100))))) (conv_lab_srgb p lm D50))].
  - intros i. unfold brightness_lab. rewrite Ea, bind_Ret, Ec, bind_Ret.
    destruct (srgb_to_lab_f32 p lm i D50); reflexivity.
  - exact alpha_there_and_back.
Qed.
Theorem C63_brightness_lab_rejects p lm (img : image Z) bias : -32768 < bias <= 32767 -> Z.abs bias > 255 ->
  brightness_lab p lm img bias = Fail InvalidArgError.
Proof.
  intros Hb H. unfold brightness_lab, iabs. rewrite arith_ok by ity_lia. cbn [bind].
  unfold check_in_range. cbn [n_ltb num_int].
  replace ((Z.abs bias <? -255) || (255 <? Z.abs bias)) with true by lia. reflexivity.
Qed.
Theorem C63_contrast_lab p lm gain : f32_ltb gain f32_0 = false -> f32_ltb f32_1 gain = false ->
  converts is_u8 (fun i => contrast_lab p lm i gain)
    (edit_lightness (powf lm) white_d50 (fun l => (l * gain)%F)) (fun a => a).
Proof.
  intros H0 H1.
  apply (conv_fext is_u8 _ (fun cs => lab_to_srgb (powf lm) white_d50 (on_first (fun num => f32_mul num gain) (srgb_to_lab (powf lm) white_d50 cs)))); [intros a b c _ _ _; reflexivity|].
  eapply conv_ext; [| |apply (conv_comp is_u8 _ _ _ _ _ _ (conv_comp is_u8 _ _ _ _ _ _ (conv_srgb_lab p lm D50)
      (conv_edit0 p (fun num => f32_mul num gain))) (conv_lab_srgb p lm D50))].
  - intros i. unfold contrast_lab, check_non_neg, check_in_range. cbn [n_ltb num_f32]. change (n_zero num_f32) with f32_0.
    rewrite H0. change (f32_gtb gain f32_1) with (f32_ltb f32_1 gain). rewrite H1. cbn [orb]. rewrite !bind_Ret.
    destruct (srgb_to_lab_f32 p lm i D50); reflexivity.
  - exact alpha_there_and_back.
Qed.
Theorem C63_contrast_lab_rejects p lm (img : image Z) gain : f32_ltb gain f32_0 = true \/ f32_ltb f32_1 gain = true ->
  contrast_lab p lm img gain = Fail InvalidArgError.
Proof.
  intros H. unfold contrast_lab, check_non_neg, check_in_range. cbn [n_ltb num_f32]. change (n_zero num_f32) with f32_0.
  change (f32_gtb gain f32_1) with (f32_ltb f32_1 gain).
  destruct (f32_ltb gain f32_0) eqn:E; [reflexivity|]. rewrite bind_Ret.
  destruct H as [H|H]; [discriminate|]. rewrite H. reflexivity.
Qed.

(** the in-place loop applies the closure to the original samples only *)
Lemma edit_loop_orig {T} (f : T -> outcome T) (f' : T -> T) (d0 : list T) l : NoDup l ->
  (forall j, In j l -> 0 <= j < len d0) ->
  (forall j s, In j l -> nth_error d0 (Z.to_nat j) = Some s -> f s = Ret (f' s)) ->
  forall d, length d = length d0 -> (forall j, In j l -> nth_error d (Z.to_nat j) = nth_error d0 (Z.to_nat j)) ->
  mfold (fun d i => let! c := vget d i in let! c' := f c in vset d i c') l d
  = mfold (fun d i => let! c := vget d i in let! c' := Ret (f' c) in vset d i c') l d.
Proof.
  induction l as [|i l IH]; intros Hnd Hr Hf d Hl Hd; [reflexivity|]. inversion Hnd as [|? ? Hni Hnd']; subst.
  cbn [mfold]. pose proof (Hr i (or_introl eq_refl)) as Hi. pose proof (Hd i (or_introl eq_refl)) as Ei.
  destruct (nth_error d0 (Z.to_nat i)) as [s|] eqn:Es; [|apply nth_error_None in Es; unfold len in Hi; lia].
  assert (Hv : vget d i = Ret s).
  { rewrite (vget_ok d i s) by (unfold len in *; lia). f_equal. apply nth_error_nth. exact Ei. }
  rewrite Hv, !bind_Ret. rewrite (Hf i s (or_introl eq_refl) Es), !bind_Ret.
  rewrite vset_ok by (unfold len in *; lia). rewrite !bind_Ret.
  apply IH; auto.
  - intros j Hj. apply Hr. right. exact Hj.
  - intros j t Hj. apply Hf. right. exact Hj.
  - rewrite upd_length. exact Hl.
  - intros j Hj. rewrite <- (Hd j (or_intror Hj)).
    assert (j <> i) by (intros ->; contradiction). pose proof (Hr j (or_intror Hj)) as Hj2. unfold len in *.
    rewrite !(nth_error_nth' _ s) by (rewrite ?upd_length; lia). f_equal. rewrite nth_upd by lia.
    replace (Z.to_nat j =? Z.to_nat i)%nat with false by (symmetry; apply Nat.eqb_neq; lia). reflexivity.
Qed.

Lemma edit0_orig p {T} (f : T -> outcome T) (f' : T -> T) (img : image T) : wf img -> 0 < channels (info_of img) ->
  (forall x y s, inside img x y -> sample img x y 0 = Some s -> f s = Ret (f' s)) ->
  edit_channel p f 0 img = edit_channel p (fun c => Ret (f' c)) 0 img.
Proof.
  intros Hwf HC Hf. unfold edit_channel. rewrite full_size_ok by exact Hwf. rewrite !bind_Ret.
  unfold zrange_step. replace (channels (info_of img) <=? 0) with false by lia. rewrite !bind_Ret.
  rewrite <- (wf_data _ Hwf).
  assert (Hr : forall j, In j (zrange_step_pos 0 (len (data img)) (channels (info_of img))) -> 0 <= j < len (data img) /\ j mod channels (info_of img) = 0).
  { intros j Hj. apply in_zrange_step in Hj; try lia. rewrite Z.sub_0_r in Hj. exact Hj. }
  rewrite (edit_loop_orig f f' (data img)); auto.
  - apply NoDup_zrange_step. lia.
  - intros j Hj. apply Hr. exact Hj.
  - intros j s Hj Hs. destruct (Hr j Hj) as [Hj1 Hj2].
    destruct (data_sample img j Hwf Hj1) as [_ [_ [Hin E]]]. rewrite Hj2, Z.add_0_r in E.
    apply (Hf _ _ s Hin). rewrite sample_data by (auto; lia). rewrite Z.add_0_r, <- E. exact Hs.
Qed.

Lemma flat_map_ext' {A B} (f g : A -> list B) l : (forall a, In a l -> f a = g a) -> flat_map f l = flat_map g l.
Proof. intros H. rewrite !flat_map_concat_map. f_equal. apply map_ext_in. exact H. Qed.

(** histogram equalization: arguments in range (NaN is not detected), image of at most 2^30-1 pixels:
    always Ok (the bin of every pixel is found), info and alpha kept, and the lightness of every colour
    is replaced by its equalized lightness *)
Theorem C63_histogram_equalization p lm (img : image Z) al w precision :
  wf img -> samples is_u8 img -> colors (info_of img) = 3 ->
  0 < width (info_of img) * height (info_of img) -> 2 * (width (info_of img) * height (info_of img)) <= 2147483647 ->
  f32_ltb precision f32_0 = false -> f32_ltb al f32_0 = false -> f32_ltb f32_1 al = false ->
  let bins := lightness_bins (powf lm) (white_of w) precision img in
  exists out, histogram_equalization p lm img al w precision = Ret out /\ info_of out = info_of img
    /\ repixeled (edit_lightness (powf lm) (white_of w) (equalized bins al precision)) (fun a => a) 3 img out.
Proof.
  intros Hwf Hu Hc Hne Hsz Hp Ha0 Ha1 bins. unfold histogram_equalization, check_non_neg, check_in_range.
  cbn [n_ltb num_f32]. change (n_zero num_f32) with f32_0. rewrite Hp, Ha0. change (f32_gtb al f32_1) with (f32_ltb f32_1 al).
  rewrite Ha1. cbn [orb]. rewrite !bind_Ret.
  destruct (conv_srgb_lab p lm w img Hwf Hu Hc Hne) as [lab [El [Rl Il]]]. rewrite El, bind_Ret.
  assert (Wl : wf lab) by apply Rl.
  assert (HC : 3 <= channels (info_of lab)) by (rewrite Il; unfold colors in Hc; destruct (alpha (info_of img)); lia).
  destruct (C33_percentiles p lab [] precision Wl ltac:(lia)) as [pc [Ep G]]; [rewrite Il; exact Hsz|].
  rewrite Ep, bind_Ret.
  assert (Eb : pixel_bins precision lab = bins).
  { unfold bins, pixel_bins, lightness_bins. rewrite Il. apply flat_map_ext'. intros y Hy. apply map_ext_in. intros x Hx.
    apply in_zrange in Hy. apply in_zrange in Hx. assert (Hin : inside img x y) by (split; assumption).
    pose proof (pixel_at_len img Hwf x y Hin) as Li. destruct Rl as [_ [_ P1]]. specialize (P1 x y Hin). unfold colors in Hc.
    destruct (alpha (info_of img)).
    - destruct (pixel_at img x y) as [|r [|g [|b [|a [|? ?]]]]]; unfold len in Li; cbn in Li; try lia.
      rewrite (P1 [r; g; b] a eq_refl). cbn [firstn]. destruct w; reflexivity.
    - rewrite P1. destruct (pixel_at img x y) as [|r [|g [|b [|? ?]]]]; unfold len in Li; cbn in Li; try lia. reflexivity. }
  assert (Elen : len bins = width (info_of img) * height (info_of img)).
  { rewrite <- Eb. rewrite len_bins; rewrite Il; [reflexivity| |]; [pose proof (wf_w _ Hwf)|pose proof (wf_h _ Hwf)]; lia. }
  set (f'' := equalized bins al precision).
  rewrite (edit0_orig p _ f'' lab Wl ltac:(lia)).
  - destruct (conv_comp any _ _ _ _ _ _ (conv_edit0 p f'') (conv_lab_srgb p lm w) lab Wl (samples_any lab)) as [out [Eo [Ro Io]]].
    { rewrite Il. exact Hc. } { rewrite Il. exact Hne. }
    exists out. split; [exact Eo|]. split; [congruence|].
    destruct Rl as [_ [_ P1]]. destruct Ro as [Wo [_ P2]]. split; [exact Wo|]. split.
    { rewrite Io, Il. unfold colors in Hc. destruct (info_of img) as [ww h c a]; cbn [width height channels alpha] in *. f_equal. lia. }
    intros x y Hin. assert (Hinm : inside lab x y) by (unfold inside; rewrite Il; exact Hin).
    specialize (P1 x y Hin). specialize (P2 x y Hinm). rewrite Il in P2.
    pose proof (pixels_samples is_u8 img x y Hu) as FP. pose proof (pixel_at_len img Hwf x y Hin) as Li. unfold colors in Hc.
    assert (K : forall cs, len cs = 3 -> lab_to_srgb (powf lm) (white_of w) (on_first f'' (srgb_to_lab (powf lm) (white_of w) cs))
               = edit_lightness (powf lm) (white_of w) f'' cs).
    { intros cs Hl. destruct (triple' cs Hl) as [r [g [b ->]]]. destruct w; reflexivity. }
    destruct (alpha (info_of img)).
    + intros cs a E. specialize (P1 cs a E). specialize (P2 _ _ P1). rewrite P2. rewrite E in FP, Li. apply Forall_app in FP as [_ FP].
      rewrite alpha_there_and_back by apply (Forall_inv FP). rewrite K; [reflexivity|]. rewrite len_app in Li. unfold len in *. cbn in Li. lia.
    + rewrite P2, P1. apply K. lia.
  - intros x y s Hin Hs. unfold f'', equalized. cbv zeta. rewrite G, Eb, Il, <- Elen.
    change (f32_to_int I32 (f32_round (f32_mul s precision))) with (bin precision s).
    destruct (in_dec _ _ _) as [_|Hn]; [reflexivity|].
    exfalso. apply Hn. rewrite <- Eb. unfold pixel_bins. destruct Hin as [Hx Hy].
    apply in_flat_map. exists y. split; [apply in_zrange; exact Hy|]. apply in_map_iff. exists x.
    split; [|apply in_zrange; exact Hx]. unfold bin. do 3 f_equal. apply nth_error_nth. exact Hs.
Qed.
Theorem C63_histogram_equalization_rejects p lm (img : image Z) al w precision :
  f32_ltb precision f32_0 = true \/ f32_ltb al f32_0 = true \/ f32_ltb f32_1 al = true ->
  histogram_equalization p lm img al w precision = Fail InvalidArgError.
Proof.
  intros H. unfold histogram_equalization, check_non_neg, check_in_range. cbn [n_ltb num_f32]. change (n_zero num_f32) with f32_0.
  change (f32_gtb al f32_1) with (f32_ltb f32_1 al).
  destruct (f32_ltb precision f32_0); [reflexivity|]. rewrite bind_Ret. destruct H as [H|[H|H]]; [discriminate| |]; rewrite H; rewrite ?orb_true_r; reflexivity.
Qed.
(** a power function for the examples *)
Definition ex_lm : libm := Libm (fun x _ => x) (fun x => x) (fun x => x).
Example C63_example : colors (info_of ex_rgba) = 3
  /\ match histogram_equalization Debug ex_lm ex_rgba f32_1 D50 (f32_of_Z 10), brightness_lab Debug ex_lm ex_rgba 5, contrast_lab Debug ex_lm ex_rgba f32_1 with
     | Ret a, Ret b, Ret c => info_of a = info_of ex_rgba /\ nth 7 (data a) 0 = 8 /\ nth 7 (data b) 0 = 8 /\ nth 7 (data c) 0 = 8
     | _, _, _ => False end.
Proof. split; [reflexivity|]. vm_compute. auto. Qed.
