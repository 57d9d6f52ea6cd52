(** * C97: the bilateral filter treats equal surroundings alike *)
From Verif.Proofs Require Import BaseL ImageL ImageOps ToneL TransformL BilateralL DyadL.
From Verif.Model Require Import Util Tone Transform.
From Verif.Spec Require Import ImageS ColorS ConvS FilterS BilateralS.
From Verif.Props Require Import ImageP TransformP ToneP ConvP GeomToneP BilateralP.
Open Scope Z_scope.

Lemma rgb_pixelwise_srgb_lab p lm : pixelwise rgb is_u8 (fun i => srgb_to_lab_f32 p lm i D65).
Proof. eapply pixelwise_converts. apply (conv_srgb_lab p lm D65). Qed.
Lemma rgb_pixelwise_lab_srgb p lm : pixelwise rgb any (fun i => lab_to_srgb_f32 p lm i D65).
Proof. eapply pixelwise_converts. apply (conv_lab_srgb p lm D65). Qed.

(** the pixel (x, y) of one image and (x', y') of another, both at least half a window away from the borders, with the same pixels around *)
Definition same_surroundings (img img' : image Z) (x y x' y' k : Z) : Prop :=
  k <= x < width (info_of img) - k /\ k <= y < height (info_of img) - k /\ k <= x' < width (info_of img') - k /\ k <= y' < height (info_of img') - k
  /\ forall dx dy, - k <= dx <= k -> - k <= dy <= k -> pixel_at img (x + dx) (y + dy) = pixel_at img' (x' + dx) (y' + dy).

Theorem C97_same_surroundings p lm b b' n n' (img img' : image Z) range spatial x y x' y' :
  bilateral_input b img -> bilateral_input b' img' -> alpha (info_of img) = alpha (info_of img') ->
  f32_ltb range f32_0 = false -> f32_ltb spatial f32_0 = false -> Z.odd (window spatial) = true -> window spatial <= 65535 ->
  same_surroundings img img' x y x' y' (window spatial / 2) ->
  exists out out', bilateral_filter p lm b n img range spatial = Ret out /\ bilateral_filter p lm b' n' img' range spatial = Ret out'
    /\ pixel_at out x y = pixel_at out' x' y'.
Proof.
  intros Hin Hin' Ha Hr Hs Ho Hw (Bx & By & Bx' & By' & Heq).
  assert (Hw0 : 0 <= window spatial) by apply (float_to_int_range U32 (f32_add (f32_mul spatial (F32 4)) (F32 1)) ltac:(cbn; lia)).
  assert (Hk : 0 <= window spatial / 2) by (apply Z.div_pos; lia). set (k := window spatial / 2) in *.
  destruct (C59_bilateral p lm b n img range spatial Hin Hr Hs Ho Hw) as (lab & mid & o & El & Il & Im & Wm & V & Eo & Ef & Io).
  destruct (C59_bilateral p lm b' n' img' range spatial Hin' Hr Hs Ho Hw) as (lab' & mid' & o' & El' & Il' & Im' & Wm' & V' & Eo' & Ef' & Io').
  exists o, o'. split; [exact Ef|]. split; [exact Ef'|].
  destruct Hin as (Hwf & Hu & Hc & Hne & _ & _). destruct Hin' as (Hwf' & Hu' & Hc' & Hne' & _ & _).
  assert (HC : channels (info_of img) = channels (info_of img')) by (unfold colors in *; rewrite <- Ha in Hc'; lia).
  destruct (rgb_pixelwise_srgb_lab p lm) as (F & K & PW).
  destruct (PW img) as (l1 & E1 & _ & _ & P1); [repeat split; try apply Hwf; assumption|]. rewrite El in E1. injection E1 as <-.
  destruct (PW img') as (l2 & E2 & _ & _ & P2); [repeat split; try apply Hwf'; assumption|]. rewrite El' in E2. injection E2 as <-. rewrite <- Ha in P2.
  assert (Hxy : inside img x y) by (unfold inside; lia). assert (Hxy' : inside img' x' y') by (unfold inside; lia).
  assert (Hxm : inside mid x y) by (unfold inside; rewrite Im; exact Hxy). assert (Hxm' : inside mid' x' y') by (unfold inside; rewrite Im'; exact Hxy').
  assert (EqL : forall dx dy, - k <= dx <= k -> - k <= dy <= k -> pixel_at lab (x + dx) (y + dy) = pixel_at lab' (x' + dx) (y' + dy)).
  { intros dx dy Hx Hy. rewrite P1, P2, Heq by (assumption || (unfold inside; lia)). reflexivity. }
  assert (EqC : pixel_at lab x y = pixel_at lab' x' y').
  { specialize (EqL 0 0 ltac:(lia) ltac:(lia)). rewrite !Z.add_0_r in EqL. exact EqL. }
  assert (EqM : pixel_at mid x y = pixel_at mid' x' y').
  { pose proof (pixel_at_len mid Wm x y Hxm) as L. pose proof (pixel_at_len mid' Wm' x' y' Hxm') as L'. rewrite Im in L. rewrite Im', <- HC in L'.
    apply (list_ext _ _ f32_0); [unfold len in *; lia|]. intros i Hlt.
    specialize (V x y (Z.of_nat i) Hxy ltac:(unfold len in *; lia)). specialize (V' x' y' (Z.of_nat i) Hxy' ltac:(rewrite <- HC; unfold len in *; lia)).
    unfold value in V, V'. rewrite Nat2Z.id in V, V'. rewrite V, V'. clear V V'.
    assert (Hval : value lab x y (Z.of_nat i) = value lab' x' y' (Z.of_nat i)) by (unfold value; rewrite EqC; reflexivity).
    unfold bilateral_mean. cbv zeta. rewrite Hval.
    match goal with |- context [map ?f (offsets _)] => match goal with |- _ = f32_div (weighted_sum (map ?g _)) _ => assert (Em : map f (offsets (window spatial)) = map g (offsets (window spatial))) end end.
    { apply map_ext_in. intros [dx dy] Hd. cbv beta iota.
      assert (Q : neighbour lab x y (Z.of_nat i) dx dy = neighbour lab' x' y' (Z.of_nat i) dx dy).
      { unfold offsets in Hd. apply in_flat_map in Hd as [dy' [Hdy Hd]]. apply in_map_iff in Hd as [dx' [Ed Hdx]].
        injection Ed as -> ->. apply in_zrange in Hdy, Hdx. fold k in Hdy, Hdx. unfold neighbour, value. rewrite Il, Il'.
        assert (Pd : forall w c d, 0 <= c + d < w -> padded w c d = c + d) by (intros w c d H; unfold padded; replace (0 <=? c + d) with true by lia; replace (c + d <? w) with true by lia; reflexivity).
        rewrite !Pd by lia. rewrite EqL by lia. reflexivity. }
      rewrite Q. reflexivity. }
    rewrite Em. reflexivity. }
  destruct (rgb_pixelwise_lab_srgb p lm) as (F2 & K2 & PW2).
  destruct (PW2 mid) as (o1 & E1 & _ & _ & Q1). { split; [exact Wm|]. split; [apply samples_any|]. rewrite Im. split; [exact Hc|exact Hne]. }
  rewrite Eo in E1. injection E1 as <-.
  destruct (PW2 mid') as (o2 & E2 & _ & _ & Q2). { split; [exact Wm'|]. split; [apply samples_any|]. rewrite Im'. split; [exact Hc'|exact Hne']. }
  rewrite Eo' in E2. injection E2 as <-.
  rewrite Q1, Q2, EqM, Im, Im', Ha by assumption. reflexivity.
Qed.

(** filtering a part: away from its edges the same as the part of the filtered image *)
Theorem C97_crop p lm b b' n n' (img : image Z) range spatial x0 y0 w h :
  bilateral_input b img -> scheduled b' (Info w h (channels (info_of img)) (alpha (info_of img))) ->
  f32_ltb range f32_0 = false -> f32_ltb spatial f32_0 = false -> Z.odd (window spatial) = true -> window spatial <= 65535 ->
  0 <= x0 -> 0 <= y0 -> 0 < w -> 0 < h -> x0 + w < width (info_of img) -> y0 + h < height (info_of img) ->
  exists out part part', bilateral_filter p lm b n img range spatial = Ret out /\ crop_seq p num_u8 img x0 y0 w h = Ret part
    /\ bilateral_filter p lm b' n' part range spatial = Ret part'
    /\ forall i j, window spatial / 2 <= i < w - window spatial / 2 -> window spatial / 2 <= j < h - window spatial / 2 ->
       pixel_at part' i j = pixel_at out (x0 + i) (y0 + j).
Proof.
  intros Hin Hsch Hr Hs Ho Hw Hx Hy Hw0 Hh0 Hxw Hyh. pose proof Hin as (Hwf & Hu & Hc & Hne & Hsm & _).
  destruct (crop_seq_ok p num_u8 img x0 y0 w h Hwf) as (part & Ep & Wp & Ip & Pp); try lia.
  assert (Hp : bilateral_input b' part).
  { split; [exact Wp|]. split.
    { apply (samples_pixels is_u8 part Wp). intros i j Hij. rewrite Pp by exact Hij. apply pixels_samples. exact Hu. }
    rewrite Ip. unfold colors in *. cbn [width height channels alpha]. split; [exact Hc|]. split; [nia|]. split; [|exact Hsch].
    unfold small in *. cbn [width height]. lia. }
  destruct (C59_bilateral p lm b n img range spatial Hin Hr Hs Ho Hw) as (_ & _ & out & _ & _ & _ & _ & _ & _ & E & _).
  destruct (C59_bilateral p lm b' n' part range spatial Hp Hr Hs Ho Hw) as (_ & _ & part' & _ & _ & _ & _ & _ & _ & E' & _).
  exists out, part, part'. split; [exact E|]. split; [exact Ep|]. split; [exact E'|]. intros i j Hi Hj.
  assert (Hk : 0 <= window spatial / 2).
  { apply Z.div_pos; [|lia]. apply (float_to_int_range U32 (f32_add (f32_mul spatial (F32 4)) (F32 1)) ltac:(cbn; lia)). }
  assert (SS : same_surroundings part img i j (x0 + i) (y0 + j) (window spatial / 2)).
  { unfold same_surroundings. rewrite Ip. cbn [width height]. repeat split; try lia. intros dx dy Hdx Hdy. rewrite Pp by (unfold inside; rewrite Ip; cbn [width height]; lia). f_equal; lia. }
  assert (HA : alpha (info_of part) = alpha (info_of img)) by (rewrite Ip; reflexivity).
  destruct (C97_same_surroundings p lm b' b n' n part img range spatial i j (x0 + i) (y0 + j) Hp Hin HA Hr Hs Ho Hw SS) as (a & c & Ea & Ec & Eq).
  rewrite E' in Ea. injection Ea as <-. rewrite E in Ec. injection Ec as <-. exact Eq.
Qed.

Example C97_example : bilateral_input Seq (Image (Info 6 6 3 false) (map (fun k => (k * 37 + 11) mod 256) (zrange 0 108)))
  /\ f32_ltb quarter f32_0 = false /\ Z.odd (window (F32 1)) = true /\ window (F32 1) = 5.
Proof.
  split; [|vm_compute; auto]. unfold bilateral_input. repeat match goal with |- _ /\ _ => split end; [apply wfb_wf; reflexivity| |reflexivity|cbn; lia|split; cbn; lia|exact I].
  apply Forall_forall. intros s Hs. cbn [data] in Hs. apply in_map_iff in Hs as [k [<- _]]. unfold is_u8. pose proof (Z.mod_pos_bound (k * 37 + 11) 256 ltac:(lia)). lia.
Qed.
