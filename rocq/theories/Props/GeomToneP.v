(** * C85: operations that work pixel by pixel commute with crop, reflect and overlay *)
From Coq Require Import Lra.
From Verif.Proofs Require Import BaseL ImageL ImageOps ToneL FloatL TransformL.
From Verif.Model Require Import Util Tone Transform.
From Verif.Spec Require Import ImageS FloatS ColorS HsvS ConvS PowS LabS LabInvS HistS HistEqS.
From Verif.Props Require Import ImageP TransformP MatP HsvP ToneP SatP ContrastP GrayP ConvP LabP LabInvP HistEqP.
Open Scope Z_scope.

(** non-empty images whose samples satisfy P and whose layout (channels, alpha) satisfies D *)
Definition domain {T} (D : Z -> bool -> Prop) (P : T -> Prop) (img : image T) : Prop :=
  wf img /\ samples P img /\ D (channels (info_of img)) (alpha (info_of img)) /\ 0 < width (info_of img) * height (info_of img).

(** [op] succeeds on the whole domain, and doing it before or after crop, reflect or overlay makes no difference *)
Definition commutes_with_geometry (p : profile) {T S} (N : number T) (M : number S) (D : Z -> bool -> Prop) (P : T -> Prop)
    (op : image T -> outcome (image S)) : Prop :=
  forall img : image T, domain D P img ->
  (exists out, op img = Ret out)
  /\ (forall x y w h, 0 <= x -> 0 <= y -> 0 < w -> 0 < h -> x + w < width (info_of img) -> y + h < height (info_of img) ->
      (let! o := crop_seq p N img x y w h in op o) = (let! m := op img in crop_seq p M m x y w h))
  /\ (forall axis, (let! o := reflect_image p N img axis in op o) = (let! m := op img in reflect_image p M m axis))
  /\ (forall (front : image T) x y, domain D P front ->
      channels (info_of img) = channels (info_of front) -> alpha (info_of img) = alpha (info_of front) ->
      0 <= x -> 0 <= y -> x + width (info_of front) <= u32_max -> y + height (info_of front) <= u32_max ->
      (let! o := overlay p img front x y in op o) = (let! m := op img in let! m' := op front in overlay p m m' x y)).

(** ** the general proof *)
Definition pixelwise {T S} (D : Z -> bool -> Prop) (P : T -> Prop) (op : image T -> outcome (image S)) : Prop :=
  exists (F : bool -> list T -> list S) (K : Z -> bool -> Z), forall img, domain D P img ->
    exists out, op img = Ret out /\ wf out
      /\ info_of out = Info (width (info_of img)) (height (info_of img)) (K (channels (info_of img)) (alpha (info_of img))) (alpha (info_of img))
      /\ forall x y, inside img x y -> pixel_at out x y = F (alpha (info_of img)) (pixel_at img x y).

Lemma domain_from {T} D (P : T -> Prop) (img o : image T) : domain D P img -> wf o ->
  channels (info_of o) = channels (info_of img) -> alpha (info_of o) = alpha (info_of img) -> 0 < width (info_of o) * height (info_of o) ->
  (forall x y, inside o x y -> exists x' y', pixel_at o x y = pixel_at img x' y') -> domain D P o.
Proof.
  intros (W & S & HD & _) Wo Hc Ha Hn H. split; [exact Wo|]. split; [|split; [rewrite Hc, Ha; exact HD|exact Hn]].
  apply samples_pixels; [exact Wo|]. intros x y Hin. destruct (H x y Hin) as (x' & y' & ->). apply pixels_samples. exact S.
Qed.

Theorem pixelwise_commutes p {T S} (N : number T) (M : number S) D P (op : image T -> outcome (image S)) :
  pixelwise D P op -> commutes_with_geometry p N M D P op.
Proof.
  intros (F & K & HO) img HI. destruct (HO img HI) as (m & Em & Wm & Im & Pm). pose proof HI as (W & Hs & HD & Hne).
  split; [exists m; exact Em|]. pose proof W as [? ? _ _ _ _]. split; [|split].
  - intros x y w h Hx Hy Hw Hh Hr Hb. destruct (crop_seq_ok p N img x y w h W) as [o (E & Wo & Io & Po)]; try lia.
    destruct (crop_seq_ok p M m x y w h Wm) as [o2 (E2 & Wo2 & Io2 & Po2)]; try (rewrite Im; cbn [width height]; lia); try lia.
    rewrite E, Em, !bind_Ret, E2.
    assert (Do : domain D P o).
    { apply (domain_from D P img); auto; rewrite ?Io; cbn [width height channels alpha]; auto; [nia|]. intros i j Hin. exists (x + i), (y + j). apply Po. exact Hin. }
    destruct (HO o Do) as (o3 & E3 & Wo3 & Io3 & Po3). rewrite E3. f_equal. apply image_ext; auto.
    + rewrite Io3, Io2, Io, Im. reflexivity.
    + intros i j Hin. unfold inside in Hin. rewrite Io3, Io in Hin. cbn [width height] in Hin.
      assert (Ho : inside o i j) by (unfold inside; rewrite Io; cbn [width height]; exact Hin).
      rewrite Po3, Po by exact Ho. rewrite Io. cbn [alpha]. rewrite Po2 by (unfold inside; rewrite Io2; cbn [width height]; exact Hin).
      symmetry. apply Pm. unfold inside. lia.
  - intros axis. destruct (C21_reflect p N img axis W) as [o (E & Wo & Io & Po)]. destruct (C21_reflect p M m axis Wm) as [o2 (E2 & Wo2 & Io2 & Po2)].
    rewrite E, Em, !bind_Ret, E2.
    assert (Do : domain D P o).
    { apply (domain_from D P img); auto; rewrite ?Io; auto. intros i j Hin. unfold inside in Hin. rewrite Io in Hin. rewrite Po by exact Hin.
      destruct axis; eexists _, _; reflexivity. }
    destruct (HO o Do) as (o3 & E3 & Wo3 & Io3 & Po3). rewrite E3. f_equal. apply image_ext; auto.
    + rewrite Io3, Io2, Io, Im. reflexivity.
    + intros i j Hin. unfold inside in Hin. rewrite Io3, Io in Hin. cbn [width height] in Hin.
      assert (Ho : inside o i j) by (unfold inside; rewrite Io; exact Hin).
      rewrite Po3 by exact Ho. rewrite Po by exact Hin. rewrite Io. rewrite Po2 by (unfold inside; rewrite Im; cbn [width height]; exact Hin).
      rewrite Im. cbn [width height]. destruct axis; symmetry; apply Pm; unfold inside; lia.
  - intros front x y HF Hc Ha Hx Hy Hr Hb. destruct (HO front HF) as (m' & Em' & Wm' & Im' & Pm'). pose proof HF as (Wf & Hsf & HDf & Hnf).
    rewrite Em, bind_Ret, Em', bind_Ret.
    destruct (C18_overlay p img front x y W Wf Hx Hy Hr Hb Hc) as [o (E & Wo & Io & Po)].
    destruct (C18_overlay p m m' x y Wm Wm' Hx Hy) as [o2 (E2 & Wo2 & Io2 & Po2)]; try (rewrite Im'; cbn [width height]; assumption).
    { rewrite Im, Im'. cbn [channels]. rewrite Hc, Ha. reflexivity. }
    rewrite E, bind_Ret, E2.
    assert (Do : domain D P o).
    { split; [exact Wo|]. rewrite Io. split; [|split; [exact HD|exact Hne]]. apply samples_pixels; [exact Wo|]. intros i j Hin. unfold inside in Hin. rewrite Io in Hin. rewrite Po by exact Hin.
      destruct (_ && _ && _ && _); apply pixels_samples; assumption. }
    destruct (HO o Do) as (o3 & E3 & Wo3 & Io3 & Po3). rewrite E3. f_equal. apply image_ext; auto.
    + rewrite Io3, Io2, Io, Im. reflexivity.
    + intros i j Hin. unfold inside in Hin. rewrite Io3, Io in Hin. cbn [width height] in Hin.
      assert (Ho : inside o i j) by (unfold inside; rewrite Io; exact Hin).
      rewrite Po3 by exact Ho. rewrite Po by exact Hin. rewrite Io. rewrite Po2 by (unfold inside; rewrite Im; cbn [width height]; exact Hin).
      rewrite Im'. cbn [width height]. destruct ((x <=? i) && (i <? x + width (info_of front)) && (y <=? j) && (j <? y + height (info_of front))) eqn:B.
      * rewrite !andb_true_iff, !Z.leb_le, !Z.ltb_lt in B. rewrite Ha. symmetry. apply Pm'. unfold inside. lia.
      * symmetry. apply Pm. exact Hin.
Qed.

(** from the specifications of the operations *)
Definition by_parts {T S} (f : list T -> list S) (g : T -> S) (a : bool) (px : list T) : list S :=
  if a then match rev px with al :: r => f (rev r) ++ [g al] | [] => [] end else f px.
Lemma by_parts_alpha {T S} (f : list T -> list S) (g : T -> S) (cs : list T) (a : T) : by_parts f g true (cs ++ [a]) = f cs ++ [g a].
Proof. unfold by_parts. rewrite rev_app_distr. cbn [rev app]. rewrite rev_involutive. reflexivity. Qed.

Lemma last_sample {T} (px : list T) : 0 < len px -> exists cs a, px = cs ++ [a].
Proof.
  intros H. destruct (exists_last (l := px)) as [cs [a E]]; [intros ->; unfold len in H; cbn in H; lia|]. exists cs, a. exact E.
Qed.

Lemma pixelwise_repixeled {T S} (D : Z -> bool -> Prop) (P : T -> Prop) (op : image T -> outcome (image S)) f g k :
  (forall img, domain D P img -> exists out, op img = Ret out /\ repixeled f g k img out) ->
  (forall c, D c true -> 0 < c) -> pixelwise D P op.
Proof.
  intros H HD. exists (by_parts f g), (fun (_ : Z) (a : bool) => k + if a then 1 else 0). intros img HI.
  destruct (H img HI) as (out & E & Wo & Io & R). exists out. split; [exact E|]. split; [exact Wo|]. split; [exact Io|].
  intros x y Hin. specialize (R x y Hin). destruct HI as (W & Hs & HDi & Hne). pose proof (pixel_at_len img W x y Hin) as Lp.
  destruct (alpha (info_of img)).
  - destruct (last_sample (pixel_at img x y)) as (cs & a & Ep); [rewrite Lp; apply HD; exact HDi|]. rewrite (R cs a Ep), Ep, by_parts_alpha. reflexivity.
  - exact R.
Qed.
Lemma pixelwise_converts {T S} (P : T -> Prop) (op : image T -> outcome (image S)) f g : converts P op f g ->
  pixelwise (fun (c : Z) (a : bool) => c - (if a then 1 else 0) = 3) P op.
Proof.
  intros H. apply (pixelwise_repixeled _ _ _ f g 3); [|intros c Hc; lia].
  intros img (W & Hs & HD & Hne). destruct (H img W Hs HD Hne) as (out & E & R & _). exists out. split; assumption.
Qed.
Lemma pixelwise_recolored {T S} (P : T -> Prop) (op : image T -> outcome (image S)) f g :
  (forall img, wf img -> samples P img -> has_channels (info_of img) -> exists out, op img = Ret out /\ recolored f g img out) ->
  pixelwise (fun (c : Z) (a : bool) => a = true -> 0 < c) P op.
Proof.
  intros H. exists (by_parts (map f) g), (fun c _ => c). intros img (W & Hs & HD & Hne).
  destruct (H img W Hs) as (out & E & Io & Wo & R).
  { unfold has_channels. destruct (alpha (info_of img)); [right; apply HD; reflexivity|left; reflexivity]. }
  exists out. split; [exact E|]. split; [exact Wo|]. split; [rewrite Io; destruct (info_of img); reflexivity|].
  intros x y Hin. pose proof (pixel_at_len img W x y Hin) as Lp.
  assert (Hino : inside out x y) by (unfold inside; rewrite Io; exact Hin). pose proof (pixel_at_len out Wo x y Hino) as Lo. rewrite Io in Lo.
  set (C := channels (info_of img)) in *.
  assert (G : forall i s, nth_error (pixel_at img x y) i = Some s -> nth_error (pixel_at out x y) i = Some (if is_alpha (info_of img) (Z.of_nat i) then g s else f s)).
  { intros i s Ei. specialize (R x y (Z.of_nat i) s Hin ltac:(lia)). unfold sample in R. rewrite Nat2Z.id in R. apply R. exact Ei. }
  apply nth_error_ext. intros i.
  destruct (nth_error (pixel_at img x y) i) as [s|] eqn:Ei.
  - rewrite (G i s Ei). unfold is_alpha. fold C. destruct (alpha (info_of img)) eqn:Ha; cbn [andb].
    + destruct (last_sample (pixel_at img x y)) as (cs & a & Ep); [rewrite Lp; apply HD; reflexivity|]. rewrite Ep in *. rewrite by_parts_alpha.
      rewrite len_app in Lp. unfold len in Lp. cbn [length] in Lp.
      destruct (Z.eqb_spec (Z.of_nat i) (C - 1)) as [Ee|Ne].
      * assert (i = length cs) by lia. subst i. rewrite nth_error_app2 in Ei |- * by (rewrite ?map_length; lia). rewrite ?map_length, Nat.sub_diag in *. cbn in *. congruence.
      * assert (i < length cs)%nat by (assert (i < length (cs ++ [a]))%nat by (apply nth_error_Some; congruence); rewrite app_length in *; cbn [length] in *; lia).
        rewrite nth_error_app1 in Ei |- * by (rewrite ?map_length; lia). symmetry. apply map_nth_error. exact Ei.
    + symmetry. apply map_nth_error. exact Ei.
  - apply nth_error_None in Ei. assert (L : length (by_parts (map f) g (alpha (info_of img)) (pixel_at img x y)) = length (pixel_at img x y)).
    { unfold by_parts. destruct (alpha (info_of img)) eqn:Ha; [|apply map_length].
      destruct (last_sample (pixel_at img x y)) as (cs & a & Ep); [rewrite Lp; apply HD; reflexivity|]. rewrite Ep, rev_app_distr. cbn [rev app]. rewrite rev_involutive, !app_length, map_length. reflexivity. }
    unfold len in *. rewrite (proj2 (nth_error_None _ _)) by lia. symmetry. apply nth_error_None. lia.
Qed.

(** ** the operations *)
Section Ops.
  Context (p : profile) (lm : libm).
  Definition rgb (c : Z) (a : bool) : Prop := c - (if a then 1 else 0) = 3.
  Definition layout (c : Z) (a : bool) : Prop := a = true -> 0 < c.

  Theorem C85_brightness b : -255 <= b <= 255 -> commutes_with_geometry p num_u8 num_u8 layout is_u8 (fun i => brightness p false i b).
  Proof.
    intros Hb. apply pixelwise_commutes. apply (pixelwise_recolored is_u8 _ (fun s => byte (s + b)) (fun a => a)).
    intros img W Hs HC. apply C39_brightness; assumption.
  Qed.
  Theorem C85_contrast g : accepted_gain g -> commutes_with_geometry p num_u8 num_u8 layout is_u8 (fun i => contrast p i g).
  Proof.
    intros Hg. apply pixelwise_commutes. apply (pixelwise_recolored is_u8 _ (contrast_of (B2R g)) (fun a => a)).
    intros img W Hs HC. apply C42_contrast; assumption.
  Qed.
  Theorem C85_gamma g mx : f32_ltb g f32_0 = false -> commutes_with_geometry p num_u8 num_u8 layout is_u8 (fun i => gamma p lm i g mx).
  Proof.
    intros Hg. destruct (C43_gamma p lm g mx Hg) as [h [_ H]]. apply pixelwise_commutes. apply (pixelwise_recolored is_u8 _ h (fun a => a)). exact H.
  Qed.
  Theorem C85_saturation d : -255 <= d <= 255 -> commutes_with_geometry p num_u8 num_u8 rgb is_u8 (fun i => saturation p false i d).
  Proof.
    intros Hd. apply pixelwise_commutes. apply (pixelwise_repixeled rgb is_u8 _ (saturated d) (fun a => a) 3); [|unfold rgb; intros; lia].
    intros img (W & Hs & HD & Hne). destruct (C41_saturation_scalar p img d W Hs HD Hne Hd) as (out & E & _ & R). exists out. split; assumption.
  Qed.
  Theorem C85_grayscale : commutes_with_geometry p num_u8 num_u8 (fun (c : Z) (a : bool) => 1 <= c - (if a then 1 else 0) <= 128) is_u8 (rgb_to_grayscale p false).
  Proof.
    apply pixelwise_commutes. apply (pixelwise_repixeled _ is_u8 _ (fun cs => [total cs / len cs]) (fun a => a) 1); [|intros; lia].
    intros img (W & Hs & HD & Hne). destruct (C46_grayscale p img W Hs HD Hne) as (out & E & R & _). exists out. split; assumption.
  Qed.
  Theorem C85_hsv : commutes_with_geometry p num_u8 num_u8 rgb is_u8 (rgb_to_hsv p) /\ commutes_with_geometry p num_u8 num_u8 rgb is_u8 (hsv_to_rgb p).
  Proof.
    split; apply pixelwise_commutes.
    - apply (pixelwise_repixeled rgb is_u8 _ hsv_of (fun a => a) 3); [|unfold rgb; intros; lia].
      intros img (W & Hs & HD & Hne). destruct (C44_rgb_to_hsv p img W Hs HD Hne) as (out & E & R & _). exists out. split; assumption.
    - apply (pixelwise_repixeled rgb is_u8 _ rgb_of (fun a => a) 3); [|unfold rgb; intros; lia].
      intros img (W & Hs & HD & Hne). destruct (C45_hsv_to_rgb p img W Hs HD Hne) as (out & E & R & _). exists out. split; assumption.
  Qed.
  (** the conversions between u8 and f32 colour spaces *)
  Theorem C85_conversions w :
    commutes_with_geometry p num_u8 num_f32 rgb is_u8 (linearize_srgb_f32 p lm)
    /\ commutes_with_geometry p num_f32 num_u8 rgb any (unlinearize_srgb_f32 p lm)
    /\ commutes_with_geometry p num_u8 num_f32 rgb is_u8 (srgb_to_xyz_f32 p lm)
    /\ commutes_with_geometry p num_f32 num_u8 rgb any (xyz_to_srgb_f32 p lm)
    /\ commutes_with_geometry p num_u8 num_f32 rgb is_u8 (fun i => srgb_to_lab_f32 p lm i w)
    /\ commutes_with_geometry p num_f32 num_u8 rgb any (fun i => lab_to_srgb_f32 p lm i w)
    /\ commutes_with_geometry p num_u8 num_f32 rgb is_u8 (rgb_to_hsv_f32 p)
    /\ commutes_with_geometry p num_f32 num_u8 rgb any (hsv_to_rgb_f32 p).
  Proof.
    destruct (C48_conversions p lm w) as (H1 & H2 & _ & _ & _ & _ & H3 & H4 & H5 & H6 & H7 & H8).
    split; [|split; [|split; [|split; [|split; [|split; [|split]]]]]]; apply pixelwise_commutes; eapply pixelwise_converts; eassumption.
  Qed.
  Theorem C85_lab_tone bias gain : -255 <= bias <= 255 -> f32_ltb gain f32_0 = false -> f32_ltb f32_1 gain = false ->
    commutes_with_geometry p num_u8 num_u8 rgb is_u8 (fun i => brightness_lab p lm i bias)
    /\ commutes_with_geometry p num_u8 num_u8 rgb is_u8 (fun i => contrast_lab p lm i gain).
  Proof.
    intros Hb H0 H1. split; apply pixelwise_commutes; eapply pixelwise_converts; [apply (C63_brightness_lab p lm bias Hb)|apply (C63_contrast_lab p lm gain H0 H1)].
  Qed.
End Ops.

(** ** where it fails *)
(** the SIMD path of brightness: an image of 32 gray pixels is brightened, its part of 10 pixels comes out black *)
Theorem C85_simd_refuted p : let img := Image (Info 16 2 1 false) (repeat 7 32) in
  domain layout is_u8 img
  /\ match (let! m := brightness p true img 5 in crop_seq p num_u8 m 0 0 10 1), (let! o := crop_seq p num_u8 img 0 0 10 1 in brightness p true o 5) with
     | Ret a, Ret b => data a = repeat 12 10 /\ data b = repeat 0 10 | _, _ => False end.
Proof.
  cbv zeta. split.
  - split; [apply wfb_wf; reflexivity|]. split; [apply Forall_forall; intros s Hs; apply repeat_spec in Hs; subst; unfold is_u8; lia|]. split; [unfold layout; cbn; discriminate|]. cbn. lia.
  - destruct p; vm_compute; auto.
Qed.

(** the premises are met, and both orders really give the same new image: a 4x3 RGBA image, brightened and cropped to 2x2 *)
Definition sample_rgba : image Z := Image (Info 4 3 4 true) (map (fun k => (k * 37 + 11) mod 256) (zrange 0 48)).
Theorem C85_example p : domain layout is_u8 sample_rgba /\ domain rgb is_u8 sample_rgba
  /\ (let! o := crop_seq p num_u8 sample_rgba 1 0 2 2 in brightness p false o 20) = (let! m := brightness p false sample_rgba 20 in crop_seq p num_u8 m 1 0 2 2)
  /\ (let! o := crop_seq p num_u8 sample_rgba 1 0 2 2 in brightness p false o 20) <> crop_seq p num_u8 sample_rgba 1 0 2 2.
Proof.
  assert (W : wf sample_rgba) by (apply wfb_wf; vm_compute; reflexivity).
  assert (S : samples is_u8 sample_rgba).
  { unfold samples, sample_rgba. cbn [data]. apply Forall_forall. intros s Hs. apply in_map_iff in Hs as [k [<- _]]. unfold is_u8. pose proof (Z.mod_pos_bound (k * 37 + 11) 256 ltac:(lia)). lia. }
  assert (A : domain layout is_u8 sample_rgba) by (split; [exact W|]; split; [exact S|]; split; [intros _; reflexivity|reflexivity]).
  split; [exact A|]. split; [split; [exact W|]; split; [exact S|]; split; [unfold rgb; cbn; lia|reflexivity]|]. split.
  - destruct (C85_brightness p 20 ltac:(lia) sample_rgba A) as (_ & H & _). apply H; cbn; lia.
  - destruct p; vm_compute; discriminate.
Qed.
