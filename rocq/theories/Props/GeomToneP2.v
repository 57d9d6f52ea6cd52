(** * C85, continued: thresholds, number conversions and residuals *)
From Verif.Proofs Require Import BaseL ImageL ImageOps ToneL TransformL.
From Verif.Model Require Import Util Tone Transform Filter Convert.
From Verif.Spec Require Import ImageS ColorS ConvS.
From Verif.Props Require Import ImageP TransformP ToneP ConvP FilterP2 GeomToneP.
Open Scope Z_scope.

Definition everything (c : Z) (a : bool) : Prop := True.

Lemma pixelwise_map p {T S} (f : T -> S) : pixelwise everything any (map_channels p (fun c => Ret (f c))).
Proof.
  exists (fun _ => map f), (fun c _ => c). intros img (W & _ & _ & _). rewrite map_channels_pure by exact W.
  eexists. split; [reflexivity|]. split; [apply map_data_wf; exact W|]. split; [destruct (info_of img); reflexivity|].
  intros x y _. apply pixel_at_map.
Qed.

Section Ops.
  Context (p : profile).

  Lemma pixelwise_threshold t mx m : pixelwise (fun (c : Z) (a : bool) => c = if a then 2 else 1) any (fun i => threshold p i t mx m).
  Proof.
    assert (H : pixelwise (fun (c : Z) (a : bool) => a = true -> 0 < c) any (map_channels_if_alpha p (fun c : f32 => Ret (thresh_fn t mx m c)) (fun a => Ret a))).
    { apply (pixelwise_recolored any _ (thresh_fn t mx m) (fun a => a)). intros img W _ HC. apply map_if_alpha_recolored; auto. }
    destruct H as (F & K & H). exists F, K. intros img (W & Hs & HD & Hn).
    destruct (H img) as (out & E & R).
    { split; [exact W|]. split; [exact Hs|]. split; [|exact Hn]. intros Ha. rewrite HD, Ha. lia. }
    exists out. split; [|exact R]. unfold threshold. rewrite check_grayscale_ok by exact HD. rewrite bind_Ret. exact E.
  Qed.
  Theorem C85_threshold t mx m :
    commutes_with_geometry p num_f32 num_f32 (fun (c : Z) (a : bool) => c = if a then 2 else 1) any (fun i => threshold p i t mx m).
  Proof. apply pixelwise_commutes, pixelwise_threshold. Qed.
  Theorem C85_numbers scale a b c d t :
    commutes_with_geometry p num_u8 num_f32 everything any (fun i => u8_to_f32_scale p i scale)
    /\ commutes_with_geometry p num_f32 num_u8 everything any (fun i => f32_to_u8_scale p i scale)
    /\ commutes_with_geometry p num_f32 num_f32 everything any (fun i => scale_channels p i a b c d)
    /\ commutes_with_geometry p num_u8 num_f32 everything any (from_u8_f32 p)
    /\ commutes_with_geometry p (num_int t) num_f64 everything any (from_uint_f64 p)
    /\ commutes_with_geometry p num_f32 num_f64 everything any (from_f32_f64 p)
    /\ commutes_with_geometry p num_f64 num_u8 everything any (from_f64_u8 p)
    /\ commutes_with_geometry p num_f32 num_u8 everything any (from_f32_u8 p).
  Proof.
    unfold u8_to_f32_scale, f32_to_u8_scale, scale_channels, from_u8_f32, from_uint_f64, from_f32_f64, from_f64_u8, from_f32_u8.
    split; [|split; [|split; [|split; [|split; [|split; [|split]]]]]]; apply pixelwise_commutes; apply pixelwise_map.
  Qed.

  (** differences of two f32 images of the same layout: before or after cropping, mirroring or covering both *)
  Lemma residual_pixels (u v : image f32) : wf u -> wf v -> info_of u = info_of v ->
    exists out, residual p num_f32 u v = Ret out /\ wf out /\ info_of out = info_of u
      /\ forall x y, inside u x y -> pixel_at out x y = map (fun q => f32_sub (fst q) (snd q)) (combine (pixel_at u x y) (pixel_at v x y)).
  Proof.
    intros Wu Wv I. destruct (C53_residual_f32 p u v Wu Wv I) as (out & E & Io & Wo & R). exists out. split; [exact E|]. split; [exact Wo|]. split; [exact Io|].
    intros x y Hin. assert (Hv : inside v x y) by (unfold inside in *; rewrite <- I; exact Hin). assert (Ho : inside out x y) by (unfold inside in *; rewrite Io; exact Hin).
    pose proof (pixel_at_len u Wu x y Hin) as Lu. pose proof (pixel_at_len v Wv x y Hv) as Lv. pose proof (pixel_at_len out Wo x y Ho) as Lo.
    rewrite <- I in Lv. rewrite Io in Lo. unfold len in *.
    assert (Lc : length (combine (pixel_at u x y) (pixel_at v x y)) = length (pixel_at u x y)) by (rewrite combine_length; lia).
    apply nth_error_ext. intros i.
    destruct (nth_error (pixel_at u x y) i) as [s|] eqn:Es.
    - assert (i < length (pixel_at u x y))%nat by (apply nth_error_Some; congruence).
      destruct (nth_error (pixel_at v x y) i) as [r|] eqn:Er; [|apply nth_error_None in Er; lia].
      specialize (R x y (Z.of_nat i) s r Hin ltac:(lia)). unfold sample in R. rewrite Nat2Z.id in R. rewrite (R Es Er). symmetry.
      apply (map_nth_error (fun q => f32_sub (fst q) (snd q)) i (combine (pixel_at u x y) (pixel_at v x y)) (d := (s, r))).
      clear - Es Er. revert Es Er. generalize (pixel_at v x y). generalize (pixel_at u x y). induction i as [|i IH]; intros [|a l] [|b l']; cbn; try discriminate.
      + intros [= ->] [= ->]. reflexivity.
      + apply IH.
    - apply nth_error_None in Es. rewrite (proj2 (nth_error_None _ _)) by lia. symmetry. apply nth_error_None. rewrite map_length. lia.
  Qed.
  Theorem C85_residual (u v : image f32) : wf u -> wf v -> info_of u = info_of v ->
    (forall x y w h, 0 <= x -> 0 <= y -> 0 < w -> 0 < h -> x + w < width (info_of u) -> y + h < height (info_of u) ->
      (let! u' := crop_seq p num_f32 u x y w h in let! v' := crop_seq p num_f32 v x y w h in residual p num_f32 u' v')
      = (let! r := residual p num_f32 u v in crop_seq p num_f32 r x y w h))
    /\ (forall axis, (let! u' := reflect_image p num_f32 u axis in let! v' := reflect_image p num_f32 v axis in residual p num_f32 u' v')
      = (let! r := residual p num_f32 u v in reflect_image p num_f32 r axis)).
  Proof.
    intros Wu Wv I. destruct (residual_pixels u v Wu Wv I) as (r & E & Wr & Ir & Pr). rewrite E. split.
    - intros x y w h Hx Hy Hw Hh Hr Hb.
      destruct (crop_seq_ok p num_f32 u x y w h Wu) as [o1 (E1 & W1 & I1 & P1)]; try lia.
      destruct (crop_seq_ok p num_f32 v x y w h Wv) as [o2 (E2 & W2 & I2 & P2)]; try (rewrite <- I; lia); try lia.
      destruct (crop_seq_ok p num_f32 r x y w h Wr) as [o3 (E3 & W3 & I3 & P3)]; try (rewrite Ir; lia); try lia.
      rewrite E1, E2, !bind_Ret, E3.
      destruct (residual_pixels o1 o2 W1 W2 ltac:(rewrite I1, I2, I; reflexivity)) as (o & Eo & Wo & Io & Po). rewrite Eo. f_equal.
      apply image_ext; auto; [rewrite Io, I1, I3, Ir; reflexivity|]. intros i j Hin.
      assert (Hin1 : inside o1 i j) by (unfold inside in *; rewrite Io in Hin; exact Hin).
      assert (Hin2 : inside o2 i j) by (unfold inside in *; rewrite I2; rewrite I1 in Hin1; exact Hin1).
      assert (Hin3 : inside o3 i j) by (unfold inside in *; rewrite I3; rewrite I1 in Hin1; exact Hin1).
      rewrite Po, P1, P2, P3 by assumption. symmetry. apply Pr. unfold inside in *. rewrite I1 in Hin1. cbn [width height] in Hin1. lia.
    - intros axis. destruct (C21_reflect p num_f32 u axis Wu) as [o1 (E1 & W1 & I1 & P1)]. destruct (C21_reflect p num_f32 v axis Wv) as [o2 (E2 & W2 & I2 & P2)].
      destruct (C21_reflect p num_f32 r axis Wr) as [o3 (E3 & W3 & I3 & P3)]. rewrite E1, E2, !bind_Ret, E3.
      destruct (residual_pixels o1 o2 W1 W2 ltac:(rewrite I1, I2, I; reflexivity)) as (o & Eo & Wo & Io & Po). rewrite Eo. f_equal.
      apply image_ext; auto; [congruence|]. intros i j Hin. assert (Hu : inside u i j) by (unfold inside in *; rewrite Io, I1 in Hin; exact Hin).
      rewrite Po by (unfold inside in *; rewrite I1; exact Hu). rewrite P1, P2 by (unfold inside in *; rewrite <- ?I; exact Hu).
      rewrite P3 by (unfold inside in *; rewrite Ir; exact Hu). rewrite Ir, <- I. unfold inside in Hu. destruct axis; symmetry; apply Pr; unfold inside; lia.
  Qed.
End Ops.

Example C85_example2 : domain everything any (Image (Info 3 2 1 false) [1; 2; 3; 4; 5; 6])
  /\ (let img := Image (Info 3 2 1 false) (map f32_of_Z [1; 2; 3; 4; 5; 6]) in domain (fun (c : Z) (a : bool) => c = if a then 2 else 1) any img).
Proof. split; (split; [apply wfb_wf; vm_compute; reflexivity|]; split; [apply Forall_forall; intros; exact I|]; split; [reflexivity || exact I|cbn; lia]). Qed.
