(** * C94: debug and release builds agree unless the debug build panics; without SIMD nothing is undefined *)
From Verif.Proofs Require Import BaseL ProfileL.
From Verif.Model Require Import Base Float Image MathM Util Par Convert Simd Colorspace Filter Transform Tone Morph Bilateral Median Trimmed.
From Verif.Spec Require Import ProfileS.
Open Scope Z_scope.

(** what [consistent] means for a caller: every result seen in a debug build is the result of the release build, and a value or
    error of a release build was also that of the debug build, unless that one panicked *)
Theorem C94_meaning {A} (call : profile -> outcome A) : consistent call ->
  (forall v, call Debug = Ret v -> call Release = Ret v)
  /\ (forall e, call Debug = Fail e -> call Release = Fail e)
  /\ (call Release = Panic -> call Debug = Panic)
  /\ (forall v, call Release = Ret v -> call Debug = Ret v \/ call Debug = Panic)
  /\ (forall e, call Release = Fail e -> call Debug = Fail e \/ call Debug = Panic)
  /\ (forall p, call p <> UB).
Proof.
  intros [H U]. split; [|split; [|split; [|split; [|split; [|exact U]]]]]; intros; destruct H as [H|H]; rewrite ?H in *; try congruence; auto.
Qed.
(** calls one after the other, later ones depending on the results of earlier ones: whole programs *)
Theorem C94_sequence {A B} (call : profile -> outcome A) (next : A -> profile -> outcome B) :
  consistent call -> (forall v, consistent (next v)) -> consistent (fun p => let! v := call p in next v p).
Proof.
  intros H K. apply tame_consistent. apply tame_bind; [apply consistent_tame; exact H|]. intros v. apply consistent_tame. apply K.
Qed.
Theorem C94_loop {A S} (step : profile -> S -> A -> outcome S) : (forall s x, consistent (fun p => step p s x)) ->
  forall l s, consistent (fun p => mfold (step p) l s).
Proof. intros H l s. apply tame_consistent. apply tame_mfold. intros s' x. apply (consistent_tame false (fun p => step p s' x)). apply H. Qed.
(** the channel types of the crate *)
Theorem C94_numbers : (forall t, consistent_number (num_int t)) /\ consistent_number num_f32 /\ consistent_number num_f64.
Proof.
  assert (G : forall T (N : number T), tame_num N -> consistent_number N).
  { intros T N H a b. destruct (H false a b) as (H1 & H2 & H3 & H4 & H5). repeat (split; [apply tame_consistent; assumption|]). apply tame_consistent. assumption. }
  split; [intros t|split]; apply G; [apply num_int_tame|apply num_f32_tame|apply num_f64_tame].
Qed.

Ltac each := intros; apply tame_consistent; auto with tame nocore.

(** ** images: constructors, access, maps; [T], [S] any channel types, the closures any that are themselves consistent *)
Theorem C94_image_access {T} (N : number T) (img : image T) (sub : subimage T) (px : list T) (inf : info) (x y w h i c : Z) (a b : bool) (d : list (list T)) (it : pixel_iter) :
  consistent (fun p => size p inf) /\ consistent (fun p => full_size p inf) /\ consistent (fun p => channels_non_alpha p inf)
  /\ consistent (fun p => from_vec_of_vec p w h c a d) /\ consistent (fun p => from_vec_of_slice p w h c a d)
  /\ consistent (fun p => blank p N inf) /\ consistent (fun p => @empty p T inf)
  /\ consistent (fun p => index p img x y) /\ consistent (fun p => img_index p img i)
  /\ consistent (fun p => get_pixel p img x y) /\ consistent (fun p => get_pixel_unchecked p img x y)
  /\ consistent (fun p => set_pixel p img x y px) /\ consistent (fun p => set_pixel_indexed p img i px)
  /\ consistent (fun p => get_subimage p img x y w h) /\ consistent (fun p => get_neighborhood_1d p img x y w b) /\ consistent (fun p => get_neighborhood_2d p img x y w)
  /\ consistent (fun p => sub_get_pixel p sub x y) /\ consistent (fun p => sub_to_vec p sub)
  /\ consistent (fun p => px_alpha p px) /\ consistent (fun p => px_channels_without_alpha p px) /\ consistent (fun p => px_is_black_alpha p N px)
  /\ consistent (fun p => iter_new p img) /\ consistent (fun p => iter_next p img it) /\ consistent (fun p => iter_size_hint p it).
Proof. repeat (split; [each|]). each. Qed.

Theorem C94_image_maps {T S} (img : image T) (x y i : Z) (px : list T)
    (f : profile -> T -> outcome S) (g : profile -> T -> outcome S) (F : profile -> list T -> outcome (list S))
    (f1 : profile -> T -> outcome T) (g1 : profile -> T -> outcome T) (F1 : profile -> list T -> outcome (list T)) :
  (forall v, consistent (fun p => f p v)) -> (forall v, consistent (fun p => g p v)) -> (forall v, consistent (fun p => F p v)) ->
  (forall v, consistent (fun p => f1 p v)) -> (forall v, consistent (fun p => g1 p v)) -> (forall v, consistent (fun p => F1 p v)) ->
  consistent (fun p => map_pixels p (F p) img) /\ consistent (fun p => map_pixels_if_alpha p (F p) (g p) img)
  /\ consistent (fun p => map_channels p (f p) img) /\ consistent (fun p => map_channels_if_alpha p (f p) (g p) img)
  /\ consistent (fun p => apply_pixels p (F1 p) img) /\ consistent (fun p => apply_pixels_if_alpha p (F1 p) (g1 p) img)
  /\ consistent (fun p => apply_channels p (f1 p) img) /\ consistent (fun p => apply_channels_if_alpha p (f1 p) (g1 p) img)
  /\ consistent (fun p => edit_channel p (f1 p) i img)
  /\ consistent (fun p => get_pixel_mut p img x y (F1 p)) /\ consistent (fun p => get_pixel_mut_unchecked p img x y (F1 p)) /\ consistent (fun p => img_index_mut p img i (F1 p))
  /\ consistent (fun p => px_map_alpha p (f p) (g p) px) /\ consistent (fun p => px_apply_alpha p (f1 p) (g1 p) px).
Proof.
  intros Hf Hg HF Hf1 Hg1 HF1.
  assert (Kf : forall v, tame false (f Debug v) (f Release v)) by (intros v; apply (consistent_tame false (fun p => f p v)); apply Hf).
  assert (Kg : forall v, tame false (g Debug v) (g Release v)) by (intros v; apply (consistent_tame false (fun p => g p v)); apply Hg).
  assert (KF : forall v, tame false (F Debug v) (F Release v)) by (intros v; apply (consistent_tame false (fun p => F p v)); apply HF).
  assert (Kf1 : forall v, tame false (f1 Debug v) (f1 Release v)) by (intros v; apply (consistent_tame false (fun p => f1 p v)); apply Hf1).
  assert (Kg1 : forall v, tame false (g1 Debug v) (g1 Release v)) by (intros v; apply (consistent_tame false (fun p => g1 p v)); apply Hg1).
  assert (KF1 : forall v, tame false (F1 Debug v) (F1 Release v)) by (intros v; apply (consistent_tame false (fun p => F1 p v)); apply HF1).
  repeat (split; [apply tame_consistent; hook8; assumption|]). apply tame_consistent; hook8; assumption.
Qed.

Theorem C94_conversions (img : image Z) (imf : image f32) (imd : image f64) (a b c d : f32) (s : Z) :
  consistent (fun p => from_u8_f32 p img) /\ consistent (fun p => from_uint_f64 p img) /\ consistent (fun p => from_f32_f64 p imf)
  /\ consistent (fun p => from_f64_u8 p imd) /\ consistent (fun p => from_f32_u8 p imf)
  /\ consistent (fun p => scale_channels p imf a b c d) /\ consistent (fun p => f32_to_u8_scale p imf s) /\ consistent (fun p => u8_to_f32_scale p img s).
Proof. repeat (split; [each|]). each. Qed.

(** ** utilities *)
Theorem C94_util {T} (N : number T) lm svd (img : image f32) (mat v : list T) (sub : subimage f32) (o k : list f32) (m : hashmap) (x y z w : Z) (s t : f32) :
  consistent_number N -> (forall n d, svd n d <> UB) ->
  consistent (fun p => vector_mul p N mat v) /\ consistent (fun p => vector_mul_mut p N mat v mat)
  /\ consistent (fun p => apply_1d_kernel_seq p sub o k) /\ consistent (fun p => apply_1d_kernel_par p sub k)
  /\ consistent (fun p => apply_2d_kernel_seq p sub o k) /\ consistent (fun p => apply_2d_kernel_par p sub k)
  /\ consistent (fun _ => separate_kernel svd k) /\ consistent (fun _ => gaussian_fn lm s t)
  /\ consistent (fun p => generate_histogram_percentiles p img m s)
  /\ consistent (fun p => generate_gaussian_kernel p lm x s) /\ consistent (fun p => generate_log_kernel p lm x s) /\ consistent (fun p => generate_spatial_mat p lm x s)
  /\ consistent (fun p => generate_summed_area_table p img) /\ consistent (fun p => rectangular_intensity_sum p img x y z w) /\ consistent (fun p => get_2d_coords p x y).
Proof.
  intros HN Hs. apply consistent_num in HN. repeat (split; [each|]). each.
Qed.
Theorem C94_lookup_table {T} (t : list T) (f : profile -> Z -> outcome T) : (forall i, consistent (fun p => f p i)) ->
  consistent (fun p => generate_lookup_table t (f p)).
Proof. intros H. apply tame_consistent. apply t_lookup. intros x. apply (consistent_tame false (fun p => f p x)). apply H. Qed.

(** ** colour spaces and tone, without SIMD *)
Theorem C94_colours lm (img : image Z) (imf : image f32) (w : white) :
  consistent (fun p => rgb_to_grayscale p false img) /\ consistent (fun p => rgb_to_grayscale_f32 p imf)
  /\ consistent (fun p => rgb_to_hsv p img) /\ consistent (fun p => hsv_to_rgb p img) /\ consistent (fun p => rgb_to_hsv_f32 p img) /\ consistent (fun p => hsv_to_rgb_f32 p imf)
  /\ consistent (fun p => linearize_srgb_f32 p lm img) /\ consistent (fun p => unlinearize_srgb_f32 p lm imf)
  /\ consistent (fun p => srgb_lin_to_xyz_f32 p imf) /\ consistent (fun p => xyz_to_srgb_lin_f32 p imf)
  /\ consistent (fun p => xyz_to_lab_f32 p lm imf w) /\ consistent (fun p => lab_to_xyz_f32 p lm imf w)
  /\ consistent (fun p => srgb_to_xyz_f32 p lm img) /\ consistent (fun p => xyz_to_srgb_f32 p lm imf)
  /\ consistent (fun p => srgb_to_lab_f32 p lm img w) /\ consistent (fun p => lab_to_srgb_f32 p lm imf w).
Proof. repeat (split; [each|]). each. Qed.
Theorem C94_tone lm (img : image Z) (b m : Z) (g q : f32) (w : white) :
  consistent (fun p => brightness p false img b) /\ consistent (fun p => saturation p false img b) /\ consistent (fun p => contrast p img g)
  /\ consistent (fun p => brightness_lab p lm img b) /\ consistent (fun p => contrast_lab p lm img g) /\ consistent (fun p => gamma p lm img g m)
  /\ consistent (fun p => histogram_equalization p lm img g w q).
Proof.
  repeat (split; [each|]). each.
Qed.
Theorem C94_morphology (img : image Z) (r : Z) :
  consistent (fun p => erode p img r) /\ consistent (fun p => dilate p img r) /\ consistent (fun p => majority p img r)
  /\ consistent (fun p => morph_open p img r) /\ consistent (fun p => morph_close p img r) /\ consistent (fun p => gradient p img r).
Proof.
  repeat (split; [each|]). each.
Qed.

(** ** transformations; [s]: the order in which the tasks of the rayon build run *)
Theorem C94_transform {T} (N : number T) lm (s : list Z) (img front : image T) (imf imf2 : image f32) (x y w h : Z) (a b : f32) (m : scale_method) (r : refl) :
  consistent (fun p => crop_seq p N img x y w h) /\ consistent (fun p => crop_par p s img x y w h)
  /\ consistent (fun p => superimpose p imf imf2 x y a) /\ consistent (fun p => overlay p img front x y)
  /\ consistent (fun p => translate p N img x y) /\ consistent (fun p => reflect_image p N img r)
  /\ consistent (fun p => scale_seq p lm imf a b m) /\ consistent (fun p => scale_par p lm s imf a b m)
  /\ consistent (fun p => scale_lanczos_seq p lm imf a b w) /\ consistent (fun p => scale_lanczos_par p lm s imf a b w)
  /\ consistent (fun p => rotate p lm imf a) /\ consistent (fun p => shear p imf a b).
Proof.
  repeat (split; [each|]). each.
Qed.

(** ** filters; [b]: the sequential or the rayon build with any order of its tasks; [svd], [bs]: whatever the libraries compute *)
Theorem C94_filters (b : build) lm svd (bs : search) (img : image Z) (imf : image f32) (k l : list f32) (v : bool) (n : nat) (sz w r al : Z) (s t : f32) (m : thresh) :
  (forall i d, svd i d <> UB) ->
  consistent (fun p => filter_1d p b n imf k v) /\ consistent (fun p => separable_filter p b n imf k l) /\ consistent (fun p => unseparable_filter p b n imf k)
  /\ consistent (fun p => linear_filter p b svd imf k) /\ consistent (fun p => box_filter p b imf sz) /\ consistent (fun p => weighted_avg_filter p b imf sz w)
  /\ consistent (fun p => gaussian_blur p b lm svd imf sz s) /\ consistent (fun p => sharpen p b imf) /\ consistent (fun p => unsharp_masking p b imf)
  /\ consistent (fun p => threshold p imf s t m)
  /\ consistent (fun p => prewitt p b lm imf) /\ consistent (fun p => sobel p b lm imf) /\ consistent (fun p => sobel_weighted p b lm imf w)
  /\ consistent (fun p => laplacian p b imf) /\ consistent (fun p => laplacian_of_gaussian p b lm imf sz s) /\ consistent (fun p => normalize_laplacian p imf)
  /\ consistent (fun p => bilateral_filter p lm b n img s t)
  /\ consistent (fun p => median_filter p lm img r) /\ consistent (fun p => alpha_trimmed_mean_filter p bs lm img r al).
Proof.
  intros Hs.
  repeat (split; [each|]). each.
Qed.
Theorem C94_residual {T} (N : number T) (a b : image T) : consistent_number N -> consistent (fun p => residual p N a b).
Proof. intros H. apply tame_consistent. apply t_residual. apply consistent_num. exact H. Qed.

(** ** the SIMD build: undefined behaviour is possible (C87), but a debug build that does not panic still does what the release build does *)
Theorem C94_simd (img : image Z) (b : Z) :
  same_in_release (fun p => rgb_to_grayscale p true img) /\ same_in_release (fun p => brightness p true img b) /\ same_in_release (fun p => saturation p true img b).
Proof. split; [|split]; apply tame_same; [apply t_gray_s|apply t_brightness_s|apply t_saturation_s]. Qed.

(** ** Expected: both builds give the same result.  Where the debug build panics, the release build may go on with a wrapped number:
    the difference of two 8-bit images comes out as 255, an announced 65536 x 65536 image as one of size 0 *)
Theorem C94_release_goes_on_refuted :
  (residual Debug num_u8 (Image (Info 1 1 1 false) [0]) (Image (Info 1 1 1 false) [1]) = Panic
   /\ residual Release num_u8 (Image (Info 1 1 1 false) [0]) (Image (Info 1 1 1 false) [1]) = Ret (Image (Info 1 1 1 false) [255]))
  /\ (size Debug (Info 65536 65536 3 false) = Panic /\ size Release (Info 65536 65536 3 false) = Ret 0)
  /\ (crop_seq Debug num_u8 (Image (Info 2 2 1 false) [1; 2; 3; 4]) 4294967295 0 2 0 = Panic
      /\ crop_seq Release num_u8 (Image (Info 2 2 1 false) [1; 2; 3; 4]) 4294967295 0 2 0 = Ret (Image (Info 2 0 1 false) [])).
Proof. repeat split; vm_compute; reflexivity. Qed.
(** the SIMD build is not defined on every call: a gray image of 34 pixels *)
Theorem C94_simd_undefined_refuted : exists img p, rgb_to_grayscale p true img = UB.
Proof. exists (Image (Info 34 1 1 false) (repeat 7 34)), Debug. vm_compute. reflexivity. Qed.

(** the claims are about calls that do something: a debug build that returns, and the release build with it *)
Example C94_example : brightness Debug false (Image (Info 2 1 1 false) [250; 3]) 10 = Ret (Image (Info 2 1 1 false) [255; 13])
  /\ brightness Release false (Image (Info 2 1 1 false) [250; 3]) 10 = Ret (Image (Info 2 1 1 false) [255; 13])
  /\ (forall v, consistent (fun p => add_clamped p 7 v)).
Proof. split; [vm_compute; reflexivity|]. split; [vm_compute; reflexivity|]. intros v. apply tame_consistent. apply t_add_clamped. Qed.
