(** * C102: which errors a call can return *)
From Verif.Proofs Require Import BaseL ErrL FilterL ErrL2.
From Verif.Model Require Import Base Float Image MathM Util Par Convert Simd Colorspace Filter Transform Tone Morph Bilateral Median Trimmed.
From Verif.Spec Require Import ErrS.
Open Scope Z_scope.

Lemma only_never {A} (o : outcome A) : only false o -> never_err o.
Proof. intros H e ->. destruct H as [H _]. discriminate. Qed.
Lemma never_only w {A} (o : outcome A) : never_err o -> only w o.
Proof. intros H. destruct o as [a|e| |]; try exact I. exfalso. exact (H e eq_refl). Qed.
Lemma only_invalid {A} (o : outcome A) : only true o -> only_invalid_arg o.
Proof. intros H e ->. apply H. Qed.
Ltac never := solve [intros; apply only_never; auto with only nocore].
Ltac invalid := solve [intros; apply only_invalid; auto with only nocore].

(** arithmetic that returns plain values: every channel type *)
Definition plain_number {T} (N : number T) : Prop := forall p a b,
  never_err (n_add N p a b) /\ never_err (n_sub N p a b) /\ never_err (n_mul N p a b) /\ never_err (n_div N p a b) /\ never_err (n_rem N p a b).
Lemma plain_only {T} (N : number T) : plain_number N -> only_num N.
Proof. intros H w p a b. destruct (H p a b) as (H1 & H2 & H3 & H4 & H5). repeat split; apply never_only; assumption. Qed.
Theorem C102_numbers : (forall t, plain_number (num_int t)) /\ plain_number num_f32 /\ plain_number num_f64.
Proof.
  assert (G : forall T (N : number T), only_num N -> plain_number N).
  { intros T N H p a b. destruct (H false p a b) as (H1 & H2 & H3 & H4 & H5). repeat split; apply only_never; assumption. }
  split; [intros t|split]; apply G; [apply num_int_only|apply num_f32_only|apply num_f64_only].
Qed.

(** ** Functions that do not return a [Result] do not stop with an error of a function they call: they return or panic *)
Theorem C102_image_access {T} (N : number T) (img : image T) (sub : subimage T) (px : list T) (inf : info) (x y w h i c : Z) (a b : bool) (d : list (list T)) (it : pixel_iter) :
  forall p,
  never_err (size p inf) /\ never_err (full_size p inf) /\ never_err (channels_non_alpha p inf)
  /\ never_err (from_vec_of_vec p w h c a d) /\ never_err (from_vec_of_slice p w h c a d)
  /\ never_err (blank p N inf) /\ never_err (@empty p T inf)
  /\ never_err (index p img x y) /\ never_err (img_index p img i)
  /\ never_err (get_pixel p img x y) /\ never_err (get_pixel_unchecked p img x y)
  /\ never_err (set_pixel p img x y px) /\ never_err (set_pixel_indexed p img i px)
  /\ never_err (get_subimage p img x y w h) /\ never_err (get_neighborhood_1d p img x y w b) /\ never_err (get_neighborhood_2d p img x y w)
  /\ never_err (sub_get_pixel p sub x y) /\ never_err (sub_to_vec p sub)
  /\ never_err (px_alpha p px) /\ never_err (px_channels_without_alpha p px) /\ never_err (px_is_black_alpha p N px)
  /\ never_err (iter_new p img) /\ never_err (iter_next p img it) /\ never_err (iter_size_hint p it).
Proof. intros p. repeat (split; [never|]). never. Qed.

(** the closures given to the maps return plain values *)
Theorem C102_image_maps {T S} (p : profile) (img : image T) (x y i : Z) (px : list T)
    (f g : T -> outcome S) (F : list T -> outcome (list S)) (f1 g1 : T -> outcome T) (F1 : list T -> outcome (list T)) :
  (forall v, never_err (f v)) -> (forall v, never_err (g v)) -> (forall v, never_err (F v)) ->
  (forall v, never_err (f1 v)) -> (forall v, never_err (g1 v)) -> (forall v, never_err (F1 v)) ->
  never_err (map_pixels p F img) /\ never_err (map_pixels_if_alpha p F g img)
  /\ never_err (map_channels p f img) /\ never_err (map_channels_if_alpha p f g img)
  /\ never_err (apply_pixels p F1 img) /\ never_err (apply_pixels_if_alpha p F1 g1 img)
  /\ never_err (apply_channels p f1 img) /\ never_err (apply_channels_if_alpha p f1 g1 img)
  /\ never_err (edit_channel p f1 i img)
  /\ never_err (get_pixel_mut p img x y F1) /\ never_err (get_pixel_mut_unchecked p img x y F1) /\ never_err (img_index_mut p img i F1)
  /\ never_err (px_map_alpha p f g px) /\ never_err (px_apply_alpha p f1 g1 px).
Proof.
  intros Hf Hg HF Hf1 Hg1 HF1.
  assert (Kf : forall v, only false (f v)) by (intros v; apply never_only; apply Hf).
  assert (Kg : forall v, only false (g v)) by (intros v; apply never_only; apply Hg).
  assert (KF : forall v, only false (F v)) by (intros v; apply never_only; apply HF).
  assert (Kf1 : forall v, only false (f1 v)) by (intros v; apply never_only; apply Hf1).
  assert (Kg1 : forall v, only false (g1 v)) by (intros v; apply never_only; apply Hg1).
  assert (KF1 : forall v, only false (F1 v)) by (intros v; apply never_only; apply HF1).
  repeat (split; [apply only_never; hook8; assumption|]). apply only_never; hook8; assumption.
Qed.

(** conversions and colour spaces; [s]: with or without SIMD *)
Theorem C102_plain_conversions lm (p : profile) (s : bool) (img : image Z) (imf : image f32) (imd : image f64) (n : Z) (w : white) :
  never_err (from_u8_f32 p img) /\ never_err (from_uint_f64 p img) /\ never_err (from_f32_f64 p imf)
  /\ never_err (from_f64_u8 p imd) /\ never_err (from_f32_u8 p imf) /\ never_err (f32_to_u8_scale p imf n) /\ never_err (u8_to_f32_scale p img n)
  /\ never_err (rgb_to_grayscale p s img) /\ never_err (rgb_to_grayscale_f32 p imf)
  /\ never_err (rgb_to_hsv p img) /\ never_err (hsv_to_rgb p img) /\ never_err (rgb_to_hsv_f32 p img) /\ never_err (hsv_to_rgb_f32 p imf)
  /\ never_err (linearize_srgb_f32 p lm img) /\ never_err (unlinearize_srgb_f32 p lm imf)
  /\ never_err (srgb_lin_to_xyz_f32 p imf) /\ never_err (xyz_to_srgb_lin_f32 p imf)
  /\ never_err (xyz_to_lab_f32 p lm imf w) /\ never_err (lab_to_xyz_f32 p lm imf w)
  /\ never_err (srgb_to_xyz_f32 p lm img) /\ never_err (xyz_to_srgb_f32 p lm imf)
  /\ never_err (srgb_to_lab_f32 p lm img w) /\ never_err (lab_to_srgb_f32 p lm imf w).
Proof. repeat (split; [never|]). never. Qed.
(** utilities.  [svd]: the singular value decomposition of rulinalg, which may return any error of that crate *)
Theorem C102_plain_util (p : profile) svd (img : image f32) (k : list f32) (m : hashmap) (x y z w : Z) (s : f32) :
  never_err (separate_kernel svd k) /\ never_err (generate_histogram_percentiles p img m s)
  /\ never_err (generate_summed_area_table p img) /\ never_err (rectangular_intensity_sum p img x y z w) /\ never_err (get_2d_coords p x y)
  /\ (forall T (t : list T) (f : Z -> outcome T), (forall i, never_err (f i)) -> never_err (generate_lookup_table t f)).
Proof.
  repeat (split; [never|]). intros T t f H. apply only_never. apply r_lookup. intros i. apply never_only. apply H.
Qed.

(** ** Functions that return a [Result] but never [Err]: bad arguments make them panic, or are accepted *)
Theorem C102_result_never_err {T} (N : number T) (b : build) lm (p : profile) (img : image T) (im8 : image Z) (imf : image f32) (x y r : Z) (s t c d : f32) (ax : refl) :
  never_err (translate p N img x y) /\ never_err (reflect_image p N img ax) /\ never_err (rotate p lm imf s) /\ never_err (shear p imf s t)
  /\ never_err (median_filter p lm im8 r) /\ never_err (scale_channels p imf s t c d)
  /\ never_err (sharpen p b imf) /\ never_err (unsharp_masking p b imf) /\ never_err (laplacian p b imf).
Proof.
  do 6 (split; [never|]). split; [apply only_never; apply sharpen_only|]. split; [apply only_never; apply unsharp_only|]. apply only_never; apply laplacian_only.
Qed.

(** ** Every other function outside the io module: an error it returns is the error for a wrong argument,
    in both builds, with and without rayon ([b], [sched]) and SIMD ([si]), whatever svd and the binary search compute *)
Theorem C102_invalid_util lm (p : profile) {T} (N : number T) (sub : subimage f32) (mat v : list T) (o k : list f32) (x : Z) (s t : f32) :
  plain_number N ->
  only_invalid_arg (vector_mul p N mat v) /\ only_invalid_arg (vector_mul_mut p N mat v mat)
  /\ only_invalid_arg (apply_1d_kernel_seq p sub o k) /\ only_invalid_arg (apply_1d_kernel_par p sub k)
  /\ only_invalid_arg (apply_2d_kernel_seq p sub o k) /\ only_invalid_arg (apply_2d_kernel_par p sub k)
  /\ only_invalid_arg (gaussian_fn lm s t)
  /\ only_invalid_arg (generate_gaussian_kernel p lm x s) /\ only_invalid_arg (generate_log_kernel p lm x s) /\ only_invalid_arg (generate_spatial_mat p lm x s).
Proof. intros HN. apply plain_only in HN. repeat (split; [invalid|]). invalid. Qed.
Theorem C102_invalid_tone lm (p : profile) (si : bool) (img : image Z) (b m r : Z) (g q : f32) (w : white) :
  only_invalid_arg (brightness p si img b) /\ only_invalid_arg (saturation p si img b) /\ only_invalid_arg (contrast p img g)
  /\ only_invalid_arg (brightness_lab p lm img b) /\ only_invalid_arg (contrast_lab p lm img g) /\ only_invalid_arg (gamma p lm img g m)
  /\ only_invalid_arg (histogram_equalization p lm img g w q)
  /\ only_invalid_arg (erode p img r) /\ only_invalid_arg (dilate p img r) /\ only_invalid_arg (majority p img r)
  /\ only_invalid_arg (morph_open p img r) /\ only_invalid_arg (morph_close p img r) /\ only_invalid_arg (gradient p img r).
Proof. repeat (split; [invalid|]). invalid. Qed.
Theorem C102_invalid_transform {T} (N : number T) lm (p : profile) (sched : list Z) (img front : image T) (imf imf2 : image f32) (x y w h : Z) (a b : f32) (m : scale_method) :
  only_invalid_arg (crop_seq p N img x y w h) /\ only_invalid_arg (crop_par p sched img x y w h)
  /\ only_invalid_arg (superimpose p imf imf2 x y a) /\ only_invalid_arg (overlay p img front x y)
  /\ only_invalid_arg (scale_seq p lm imf a b m) /\ only_invalid_arg (scale_par p lm sched imf a b m)
  /\ only_invalid_arg (scale_lanczos_seq p lm imf a b w) /\ only_invalid_arg (scale_lanczos_par p lm sched imf a b w).
Proof. repeat (split; [invalid|]). invalid. Qed.
Theorem C102_invalid_filters (b : build) lm svd (bs : search) (p : profile) (img : image Z) (imf : image f32) (k l : list f32) (v : bool) (n : nat) (sz w r al : Z) (s t : f32) (m : thresh) :
  only_invalid_arg (filter_1d p b n imf k v) /\ only_invalid_arg (separable_filter p b n imf k l) /\ only_invalid_arg (unseparable_filter p b n imf k)
  /\ only_invalid_arg (linear_filter p b svd imf k) /\ only_invalid_arg (box_filter p b imf sz) /\ only_invalid_arg (weighted_avg_filter p b imf sz w)
  /\ only_invalid_arg (gaussian_blur p b lm svd imf sz s) /\ only_invalid_arg (threshold p imf s t m)
  /\ only_invalid_arg (derivative_mask p b lm imf k l) /\ only_invalid_arg (prewitt p b lm imf) /\ only_invalid_arg (sobel p b lm imf) /\ only_invalid_arg (sobel_weighted p b lm imf w)
  /\ only_invalid_arg (laplacian_of_gaussian p b lm imf sz s) /\ only_invalid_arg (normalize_laplacian p imf)
  /\ only_invalid_arg (bilateral_filter p lm b n img s t) /\ only_invalid_arg (alpha_trimmed_mean_filter p bs lm img r al).
Proof. repeat (split; [invalid|]). invalid. Qed.
Theorem C102_invalid_residual {T} (N : number T) (p : profile) (a b : image T) : plain_number N -> only_invalid_arg (residual p N a b).
Proof. intros H. apply only_invalid. apply r_residual. apply plain_only. exact H. Qed.

(** ** Exactly when the kernel filters report an error (kernels of fewer than 2^32 elements) *)
Theorem C102_filter_1d_exactly (b : build) (p : profile) (n : nat) (img : image f32) (k : list f32) (v : bool) : len k <= u32_max ->
  err_exactly (Z.odd (len k) = false) (filter_1d p b n img k v).
Proof.
  intros H. split.
  - intros O. unfold filter_1d. rewrite check_odd_usize by (unfold len in *; lia). rewrite O. reflexivity.
  - intros O. apply not_false_is_true in O. apply only_never. apply filter_1d_odd; assumption.
Qed.
Theorem C102_separable_exactly (b : build) (p : profile) (n : nat) (img : image f32) (k l : list f32) : len k <= u32_max -> len l <= u32_max ->
  err_exactly (Z.odd (len k) = false \/ Z.odd (len l) = false \/ len k <> len l) (separable_filter p b n img k l).
Proof.
  intros H1 H2. split.
  - intros O. unfold separable_filter. rewrite !check_odd_usize by (unfold len in *; lia). unfold check_equal_Z.
    destruct (Z.odd (len k)) eqn:E1; [|reflexivity]. cbn [bind]. destruct (Z.odd (len l)) eqn:E2; [|reflexivity]. cbn [bind].
    destruct (Z.eqb_spec (len k) (len l)) as [E|E]; [|reflexivity]. destruct O as [O|[O|O]]; congruence.
  - intros O. destruct (Z.odd (len k)) eqn:E1; [|exfalso; apply O; left; reflexivity].
    destruct (Z.eq_dec (len k) (len l)) as [E|E]; [|exfalso; apply O; right; right; exact E].
    apply only_never. apply sep_odd; [exact H1|exact E1|symmetry; exact E].
Qed.
Theorem C102_box_exactly (b : build) (p : profile) (img : image f32) (sz : Z) : 0 <= sz <= u32_max ->
  err_exactly (Z.odd sz = false) (box_filter p b img sz).
Proof.
  intros H. assert (C : check_odd p (num_int U32) sz = if Z.odd sz then Ret tt else Fail InvalidArgError) by (apply check_odd_ok; unfold u32_max in *; cbn; lia).
  split; intros O; unfold box_filter; rewrite C; [rewrite O; reflexivity|]. apply not_false_is_true in O. rewrite O. cbn [bind].
  apply only_never. apply only_bind_eq; [apply r_imul|]. intros sq E. cbv zeta.
  assert (K : 0 <= sq <= u32_max /\ Z.odd sq = true).
  { unfold imul, arith in E. destruct (in_ity U32 (sz * sz)) eqn:I.
    - injection E as <-. unfold in_ity in I. cbn in I. unfold u32_max. split; [lia|]. rewrite Z.odd_mul, O. reflexivity.
    - destruct p; [discriminate|]. injection E as <-. unfold cast. change (lo U32) with 0. change (hi U32 - 0 + 1) with 4294967296. unfold u32_max. rewrite Z.sub_0_r, Z.add_0_r.
      pose proof (Z.mod_pos_bound (sz * sz) 4294967296 ltac:(lia)) as B. split; [lia|].
      pose proof (Z.div_mod (sz * sz) 4294967296 ltac:(lia)) as D. pose proof (f_equal Z.odd D) as D2.
      rewrite Z.odd_add, !Z.odd_mul, O in D2. cbn [andb xorb Z.odd] in D2. destruct (Z.odd ((sz * sz) mod 4294967296)); [reflexivity|]. exfalso. cbn in D2. discriminate. }
  destruct K as [K1 K2].
  assert (L : len (repeat (f32_div f32_1 (f32_of_Z sq)) (Z.to_nat sq)) = sq) by (unfold len; rewrite repeat_length; lia).
  apply sep_odd; rewrite ?L; [lia|exact K2|reflexivity].
Qed.
(** the derivative filters report an error exactly for an image that is not gray *)
Definition gray {T} (img : image T) : Prop := channels (info_of img) = (if alpha (info_of img) then 2 else 1).
Theorem C102_edges_exactly (b : build) lm (p : profile) (img : image f32) (weight : Z) :
  err_exactly (~ gray img) (prewitt p b lm img) /\ err_exactly (~ gray img) (sobel p b lm img) /\ err_exactly (~ gray img) (sobel_weighted p b lm img weight).
Proof.
  assert (G : forall k l, len k = 3 -> len l = 3 -> err_exactly (~ gray img) (derivative_mask p b lm img k l)).
  { intros k l Hk Hl. assert (Eg : check_grayscale img = Ret tt /\ gray img \/ check_grayscale img = Fail InvalidArgError /\ ~ gray img).
    { unfold check_grayscale, gray. destruct (alpha (info_of img)); cbn [andb orb negb]; rewrite ?orb_false_r;
        [destruct (Z.eqb_spec (channels (info_of img)) 2)|destruct (Z.eqb_spec (channels (info_of img)) 1)]; cbn [negb]; auto. }
    destruct Eg as [[E g]|[E g]]; split; intros O; try contradiction.
    - apply only_never. apply deriv_only; [rewrite Hk; unfold u32_max; lia|rewrite Hk; reflexivity|congruence|exact E].
    - unfold derivative_mask. rewrite E. reflexivity. }
  split; [|split]; apply G; reflexivity.
Qed.

(** ** Expected: an error inside the linear algebra library comes out as [RulinalgError], a failed computation as [NumericError].
    [linear_filter] and [gaussian_blur] panic when the decomposition fails *)
Theorem C102_svd_refuted : exists img k svd, (forall n d, svd n d = Fail RulinalgError) /\ (forall p b, linear_filter p b svd img k = Panic).
Proof.
  exists (Image (Info 1 1 1 false) [f32_1]), [f32_1], (fun _ _ => Fail RulinalgError). split; [reflexivity|]. intros p b. destruct p, b; vm_compute; reflexivity.
Qed.

(** a call of each kind: a reported error, a panic where one would expect an error, a value *)
Example C102_example :
  box_filter Debug Seq (Image (Info 1 1 1 false) [f32_1]) 2 = Fail InvalidArgError
  /\ sobel Debug Seq (Libm (fun x _ => x) (fun x => x) (fun x => x)) (Image (Info 1 1 3 false) [f32_1; f32_1; f32_1]) = Fail InvalidArgError
  /\ get_pixel Debug (Image (Info 1 1 1 false) [7]) 1 0 = Panic
  /\ translate Debug num_u8 (Image (Info 2 1 1 false) [7; 8]) 1 0 = Ret (Image (Info 2 1 1 false) [0; 7])
  /\ plain_number num_u8 /\ gray (Image (Info 1 1 1 false) [7]).
Proof.
  split; [vm_compute; reflexivity|]. split; [vm_compute; reflexivity|]. split; [vm_compute; reflexivity|]. split; [vm_compute; reflexivity|].
  split; [apply C102_numbers|reflexivity].
Qed.
