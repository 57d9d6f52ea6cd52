(** * C101: whatever a program does with a debug build, every image it gets back is well-formed *)
From Verif.Proofs Require Import BaseL ImageL PipeL PipeL2 PipeSimdL.
From Verif.Model Require Import Base Float Image MathM Util Par Convert Simd Colorspace Filter Transform Tone Morph Bilateral Median Trimmed.
From Verif.Spec Require Import ImageS PipeS.
Open Scope Z_scope.

Lemma good_W {T} (c : chan T) img : good c img <-> W (valid c) img. Proof. reflexivity. Qed.
Lemma typed_ens {A T} (c : chan T) (f : A -> outcome T) x : typed c f -> ens (valid c) (f x). Proof. intros H v E. exact (H x v E). Qed.
Lemma typed_px_ens {T S} (c : chan S) (f : list T -> outcome (list S)) x : typed_px c f -> ens (Forall (valid c)) (f x). Proof. intros H v E. exact (H x v E). Qed.
Lemma shrinks_ens {T S} (c : chan S) n k (f : list T -> outcome (list S)) x : typed_px c f -> shrinks n k f -> len x = n -> ens (fun out => px_ok (valid c) k out /\ k <= n) (f x).
Proof. intros H K Hl out E. destruct (K x out Hl E) as [K1 K2]. split; [split; [exact (H x out E)|exact K1]|exact K2]. Qed.
Lemma valid_zero {T} (c : chan T) : valid c (n_zero (number_of c)).
Proof. destruct c; cbn; try exact I. unfold is_u8. lia. Qed.
Lemma valid_sub {T} (c : chan T) x y : ens (valid c) (n_sub (number_of c) Debug x y).
Proof. destruct c; [|apply e_any|apply e_any]. cbn. eapply e_weak; [apply e_isub|]. intros v [_ H]. exact H. Qed.

(** no assumption on sizes, arguments, closures, schedules, libm, or on what was called before; no overflow in the size of an image
    goes unnoticed, and no function leaves a buffer of the wrong length or a sample out of range *)
Theorem C101_made {T} (c : chan T) (img : image T) : made c img -> wf img /\ samples (valid c) img.
Proof.
  intros H. change (good c img).
  induction H; rewrite ?good_W in *;
  match goal with
  | E : _ = Ret ?o |- W _ ?o => revert o E; match goal with |- forall o, ?x = Ret o -> W (valid ?c) o => change (ens (W (valid c)) x) end
  | _ => idtac
  end; cbn [valid number_of] in *.
  - assumption.
  - fst_weak. apply (e_blank (valid c)); [apply valid_zero|assumption..].
  - fst_weak. apply e_set_pixel; assumption.
  - fst_weak. apply e_set_pixel_indexed; assumption.
  - fst_weak. apply e_get_pixel_mut; [assumption|]. intros; apply typed_px_ens; assumption.
  - fst_weak. apply e_get_pixel_mut_unchecked; [assumption|]. intros; apply typed_px_ens; assumption.
  - fst_weak. apply e_img_index_mut; [assumption|]. intros; apply typed_px_ens; assumption.
  - apply e_apply_pixels; [assumption|]. intros; apply typed_px_ens; assumption.
  - apply e_apply_pixels_if_alpha; [assumption| |]; intros; [apply typed_px_ens|apply typed_ens]; assumption.
  - apply e_apply_channels; [assumption|]. intros; apply typed_ens; assumption.
  - apply e_apply_channels_if_alpha; [assumption| |]; intros; apply typed_ens; assumption.
  - apply e_edit_channel; [assumption|]. intros; apply typed_ens; assumption.
  - fst_weak. eapply e_map_channels; [eassumption|]. intros; apply typed_ens; assumption.
  - fst_weak. eapply e_map_channels_if_alpha; [eassumption| |]; intros; apply typed_ens; assumption.
  - fst_weak. eapply e_map_pixels; [eassumption|]. intros cs [_ Hl]. apply shrinks_ens; eassumption.
  - fst_weak. eapply e_map_pixels_if_alpha; [eassumption| |intros; apply typed_ens; assumption]. intros cs n [_ Hl] En. rewrite En in Hl. subst n. eapply shrinks_ens; eassumption.
  - fst_weak. apply (e_map_channels is_u8); [assumption|]. intros; apply e_any.
  - fst_weak. apply (e_map_channels is_u8); [assumption|]. intros; apply e_any.
  - fst_weak. apply (e_map_channels (fun _ => True)); [assumption|]. intros; apply e_any.
  - fst_weak. apply (e_map_channels (fun _ => True)); [assumption|]. intros; apply e_Ret, float_to_int_u8.
  - fst_weak. apply (e_map_channels (fun _ => True)); [assumption|]. intros; apply e_Ret, f32_to_int_u8.
  - fst_weak. apply (e_map_channels (fun _ => True)); [assumption|]. intros; apply e_any.
  - fst_weak. apply (e_map_channels (fun _ => True)); [assumption|]. intros; apply e_Ret, f32_to_int_u8.
  - fst_weak. apply (e_map_channels is_u8); [assumption|]. intros; apply e_any.
  - apply e_gray; assumption.
  - apply e_gray_simd; assumption.
  - apply e_gray_f32; assumption.
  - apply e_hsv; assumption.
  - apply e_hsv_inv; assumption.
  - apply e_hsv_f32; assumption.
  - apply e_hsv_f32_inv; assumption.
  - fst_weak. apply e_linearize; assumption.
  - apply e_unlinearize; assumption.
  - fst_weak. apply e_lin_xyz; assumption.
  - fst_weak. apply e_xyz_lin; assumption.
  - fst_weak. apply e_xyz_lab; assumption.
  - apply e_lab_xyz; assumption.
  - fst_weak. apply e_srgb_xyz; assumption.
  - apply e_xyz_srgb; assumption.
  - fst_weak. apply e_srgb_lab; assumption.
  - apply e_lab_srgb; assumption.
  - apply e_brightness_b; assumption.
  - apply e_saturation_b; assumption.
  - apply e_contrast; assumption.
  - apply e_brightness_lab; assumption.
  - apply e_contrast_lab; assumption.
  - apply e_gamma; assumption.
  - apply e_histeq; assumption.
  - apply e_erode; assumption.
  - apply e_dilate; assumption.
  - apply e_majority; assumption.
  - apply e_open; assumption.
  - apply e_close; assumption.
  - apply e_gradient; assumption.
  - apply e_sat; assumption.
  - apply e_crop_seq; [apply valid_zero|assumption..].
  - apply e_crop_par; assumption.
  - apply e_superimpose; assumption.
  - apply e_overlay; assumption.
  - apply e_translate; [apply valid_zero|assumption].
  - apply e_reflect; [apply valid_zero|assumption].
  - apply e_scale_seq; assumption.
  - apply e_scale_par; assumption.
  - apply e_scale_lanczos_seq; assumption.
  - apply e_scale_lanczos_par; assumption.
  - apply e_rotate; assumption.
  - apply e_shear; assumption.
  - apply e_filter_1d; assumption.
  - apply e_separable; assumption.
  - apply e_unseparable; assumption.
  - apply e_linear; assumption.
  - apply e_box; assumption.
  - apply e_wavg; assumption.
  - apply e_blur; assumption.
  - apply e_unseparable; assumption.
  - apply e_unseparable; assumption.
  - apply e_threshold; assumption.
  - apply e_residual; [intros; apply valid_sub|assumption..].
  - apply e_deriv; assumption.
  - apply e_deriv; assumption.
  - apply e_deriv; assumption.
  - apply e_deriv; assumption.
  - apply e_unseparable; assumption.
  - apply e_log; assumption.
  - apply e_normlap; assumption.
  - apply e_bilateral; assumption.
  - apply e_median; assumption.
  - apply e_trimmed; assumption.
Qed.

(** * What the promise needs *)
(** In a release build it is broken: [rayon]'s crop of a good image returns 4294967295 x 4294967295 pixels with a single sample, and so does [blank]. *)
Definition img22 : image Z := Image (Info 2 2 1 false) [1; 2; 3; 4].
Theorem C101_release_refuted :
  good U8c img22 /\ crop_par Release [0] img22 1 1 4294967295 4294967295 = Ret (Image (Info 4294967295 4294967295 1 false) [4])
  /\ blank Release num_u8 (Info 65536 65536 1 false) = Ret (Image (Info 65536 65536 1 false) [])
  /\ (forall img : image Z, img = Image (Info 4294967295 4294967295 1 false) [4] \/ img = Image (Info 65536 65536 1 false) [] -> ~ wf img).
Proof.
  split; [|split; [|split]].
  - split; [apply wfb_wf; vm_compute; reflexivity|].
    unfold samples, img22; cbn [data]. do 4 (apply Forall_cons; [cbv; split; discriminate|]). apply Forall_nil.
  - vm_compute. reflexivity.
  - vm_compute. reflexivity.
  - intros img [-> | ->] [_ _ _ H _ _]; apply H; reflexivity.
Qed.

(** Images that do not come out of a function that computes one: [empty], and the constructors that take a buffer, do not check its length *)
Theorem C101_constructors_refuted :
  empty Debug (Info 2 2 3 false) = Ret (Image (Info 2 2 3 false) ([] : list Z)) /\ ~ wf (Image (Info 2 2 3 false) ([] : list Z))
  /\ from_vec 2 2 3 false [7] = Image (Info 2 2 3 false) [7] /\ ~ wf (Image (Info 2 2 3 false) [7]).
Proof.
  split; [|split; [|split]]; [vm_compute; reflexivity| |vm_compute; reflexivity|];
  intros [_ _ _ _ _ H]; vm_compute in H; discriminate.
Qed.

(** * The hypotheses are met: a program of six calls *)
Definition prog22 : outcome (image Z) :=
  let! a := blank Debug num_u8 (Info 4 3 3 false) in
  let! b := set_pixel Debug a 1 0 [200; 100; 50] in
  let! c := brightness Debug false b 20 in
  let! d := rgb_to_grayscale Debug false c in
  let! e := crop_seq Debug num_u8 d 1 0 2 2 in
  residual Debug num_u8 e e.
Definition prog22_f : outcome (image f32) :=
  let! a := prog22 in let! b := from_u8_f32 Debug a in sharpen Debug Seq b.
Lemma C101_prog22 img : prog22 = Ret img -> made U8c img.
Proof.
  unfold prog22. intros H.
  apply bind_inv in H as (a & Ha & H). apply bind_inv in H as (b & Hb & H). apply bind_inv in H as (c & Hc & H).
  apply bind_inv in H as (d & Hd & H). apply bind_inv in H as (e & He & H).
  assert (Ma : made U8c a) by (refine (m_blank U8c 4 3 3 false a _ _ _ Ha); cbv; split; discriminate).
  assert (Mb : made U8c b).
  { refine (m_set_pixel U8c a 1 0 _ b Ma _ Hb). do 3 (apply Forall_cons; [cbv; split; discriminate|]). apply Forall_nil. }
  assert (Mc : made U8c c) by exact (m_brightness false b 20 c Mb Hc).
  assert (Md : made U8c d) by exact (m_gray c d Mc Hd).
  assert (Me : made U8c e) by (refine (m_crop U8c d 1 0 2 2 e Md _ _ He); cbv; split; discriminate).
  exact (m_residual U8c e e img Me Me H).
Qed.
Example C101_example :
  (exists img, prog22 = Ret img /\ made U8c img /\ data img <> [])
  /\ (forall img, prog22_f = Ret img -> made F32c img) /\ match prog22_f with Ret img => len (data img) = 4 | _ => False end.
Proof.
  split; [|split].
  - assert (K : match prog22 with Ret img => data img <> [] | _ => False end) by (vm_compute; discriminate).
    destruct prog22 as [img| | |] eqn:E; [|destruct K..].
    exists img. split; [reflexivity|]. split; [exact (C101_prog22 img E)|exact K].
  - intros img H. unfold prog22_f in H. apply bind_inv in H as (a & Ha & H). apply bind_inv in H as (b & Hb & H).
    exact (m_sharpen Seq b img (m_u8_f32 a b (C101_prog22 a Ha) Hb) H).
  - vm_compute. reflexivity.
Qed.

(** The side condition of the SIMD build's [rgb_to_grayscale]: handed a gray image of three pixels, it returns three pixels with one sample *)
Theorem C101_simd_gray_refuted :
  good U8c (Image (Info 3 1 1 false) [1; 2; 3])
  /\ rgb_to_grayscale Debug true (Image (Info 3 1 1 false) [1; 2; 3]) = Ret (Image (Info 3 1 1 false) [0]) /\ ~ wf (Image (Info 3 1 1 false) [0]).
Proof.
  split; [|split].
  - split; [apply wfb_wf; vm_compute; reflexivity|]. unfold samples; cbn [data]. do 3 (apply Forall_cons; [cbv; split; discriminate|]). apply Forall_nil.
  - vm_compute. reflexivity.
  - intros [_ _ _ _ _ H]. vm_compute in H. discriminate H.
Qed.
