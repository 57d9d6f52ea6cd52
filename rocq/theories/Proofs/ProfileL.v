(** * Both profiles at once: lemmas for C94 *)
From Verif.Proofs Require Import BaseL.
From Verif.Model Require Import Base Float Image MathM Util Par Convert Simd Colorspace Filter Transform Tone Morph Bilateral Median Trimmed.
From Verif.Spec Require Import ProfileS.
Open Scope Z_scope.

(** [a] is the debug, [b] the release outcome; [u]: undefined behaviour is possible *)
Definition tame (u : bool) {A} (a b : outcome A) : Prop := (a = Panic \/ a = b) /\ (u = false -> a <> UB /\ b <> UB).

Lemma tame_consistent {A} (f : profile -> outcome A) : tame false (f Debug) (f Release) -> consistent f.
Proof. intros [H U]. destruct (U eq_refl) as [U1 U2]. split; [exact H|]. intros []; assumption. Qed.
Lemma consistent_tame u {A} (f : profile -> outcome A) : consistent f -> tame u (f Debug) (f Release).
Proof. intros [H U]. split; [exact H|]. intros _. split; apply U. Qed.
Lemma tame_same {A} (f : profile -> outcome A) : tame true (f Debug) (f Release) -> same_in_release f.
Proof. intros [H _]. exact H. Qed.

Lemma tame_refl u {A} (a : outcome A) : a <> UB -> tame u a a.
Proof. intros H. split; [right; reflexivity|]. intros _. split; exact H. Qed.
Lemma tame_refl_u {A} (a : outcome A) : tame true a a.
Proof. split; [right; reflexivity|discriminate]. Qed.
Lemma tame_bind u {A B} (a b : outcome A) (f g : A -> outcome B) : tame u a b -> (forall x, tame u (f x) (g x)) -> tame u (bind a f) (bind b g).
Proof.
  intros [[-> | ->] U] H.
  - split; [left; reflexivity|]. intros Eu. split; [discriminate|]. destruct (U Eu) as [_ U2]. destruct b as [x|e| |]; cbn [bind]; try discriminate; [apply (H x); exact Eu|congruence].
  - destruct b as [x|e| |]; cbn [bind]; [apply H| | |]; (split; [right; reflexivity|]); intros Eu; try (split; discriminate). destruct (U Eu) as [U1 _]. congruence.
Qed.
Lemma tame_unwrap u {A} (a b : outcome A) : tame u a b -> tame u (unwrap a) (unwrap b).
Proof.
  intros [[-> | ->] U].
  - split; [left; reflexivity|]. intros Eu. split; [discriminate|]. destruct (U Eu) as [_ U2]. destruct b; cbn; congruence.
  - split; [right; reflexivity|]. intros Eu. destruct (U Eu) as [_ U2]. destruct b; cbn; split; congruence.
Qed.
Lemma tame_mfold u {A S} (f g : S -> A -> outcome S) : (forall s x, tame u (f s x) (g s x)) -> forall l s, tame u (mfold f l s) (mfold g l s).
Proof. intros H. induction l as [|a l IH]; intros s; cbn [mfold]; [apply tame_refl; discriminate|]. apply tame_bind; [apply H|exact IH]. Qed.
Lemma tame_mmap u {A B} (f g : A -> outcome B) : (forall x, tame u (f x) (g x)) -> forall l, tame u (mmap f l) (mmap g l).
Proof.
  intros H. induction l as [|a l IH]; cbn [mmap]; [apply tame_refl; discriminate|]. apply tame_bind; [apply H|]. intros b. apply tame_bind; [exact IH|]. intros bs. apply tame_refl. discriminate.
Qed.
Lemma tame_mwhile u {S} (c c' : S -> outcome bool) (f g : S -> outcome S) : (forall s, tame u (c s) (c' s)) -> (forall s, tame u (f s) (g s)) ->
  forall n s, tame u (mwhile n c f s) (mwhile n c' g s).
Proof.
  intros Hc H. induction n as [|n IH]; intros s; cbn [mwhile]; [apply tame_refl; discriminate|]. apply tame_bind; [apply Hc|]. intros [].
  - apply tame_bind; [apply H|exact IH]. - apply tame_refl. discriminate.
Qed.
Lemma tame_arith u t x : tame u (arith Debug t x) (arith Release t x).
Proof. unfold arith. destruct (in_ity t x); [apply tame_refl; discriminate|]. split; [left; reflexivity|]. intros _. split; discriminate. Qed.
Lemma tame_Ret u {A} (a : A) : tame u (Ret a) (Ret a). Proof. apply tame_refl. discriminate. Qed.
Lemma tame_Fail u {A} e : tame u (@Fail A e) (Fail e). Proof. apply tame_refl. discriminate. Qed.
Lemma tame_Panic u {A} : tame u (@Panic A) Panic. Proof. apply tame_refl. discriminate. Qed.

(** one step of the structural proof *)
Create HintDb tame discriminated.
Ltac hook := fail.
Ltac tstep :=
  match goal with
  | |- forall _, _ => intro
  | |- tame _ (Ret _) (Ret _) => apply tame_Ret
  | |- tame _ (Fail _) (Fail _) => apply tame_Fail
  | |- tame _ Panic Panic => apply tame_Panic
  | |- tame _ (bind _ _) (bind _ _) => apply tame_bind
  | |- tame _ (unwrap _) (unwrap _) => apply tame_unwrap
  | |- tame _ (mfold _ _ _) (mfold _ _ _) => apply tame_mfold
  | |- tame _ (mmap _ _) (mmap _ _) => apply tame_mmap
  | |- tame _ (arith _ _ _) (arith _ _ _) => apply tame_arith
  | |- tame _ (match ?x with _ => _ end) (match ?x with _ => _ end) => destruct x
  | |- tame _ (match ?x with _ => _ end _) (match ?x with _ => _ end _) => destruct x
  | |- _ => solve [auto 3 with tame nocore]
  | |- _ => hook
  | |- _ => progress cbv beta zeta
  end.
Ltac tame_tac := cbv beta zeta; repeat tstep.
Tactic Notation "tm" reference(f) := intros; unfold f; tame_tac.

(** ** Base *)
Section Base.
  Context (u : bool).
  Lemma t_iadd t a b : tame u (iadd Debug t a b) (iadd Release t a b). Proof. apply tame_arith. Qed.
  Lemma t_isub t a b : tame u (isub Debug t a b) (isub Release t a b). Proof. apply tame_arith. Qed.
  Lemma t_imul t a b : tame u (imul Debug t a b) (imul Release t a b). Proof. apply tame_arith. Qed.
  Lemma t_iabs t a : tame u (iabs Debug t a) (iabs Release t a). Proof. apply tame_arith. Qed.
  Lemma t_ineg t a : tame u (ineg Debug t a) (ineg Release t a). Proof. apply tame_arith. Qed.
  Lemma t_idiv t a b : tame u (idiv t a b) (idiv t a b). Proof. tm idiv. Qed.
  Lemma t_irem t a b : tame u (irem t a b) (irem t a b). Proof. tm irem. Qed.
  Lemma t_iclamp a b c : tame u (iclamp a b c) (iclamp a b c). Proof. tm iclamp. Qed.
  Lemma t_zrange_step a b c : tame u (zrange_step a b c) (zrange_step a b c). Proof. tm zrange_step. Qed.
  Lemma t_vget {A} (v : list A) i : tame u (vget v i) (vget v i). Proof. tm vget. Qed.
  Lemma t_vset {A} (v : list A) i x : tame u (vset v i x) (vset v i x). Proof. tm vset. Qed.
  Lemma t_vslice {A} (v : list A) a b : tame u (vslice v a b) (vslice v a b). Proof. tm vslice. Qed.
  Lemma t_vcopy {A} (v : list A) a b s : tame u (vcopy v a b s) (vcopy v a b s). Proof. tm vcopy. Qed.
  Lemma t_f32_clamp x a b : tame u (f32_clamp x a b) (f32_clamp x a b). Proof. tm f32_clamp. Qed.
End Base.
#[export] Hint Resolve t_iadd t_isub t_imul t_iabs t_ineg t_idiv t_irem t_iclamp t_zrange_step t_vget t_vset t_vslice t_vcopy t_f32_clamp : tame.

(** ** channel types *)
Definition tame_num {T} (N : number T) : Prop := forall u a b,
  tame u (n_add N Debug a b) (n_add N Release a b) /\ tame u (n_sub N Debug a b) (n_sub N Release a b) /\ tame u (n_mul N Debug a b) (n_mul N Release a b)
  /\ tame u (n_div N Debug a b) (n_div N Release a b) /\ tame u (n_rem N Debug a b) (n_rem N Release a b).
Lemma consistent_num {T} (N : number T) : consistent_number N -> tame_num N.
Proof. intros H u a b. destruct (H a b) as (H1 & H2 & H3 & H4 & H5). repeat split; try (intros; split); first [apply H1|apply H2|apply H3|apply H4|apply H5]. Qed.
Lemma num_int_tame t : tame_num (num_int t).
Proof. intros u a b. cbn. auto 10 with tame. Qed.
Lemma num_f32_tame : tame_num num_f32.
Proof. intros u a b. cbn. repeat split; try discriminate; right; reflexivity. Qed.
Lemma num_f64_tame : tame_num num_f64.
Proof. intros u a b. cbn. repeat split; try discriminate; right; reflexivity. Qed.
Section Num.
  Context {T} (N : number T) (HN : tame_num N) (u : bool).
  Lemma t_nadd a b : tame u (n_add N Debug a b) (n_add N Release a b). Proof using HN. apply HN. Qed.
  Lemma t_nsub a b : tame u (n_sub N Debug a b) (n_sub N Release a b). Proof using HN. apply HN. Qed.
  Lemma t_nmul a b : tame u (n_mul N Debug a b) (n_mul N Release a b). Proof using HN. apply HN. Qed.
  Lemma t_nrem a b : tame u (n_rem N Debug a b) (n_rem N Release a b). Proof using HN. apply HN. Qed.
End Num.
#[export] Hint Resolve num_int_tame num_f32_tame num_f64_tame t_nadd t_nsub t_nmul t_nrem : tame.
Lemma num_u8_tame : tame_num num_u8. Proof. apply num_int_tame. Qed.
#[export] Hint Resolve num_u8_tame : tame.

(** ** Image.v *)
Section Image.
  Context (u : bool).
  Lemma t_check_channels a b : tame u (check_channels a b) (check_channels a b). Proof. tm check_channels. Qed.
  Lemma t_check_xy a b c d : tame u (check_xy a b c d) (check_xy a b c d). Proof. tm check_xy. Qed.
  Lemma t_check_odd {T} (N : number T) (HN : tame_num N) v : tame u (check_odd Debug N v) (check_odd Release N v). Proof. tm check_odd. Qed.
  Lemma t_check_even {T} (N : number T) (HN : tame_num N) v : tame u (check_even Debug N v) (check_even Release N v). Proof. tm check_even. Qed.
  Lemma t_check_non_neg {T} (N : number T) v : tame u (check_non_neg N v) (check_non_neg N v). Proof. tm check_non_neg. Qed.
  Lemma t_check_in_range {T} (N : number T) v a b : tame u (check_in_range N v a b) (check_in_range N v a b). Proof. tm check_in_range. Qed.
  Lemma t_check_equal_Z a b : tame u (check_equal_Z a b) (check_equal_Z a b). Proof. tm check_equal_Z. Qed.
  Lemma t_check_equal_info a b : tame u (check_equal_info a b) (check_equal_info a b). Proof. tm check_equal_info. Qed.
  Lemma t_check_square a : tame u (check_square a) (check_square a). Proof. tm check_square. Qed.
  Lemma t_check_grayscale {T} (i : image T) : tame u (check_grayscale i) (check_grayscale i). Proof. tm check_grayscale. Qed.
End Image.
#[export] Hint Resolve t_check_channels t_check_xy t_check_odd t_check_even t_check_non_neg t_check_in_range t_check_equal_Z t_check_equal_info t_check_square t_check_grayscale : tame.

Section Img.
  Context (u : bool) {T : Type}.
  Implicit Types (img : image T) (px : list T).
  Lemma t_px_alpha px : tame u (px_alpha Debug px) (px_alpha Release px). Proof. tm px_alpha. Qed.
  Lemma t_px_cwa px : tame u (px_channels_without_alpha Debug px) (px_channels_without_alpha Release px). Proof. tm px_channels_without_alpha. Qed.
  Lemma t_channels_non_alpha i : tame u (channels_non_alpha Debug i) (channels_non_alpha Release i). Proof. tm channels_non_alpha. Qed.
  Lemma t_size i : tame u (size Debug i) (size Release i). Proof. tm size. Qed.
  Lemma t_full_size i : tame u (full_size Debug i) (full_size Release i). Proof. tm full_size. Qed.
  Lemma t_fvv w h c a (d : list (list T)) : tame u (from_vec_of_vec Debug w h c a d) (from_vec_of_vec Release w h c a d). Proof. tm from_vec_of_vec. Qed.
  Lemma t_fvs w h c a (d : list (list T)) : tame u (from_vec_of_slice Debug w h c a d) (from_vec_of_slice Release w h c a d). Proof. tm from_vec_of_slice. Qed.
End Img.
#[export] Hint Resolve t_px_alpha t_px_cwa t_channels_non_alpha t_size t_full_size t_fvv t_fvs : tame.
Section Img2.
  Context (u : bool) {T : Type}.
  Implicit Types (img : image T) (px : list T).
  Lemma t_px_is_black_alpha (N : number T) px : tame u (px_is_black_alpha Debug N px) (px_is_black_alpha Release N px). Proof. tm px_is_black_alpha. Qed.
  Lemma t_blank (N : number T) i : tame u (blank Debug N i) (blank Release N i). Proof. tm blank. Qed.
  Lemma t_empty i : tame u (@empty Debug T i) (empty Release i). Proof. tm empty. Qed.
  Lemma t_index img x y : tame u (index Debug img x y) (index Release img x y). Proof. tm index. Qed.
  Lemma t_img_index img i : tame u (img_index Debug img i) (img_index Release img i). Proof. tm img_index. Qed.
  Lemma t_nb_coord a b c d : tame u (nb_coord Debug a b c d) (nb_coord Release a b c d). Proof. tm nb_coord. Qed.
End Img2.
#[export] Hint Resolve t_px_is_black_alpha t_blank t_empty t_index t_img_index t_nb_coord : tame.
Section Img3.
  Context (u : bool) {T : Type}.
  Implicit Types (img : image T) (px : list T).
  Lemma t_get_pixel img x y : tame u (get_pixel Debug img x y) (get_pixel Release img x y). Proof. tm get_pixel. Qed.
  Lemma t_get_pixel_unchecked img x y : tame u (get_pixel_unchecked Debug img x y) (get_pixel_unchecked Release img x y). Proof. tm get_pixel_unchecked. Qed.
  Lemma t_set_pixel img x y px : tame u (set_pixel Debug img x y px) (set_pixel Release img x y px). Proof. tm set_pixel. Qed.
  Lemma t_set_pixel_indexed img i px : tame u (set_pixel_indexed Debug img i px) (set_pixel_indexed Release img i px). Proof. tm set_pixel_indexed. Qed.
End Img3.
#[export] Hint Resolve t_get_pixel t_get_pixel_unchecked t_set_pixel t_set_pixel_indexed : tame.
Section Img4.
  Context (u : bool) {T S : Type}.
  Implicit Types (img : image T) (px : list T).
  Lemma t_img_index_mut img i f g : (forall x, tame u (f x) (g x)) -> tame u (img_index_mut Debug img i f) (img_index_mut Release img i g). Proof. tm img_index_mut. Qed.
  Lemma t_get_subimage img x y w h : tame u (get_subimage Debug img x y w h) (get_subimage Release img x y w h). Proof. tm get_subimage. Qed.
  Lemma t_nb1 img x y s v : tame u (get_neighborhood_1d Debug img x y s v) (get_neighborhood_1d Release img x y s v). Proof. tm get_neighborhood_1d. Qed.
  Lemma t_nb2 img x y s : tame u (get_neighborhood_2d Debug img x y s) (get_neighborhood_2d Release img x y s). Proof. tm get_neighborhood_2d. Qed.
  Lemma t_sub_index (s : subimage T) i : tame u (sub_index s i) (sub_index s i). Proof. tm sub_index. Qed.
  Lemma t_map_pixels (f g : list T -> outcome (list S)) img : (forall x, tame u (f x) (g x)) -> tame u (map_pixels Debug f img) (map_pixels Release g img).
  Proof. tm map_pixels. Qed.
  Lemma t_map_channels (f g : T -> outcome S) img : (forall x, tame u (f x) (g x)) -> tame u (map_channels Debug f img) (map_channels Release g img).
  Proof. tm map_channels. Qed.
  Lemma t_px_map_alpha (f g f' g' : T -> outcome S) px : (forall x, tame u (f x) (f' x)) -> (forall x, tame u (g x) (g' x)) ->
    tame u (px_map_alpha Debug f g px) (px_map_alpha Release f' g' px).
  Proof. tm px_map_alpha. Qed.
  Lemma t_px_apply_alpha (f g f' g' : T -> outcome T) px : (forall x, tame u (f x) (f' x)) -> (forall x, tame u (g x) (g' x)) ->
    tame u (px_apply_alpha Debug f g px) (px_apply_alpha Release f' g' px).
  Proof. tm px_apply_alpha. Qed.
  Lemma t_apply_pixels (f g : list T -> outcome (list T)) img : (forall x, tame u (f x) (g x)) -> tame u (apply_pixels Debug f img) (apply_pixels Release g img).
  Proof. tm apply_pixels. Qed.
  Lemma t_apply_channels (f g : T -> outcome T) img : (forall x, tame u (f x) (g x)) -> tame u (apply_channels Debug f img) (apply_channels Release g img).
  Proof. tm apply_channels. Qed.
  Lemma t_edit_channel (f g : T -> outcome T) k img : (forall x, tame u (f x) (g x)) -> tame u (edit_channel Debug f k img) (edit_channel Release g k img).
  Proof. tm edit_channel. Qed.
  Lemma t_get_pixel_mut img x y f g : (forall x, tame u (f x) (g x)) -> tame u (get_pixel_mut Debug img x y f) (get_pixel_mut Release img x y g). Proof. tm get_pixel_mut. Qed.
End Img4.
#[export] Hint Resolve t_get_subimage t_nb1 t_nb2 t_sub_index : tame.
Ltac hook ::= first [simple apply t_img_index_mut | simple apply t_map_pixels | simple apply t_map_channels | simple apply t_px_map_alpha | simple apply t_px_apply_alpha
  | simple apply t_apply_pixels | simple apply t_apply_channels | simple apply t_edit_channel | simple apply t_get_pixel_mut].

Section Img5.
  Context (u : bool) {T S : Type}.
  Implicit Types (img : image T).
  Lemma t_map_pixels_if_alpha (f f' : list T -> outcome (list S)) (g g' : T -> outcome S) img : (forall x, tame u (f x) (f' x)) -> (forall x, tame u (g x) (g' x)) ->
    tame u (map_pixels_if_alpha Debug f g img) (map_pixels_if_alpha Release f' g' img).
  Proof. tm map_pixels_if_alpha. Qed.
  Lemma t_map_channels_if_alpha (f f' g g' : T -> outcome S) img : (forall x, tame u (f x) (f' x)) -> (forall x, tame u (g x) (g' x)) ->
    tame u (map_channels_if_alpha Debug f g img) (map_channels_if_alpha Release f' g' img).
  Proof. tm map_channels_if_alpha. Qed.
  Lemma t_apply_pixels_if_alpha (f f' : list T -> outcome (list T)) (g g' : T -> outcome T) img : (forall x, tame u (f x) (f' x)) -> (forall x, tame u (g x) (g' x)) ->
    tame u (apply_pixels_if_alpha Debug f g img) (apply_pixels_if_alpha Release f' g' img).
  Proof. tm apply_pixels_if_alpha. Qed.
  Lemma t_apply_channels_if_alpha (f f' g g' : T -> outcome T) img : (forall x, tame u (f x) (f' x)) -> (forall x, tame u (g x) (g' x)) ->
    tame u (apply_channels_if_alpha Debug f g img) (apply_channels_if_alpha Release f' g' img).
  Proof. tm apply_channels_if_alpha. Qed.
  Lemma t_get_pixel_mut_unchecked img x y f g : (forall x, tame u (f x) (g x)) -> tame u (get_pixel_mut_unchecked Debug img x y f) (get_pixel_mut_unchecked Release img x y g).
  Proof. tm get_pixel_mut_unchecked. Qed.
  Lemma t_sub_get_pixel (s : subimage T) x y : tame u (sub_get_pixel Debug s x y) (sub_get_pixel Release s x y). Proof. tm sub_get_pixel. Qed.
  Lemma t_sub_to_vec (s : subimage T) : tame u (sub_to_vec Debug s) (sub_to_vec Release s). Proof. tm sub_to_vec. Qed.
  Lemma t_iter_new img : tame u (iter_new Debug img) (iter_new Release img). Proof. tm iter_new. Qed.
  Lemma t_iter_next img it : tame u (iter_next Debug img it) (iter_next Release img it). Proof. tm iter_next. Qed.
  Lemma t_iter_size_hint it : tame u (iter_size_hint Debug it) (iter_size_hint Release it). Proof. tm iter_size_hint. Qed.
End Img5.
#[export] Hint Resolve t_sub_get_pixel t_sub_to_vec t_iter_new t_iter_next t_iter_size_hint : tame.
Ltac hook1 := first [simple apply t_img_index_mut | simple apply t_map_pixels | simple apply t_map_channels | simple apply t_px_map_alpha | simple apply t_px_apply_alpha
  | simple apply t_apply_pixels | simple apply t_apply_channels | simple apply t_edit_channel | simple apply t_get_pixel_mut
  | simple apply t_map_pixels_if_alpha | simple apply t_map_channels_if_alpha | simple apply t_apply_pixels_if_alpha | simple apply t_apply_channels_if_alpha
  | simple apply t_get_pixel_mut_unchecked].
Ltac hook ::= hook1.

Section Conv0.
  Context (u : bool).
  Lemma t_from_u8_f32 i : tame u (from_u8_f32 Debug i) (from_u8_f32 Release i). Proof. tm from_u8_f32. Qed.
  Lemma t_from_uint_f64 i : tame u (from_uint_f64 Debug i) (from_uint_f64 Release i). Proof. tm from_uint_f64. Qed.
  Lemma t_from_f32_f64 i : tame u (from_f32_f64 Debug i) (from_f32_f64 Release i). Proof. tm from_f32_f64. Qed.
  Lemma t_from_f64_u8 i : tame u (from_f64_u8 Debug i) (from_f64_u8 Release i). Proof. tm from_f64_u8. Qed.
  Lemma t_from_f32_u8 i : tame u (from_f32_u8 Debug i) (from_f32_u8 Release i). Proof. tm from_f32_u8. Qed.
  Lemma t_scale_channels i a b c d : tame u (scale_channels Debug i a b c d) (scale_channels Release i a b c d). Proof. tm scale_channels. Qed.
  Lemma t_f32_to_u8_scale i s : tame u (f32_to_u8_scale Debug i s) (f32_to_u8_scale Release i s). Proof. tm f32_to_u8_scale. Qed.
  Lemma t_u8_to_f32_scale i s : tame u (u8_to_f32_scale Debug i s) (u8_to_f32_scale Release i s). Proof. tm u8_to_f32_scale. Qed.
End Conv0.
#[export] Hint Resolve t_from_u8_f32 t_from_uint_f64 t_from_f32_f64 t_from_f64_u8 t_from_f32_u8 t_scale_channels t_f32_to_u8_scale t_u8_to_f32_scale : tame.

(** ** MathM.v *)
Section Math1.
  Context (u : bool) {T : Type} (N : number T) (HN : tame_num N).
  Lemma t_vml m i r o : tame u (vector_mul_loop Debug N m i r o) (vector_mul_loop Release N m i r o). Proof using HN. tm vector_mul_loop. Qed.
  Lemma t_kernel_tap i k n o : tame u (kernel_tap i k n o) (kernel_tap i k n o). Proof using. tm kernel_tap. Qed.
  Lemma t_gaussian_fn lm x s : tame u (gaussian_fn lm x s) (gaussian_fn lm x s). Proof using. tm gaussian_fn. Qed.
End Math1.
#[export] Hint Resolve t_vml t_kernel_tap t_gaussian_fn : tame.
Section Math2.
  Context (u : bool) {T : Type} (N : number T) (HN : tame_num N).
  Lemma t_vector_mul m i : tame u (vector_mul Debug N m i) (vector_mul Release N m i). Proof using HN. tm vector_mul. Qed.
  Lemma t_vector_mul_mut m i o : tame u (vector_mul_mut Debug N m i o) (vector_mul_mut Release N m i o). Proof using HN. tm vector_mul_mut. Qed.
  Lemma t_k1s i o k : tame u (apply_1d_kernel_seq Debug i o k) (apply_1d_kernel_seq Release i o k). Proof using. tm apply_1d_kernel_seq. Qed.
  Lemma t_k1p i k : tame u (apply_1d_kernel_par Debug i k) (apply_1d_kernel_par Release i k). Proof using. tm apply_1d_kernel_par. Qed.
  Lemma t_2dl i k s o : tame u (apply_2d_loop Debug i k s o) (apply_2d_loop Release i k s o). Proof using. tm apply_2d_loop. Qed.
End Math2.
#[export] Hint Resolve t_vector_mul t_vector_mul_mut t_k1s t_k1p t_2dl : tame.
Section Math3.
  Context (u : bool).
  Lemma t_k2s i o k : tame u (apply_2d_kernel_seq Debug i o k) (apply_2d_kernel_seq Release i o k). Proof using. tm apply_2d_kernel_seq. Qed.
  Lemma t_k2p i k : tame u (apply_2d_kernel_par Debug i k) (apply_2d_kernel_par Release i k). Proof using. tm apply_2d_kernel_par. Qed.
  Lemma t_separate_kernel svd k : (forall s d, svd s d <> UB) -> tame u (separate_kernel svd k) (separate_kernel svd k).
  Proof. intros H. unfold separate_kernel. cbv zeta. tstep; [tstep|]. tstep; [tstep; apply tame_refl; apply H|]. tame_tac. Qed.
End Math3.
#[export] Hint Resolve t_k2s t_k2p t_separate_kernel : tame.

(** ** Util.v *)
Section Util1.
  Context (u : bool).
  Lemma t_btree_bump m k : tame u (btree_bump Debug m k) (btree_bump Release m k).
  Proof. induction m as [|[k' v] m IH]; cbn [btree_bump]; tame_tac. Qed.
  Lemma t_hist_key a px : tame u (hist_key a px) (hist_key a px). Proof. tm hist_key. Qed.
  Lemma t_lookup {T} (t : list T) f g : (forall x, tame u (f x) (g x)) -> tame u (generate_lookup_table t f) (generate_lookup_table t g). Proof. tm generate_lookup_table. Qed.
  Lemma t_kernel_fill f s : tame u (kernel_fill Debug f s) (kernel_fill Release f s). Proof. tm kernel_fill. Qed.
  Lemma t_mat_put s g m a b : tame u (mat_put Debug s g m a b) (mat_put Release s g m a b). Proof. tm mat_put. Qed.
  Lemma t_get_2d_coords i w : tame u (get_2d_coords Debug i w) (get_2d_coords Release i w). Proof. tm get_2d_coords. Qed.
  Lemma t_sat i : tame u (generate_summed_area_table Debug i) (generate_summed_area_table Release i). Proof. tm generate_summed_area_table. Qed.
  Lemma t_ris i a b c d : tame u (rectangular_intensity_sum Debug i a b c d) (rectangular_intensity_sum Release i a b c d). Proof. tm rectangular_intensity_sum. Qed.
End Util1.
#[export] Hint Resolve t_btree_bump t_hist_key t_kernel_fill t_mat_put t_get_2d_coords t_sat t_ris : tame.
Ltac hook2 := first [hook1 | simple apply t_lookup].
Ltac hook ::= hook2.
Section Util2.
  Context (u : bool) (lm : libm).
  Lemma t_ghp i h q : tame u (generate_histogram_percentiles Debug i h q) (generate_histogram_percentiles Release i h q). Proof. tm generate_histogram_percentiles. Qed.
  Lemma t_ggk s g : tame u (generate_gaussian_kernel Debug lm s g) (generate_gaussian_kernel Release lm s g). Proof. tm generate_gaussian_kernel. Qed.
  Lemma t_glk s g : tame u (generate_log_kernel Debug lm s g) (generate_log_kernel Release lm s g). Proof. tm generate_log_kernel. Qed.
  Lemma t_gsm s g : tame u (generate_spatial_mat Debug lm s g) (generate_spatial_mat Release lm s g). Proof. tm generate_spatial_mat. Qed.
  Lemma t_par {A} sched n (f g : Z -> outcome A) : (forall x, tame u (f x) (g x)) -> tame u (par_collect sched n f) (par_collect sched n g). Proof. tm par_collect. Qed.
End Util2.
#[export] Hint Resolve t_ghp t_ggk t_glk t_gsm : tame.
Ltac hook3 := first [hook2 | simple apply t_par].
Ltac hook ::= hook3.

(** ** Simd.v *)
Section SimdA.
  Lemma t_add_clamped u a b : tame u (add_clamped Debug a b) (add_clamped Release a b). Proof. tm add_clamped. Qed.
  Lemma t_loadu v i : tame true (loadu v i) (loadu v i). Proof. apply tame_refl_u. Qed.
  Lemma t_store v i r : tame true (store v i r) (store v i r). Proof. apply tame_refl_u. Qed.
  Lemma t_storeu2 v i j r : tame true (storeu2 v i j r) (storeu2 v i j r). Proof. apply tame_refl_u. Qed.
  Lemma t_deinterleave u i o c : tame u (deinterleave Debug i o c) (deinterleave Release i o c). Proof. tm deinterleave. Qed.
End SimdA.
#[export] Hint Resolve t_add_clamped t_loadu t_store t_storeu2 t_deinterleave : tame.
Ltac hook4 := first [hook3 | simple apply tame_mwhile].
Ltac hook ::= hook4.
Section SimdB.
  Lemma t_adds_loop i n s v r : tame true (adds_loop Debug i n s v r) (adds_loop Release i n s v r). Proof. tm adds_loop. Qed.
  Lemma t_avg i : tame true (avg_256_u8 Debug i) (avg_256_u8 Release i). Proof. tm avg_256_u8. Qed.
  Lemma t_avg_alpha i : tame true (avg_alpha_256_u8 Debug i) (avg_alpha_256_u8 Release i). Proof. tm avg_alpha_256_u8. Qed.
End SimdB.
#[export] Hint Resolve t_adds_loop t_avg t_avg_alpha : tame.
Section SimdC.
  Lemma t_adds i v : tame true (adds_256_u8 Debug i v) (adds_256_u8 Release i v). Proof. tm adds_256_u8. Qed.
  Lemma t_adds_n i v n : tame true (adds_n_256_u8 Debug i v n) (adds_n_256_u8 Release i v n). Proof. tm adds_n_256_u8. Qed.
  Lemma t_avg_checked i : tame true (avg_checked_256_u8 Debug i) (avg_checked_256_u8 Release i). Proof. tm avg_checked_256_u8. Qed.
End SimdC.
#[export] Hint Resolve t_adds t_adds_n t_avg_checked : tame.

(** ** Colorspace.v *)
Section Color1.
  Context (u : bool) (lm : libm).
  Lemma t_gray_norm_px c : tame u (gray_norm_px Debug c) (gray_norm_px Release c). Proof. tm gray_norm_px. Qed.
  Lemma t_gray_f32_px c : tame u (gray_f32_px c) (gray_f32_px c). Proof. tm gray_f32_px. Qed.
  Lemma t_rgb_to_hsv_px c : tame u (rgb_to_hsv_px Debug c) (rgb_to_hsv_px Release c). Proof. tm rgb_to_hsv_px. Qed.
  Lemma t_hsv_to_rgb_px c : tame u (hsv_to_rgb_px Debug c) (hsv_to_rgb_px Release c). Proof. tm hsv_to_rgb_px. Qed.
  Lemma t_rgb_to_hsv_f32_px c : tame u (rgb_to_hsv_f32_px Debug c) (rgb_to_hsv_f32_px Release c). Proof. tm rgb_to_hsv_f32_px. Qed.
  Lemma t_hsv_to_rgb_f32_px c : tame u (hsv_to_rgb_f32_px c) (hsv_to_rgb_f32_px c). Proof. tm hsv_to_rgb_f32_px. Qed.
  Lemma t_xyz_to_lab_px w c : tame u (xyz_to_lab_px lm w c) (xyz_to_lab_px lm w c). Proof. tm xyz_to_lab_px. Qed.
  Lemma t_lab_to_xyz_px w c : tame u (lab_to_xyz_px lm w c) (lab_to_xyz_px lm w c). Proof. tm lab_to_xyz_px. Qed.
End Color1.
#[export] Hint Resolve t_gray_norm_px t_gray_f32_px t_rgb_to_hsv_px t_hsv_to_rgb_px t_rgb_to_hsv_f32_px t_hsv_to_rgb_f32_px t_xyz_to_lab_px t_lab_to_xyz_px : tame.
Section Color2.
  Context (u : bool) (lm : libm).
  Lemma t_gray_norm i : tame u (rgb_to_grayscale_norm Debug i) (rgb_to_grayscale_norm Release i). Proof. tm rgb_to_grayscale_norm. Qed.
  Lemma t_gray_f32 i : tame u (rgb_to_grayscale_f32 Debug i) (rgb_to_grayscale_f32 Release i). Proof. tm rgb_to_grayscale_f32. Qed.
  Lemma t_rgb_to_hsv i : tame u (rgb_to_hsv Debug i) (rgb_to_hsv Release i). Proof. tm rgb_to_hsv. Qed.
  Lemma t_hsv_to_rgb i : tame u (hsv_to_rgb Debug i) (hsv_to_rgb Release i). Proof. tm hsv_to_rgb. Qed.
  Lemma t_rgb_to_hsv_f32 i : tame u (rgb_to_hsv_f32 Debug i) (rgb_to_hsv_f32 Release i). Proof. tm rgb_to_hsv_f32. Qed.
  Lemma t_hsv_to_rgb_f32 i : tame u (hsv_to_rgb_f32 Debug i) (hsv_to_rgb_f32 Release i). Proof. tm hsv_to_rgb_f32. Qed.
  Lemma t_lin_xyz i : tame u (srgb_lin_to_xyz_f32 Debug i) (srgb_lin_to_xyz_f32 Release i). Proof. tm srgb_lin_to_xyz_f32. Qed.
  Lemma t_xyz_lin i : tame u (xyz_to_srgb_lin_f32 Debug i) (xyz_to_srgb_lin_f32 Release i). Proof. tm xyz_to_srgb_lin_f32. Qed.
  Lemma t_linearize i : tame u (linearize_srgb_f32 Debug lm i) (linearize_srgb_f32 Release lm i). Proof. tm linearize_srgb_f32. Qed.
  Lemma t_unlinearize i : tame u (unlinearize_srgb_f32 Debug lm i) (unlinearize_srgb_f32 Release lm i). Proof. tm unlinearize_srgb_f32. Qed.
  Lemma t_xyz_lab i w : tame u (xyz_to_lab_f32 Debug lm i w) (xyz_to_lab_f32 Release lm i w). Proof. tm xyz_to_lab_f32. Qed.
  Lemma t_lab_xyz i w : tame u (lab_to_xyz_f32 Debug lm i w) (lab_to_xyz_f32 Release lm i w). Proof. tm lab_to_xyz_f32. Qed.
End Color2.
#[export] Hint Resolve t_gray_norm t_gray_f32 t_rgb_to_hsv t_hsv_to_rgb t_rgb_to_hsv_f32 t_hsv_to_rgb_f32 t_lin_xyz t_xyz_lin t_linearize t_unlinearize t_xyz_lab t_lab_xyz : tame.
Section Color3.
  Context (u : bool) (lm : libm).
  Lemma t_gray i : tame u (rgb_to_grayscale Debug false i) (rgb_to_grayscale Release false i). Proof. unfold rgb_to_grayscale. tame_tac. Qed.
  Lemma t_gray_s s i : tame true (rgb_to_grayscale Debug s i) (rgb_to_grayscale Release s i). Proof. tm rgb_to_grayscale. Qed.
  Lemma t_srgb_xyz i : tame u (srgb_to_xyz_f32 Debug lm i) (srgb_to_xyz_f32 Release lm i). Proof. tm srgb_to_xyz_f32. Qed.
  Lemma t_xyz_srgb i : tame u (xyz_to_srgb_f32 Debug lm i) (xyz_to_srgb_f32 Release lm i). Proof. tm xyz_to_srgb_f32. Qed.
End Color3.
#[export] Hint Resolve t_gray t_gray_s t_srgb_xyz t_xyz_srgb : tame.
Section Color4.
  Context (u : bool) (lm : libm).
  Lemma t_srgb_lab i w : tame u (srgb_to_lab_f32 Debug lm i w) (srgb_to_lab_f32 Release lm i w). Proof. tm srgb_to_lab_f32. Qed.
  Lemma t_lab_srgb i w : tame u (lab_to_srgb_f32 Debug lm i w) (lab_to_srgb_f32 Release lm i w). Proof. tm lab_to_srgb_f32. Qed.
End Color4.
#[export] Hint Resolve t_srgb_lab t_lab_srgb : tame.

(** ** Tone.v *)
Section Tone1.
  Context (u : bool) (lm : libm).
  Lemma t_brightness_norm i b : tame u (brightness_rgb_norm Debug i b) (brightness_rgb_norm Release i b). Proof. tm brightness_rgb_norm. Qed.
  Lemma t_contrast_fn g i : tame u (contrast_fn g i) (contrast_fn g i). Proof. tm contrast_fn. Qed.
  Lemma t_saturation_norm i s : tame u (saturation_norm Debug i s) (saturation_norm Release i s). Proof. tm saturation_norm. Qed.
End Tone1.
#[export] Hint Resolve t_brightness_norm t_contrast_fn t_saturation_norm : tame.
Section Tone2.
  Context (u : bool) (lm : libm).
  Lemma t_brightness i b : tame u (brightness Debug false i b) (brightness Release false i b). Proof. unfold brightness. tame_tac. Qed.
  Lemma t_brightness_s s i b : tame true (brightness Debug s i b) (brightness Release s i b). Proof. tm brightness. Qed.
  Lemma t_contrast i g : tame u (contrast Debug i g) (contrast Release i g). Proof. tm contrast. Qed.
  Lemma t_saturation i d : tame u (saturation Debug false i d) (saturation Release false i d). Proof. unfold saturation. tame_tac. Qed.
  Lemma t_saturation_s s i d : tame true (saturation Debug s i d) (saturation Release s i d). Proof. tm saturation. Qed.
  Lemma t_brightness_lab i b : tame u (brightness_lab Debug lm i b) (brightness_lab Release lm i b). Proof. tm brightness_lab. Qed.
  Lemma t_contrast_lab i g : tame u (contrast_lab Debug lm i g) (contrast_lab Release lm i g). Proof. tm contrast_lab. Qed.
  Lemma t_gamma i g m : tame u (gamma Debug lm i g m) (gamma Release lm i g m). Proof. tm gamma. Qed.
  Lemma t_histeq i a w q : tame u (histogram_equalization Debug lm i a w q) (histogram_equalization Release lm i a w q). Proof. tm histogram_equalization. Qed.
End Tone2.

(** ** Morph.v *)
Section Morph1.
  Context (u : bool).
  Lemma t_window a b c d e : tame u (window Debug a b c d e) (window Release a b c d e). Proof. tm window. Qed.
  Lemma t_max_sum r : tame u (max_sum Debug r) (max_sum Release r). Proof. tm max_sum. Qed.
End Morph1.
#[export] Hint Resolve t_window t_max_sum : tame.
Lemma t_morph_scan u q i r : tame u (morph_scan Debug q i r) (morph_scan Release q i r). Proof. tm morph_scan. Qed.
#[export] Hint Resolve t_morph_scan : tame.
Section Morph2.
  Context (u : bool).
  Lemma t_erode i r : tame u (erode Debug i r) (erode Release i r). Proof. tm erode. Qed.
  Lemma t_dilate i r : tame u (dilate Debug i r) (dilate Release i r). Proof. tm dilate. Qed.
  Lemma t_majority i r : tame u (majority Debug i r) (majority Release i r). Proof. tm majority. Qed.
  Lemma t_gradient i r : tame u (gradient Debug i r) (gradient Release i r). Proof. tm gradient. Qed.
End Morph2.
#[export] Hint Resolve t_erode t_dilate t_majority t_gradient : tame.
Section Morph3.
  Context (u : bool).
  Lemma t_open i r : tame u (morph_open Debug i r) (morph_open Release i r). Proof. tm morph_open. Qed.
  Lemma t_close i r : tame u (morph_close Debug i r) (morph_close Release i r). Proof. tm morph_close. Qed.
End Morph3.

(** ** Transform.v *)
Section Tr1.
  Context (u : bool) {T : Type} (N : number T) (lm : libm).
  Implicit Types (img : image T).
  Lemma t_crop_check img x y w h : tame u (crop_check Debug img x y w h) (crop_check Release img x y w h). Proof. tm crop_check. Qed.
  Lemma t_superimpose a b x y l : tame u (superimpose Debug a b x y l) (superimpose Release a b x y l). Proof. tm superimpose. Qed.
  Lemma t_overlay img img2 x y : tame u (overlay Debug img img2 x y) (overlay Release img img2 x y). Proof. tm overlay. Qed.
  Lemma t_translate img x y : tame u (translate Debug N img x y) (translate Release N img x y). Proof. tm translate. Qed.
  Lemma t_reflect img a : tame u (reflect_image Debug N img a) (reflect_image Release N img a). Proof. tm reflect_image. Qed.
  Lemma t_nearest i a b x y : tame u (interpolate_nearest_neighbor Debug i a b x y) (interpolate_nearest_neighbor Release i a b x y). Proof. tm interpolate_nearest_neighbor. Qed.
  Lemma t_bilinear i a b x y : tame u (interpolate_bilinear Debug i a b x y) (interpolate_bilinear Release i a b x y). Proof. tm interpolate_bilinear. Qed.
  Lemma t_resample i r x y f : tame u (resample Debug i r x y f) (resample Release i r x y f). Proof. tm resample. Qed.
End Tr1.
#[export] Hint Resolve t_crop_check t_nearest t_bilinear t_resample : tame.
Section Tr2.
  Context (u : bool) {T : Type} (N : number T) (lm : libm).
  Implicit Types (img : image T).
  Lemma t_crop img x y w h : tame u (crop_seq Debug N img x y w h) (crop_seq Release N img x y w h). Proof. tm crop_seq. Qed.
  Lemma t_crop_par s img x y w h : tame u (crop_par Debug s img x y w h) (crop_par Release s img x y w h). Proof. tm crop_par. Qed.
  Lemma t_bicubic i a b x y : tame u (interpolate_bicubic Debug lm i a b x y) (interpolate_bicubic Release lm i a b x y). Proof. tm interpolate_bicubic. Qed.
  Lemma t_lanczos i a b s x y : tame u (interpolate_lanczos Debug lm i a b s x y) (interpolate_lanczos Release lm i a b s x y). Proof. tm interpolate_lanczos. Qed.
End Tr2.
#[export] Hint Resolve t_bicubic t_lanczos : tame.
Section Tr3.
  Context (u : bool) (lm : libm).
  Lemma t_interp m i a b x y : tame u (scale_interp Debug lm m i a b x y) (scale_interp Release lm m i a b x y). Proof. destruct m; cbn [scale_interp]; auto with tame nocore. Qed.
  Lemma t_loop_seq (f g : Z -> Z -> outcome (list f32)) o : (forall x y, tame u (f x y) (g x y)) -> tame u (scale_loop_seq Debug f o) (scale_loop_seq Release g o). Proof. tm scale_loop_seq. Qed.
  Lemma t_loop_par s (f g : Z -> Z -> outcome (list f32)) o : (forall x y, tame u (f x y) (g x y)) -> tame u (scale_loop_par Debug s f o) (scale_loop_par Release s g o). Proof. tm scale_loop_par. Qed.
End Tr3.
#[export] Hint Resolve t_interp : tame.
Ltac hook5 := first [hook4 | simple apply t_loop_seq | simple apply t_loop_par].
Ltac hook ::= hook5.
Section Tr4.
  Context (u : bool) (lm : libm).
  Lemma t_scale_seq i a b m : tame u (scale_seq Debug lm i a b m) (scale_seq Release lm i a b m). Proof. tm scale_seq. Qed.
  Lemma t_scale_par s i a b m : tame u (scale_par Debug lm s i a b m) (scale_par Release lm s i a b m). Proof. tm scale_par. Qed.
  Lemma t_scale_lanczos_seq i a b m : tame u (scale_lanczos_seq Debug lm i a b m) (scale_lanczos_seq Release lm i a b m). Proof. tm scale_lanczos_seq. Qed.
  Lemma t_scale_lanczos_par s i a b m : tame u (scale_lanczos_par Debug lm s i a b m) (scale_lanczos_par Release lm s i a b m). Proof. tm scale_lanczos_par. Qed.
  Lemma t_rotate_by i a b : tame u (rotate_by Debug i a b) (rotate_by Release i a b). Proof. tm rotate_by. Qed.
  Lemma t_shear i a b : tame u (shear Debug i a b) (shear Release i a b). Proof. tm shear. Qed.
End Tr4.
#[export] Hint Resolve t_rotate_by : tame.
Lemma t_rotate u lm i d : tame u (rotate Debug lm i d) (rotate Release lm i d). Proof. tm rotate. Qed.

(** ** Filter.v, Bilateral.v *)
Section Fi1.
  Context (u : bool) (b : build).
  Lemma t_filter_1d n i k v : tame u (filter_1d Debug b n i k v) (filter_1d Release b n i k v). Proof. tm filter_1d. Qed.
  Lemma t_unsep n i k : tame u (unseparable_filter Debug b n i k) (unseparable_filter Release b n i k). Proof. tm unseparable_filter. Qed.
  Lemma t_threshold i a c m : tame u (threshold Debug i a c m) (threshold Release i a c m). Proof. tm threshold. Qed.
  Lemma t_residual {T} (N : number T) (HN : tame_num N) i j : tame u (residual Debug N i j) (residual Release N i j). Proof. tm residual. Qed.
  Lemma t_min_by d : tame u (min_by_cmp d) (min_by_cmp d). Proof. tm min_by_cmp. Qed.
  Lemma t_max_by d : tame u (max_by_cmp d) (max_by_cmp d). Proof. tm max_by_cmp. Qed.
End Fi1.
#[export] Hint Resolve t_filter_1d t_unsep t_min_by t_max_by : tame.
Lemma t_sep u b n i k l : tame u (separable_filter Debug b n i k l) (separable_filter Release b n i k l). Proof. tm separable_filter. Qed.
#[export] Hint Resolve t_sep : tame.
Section Fi2.
  Context (u : bool) (b : build) (lm : libm) (svd : Z -> list f32 -> outcome (list f32 * list f32 * list f32)) (Hsvd : forall s d, svd s d <> UB).
  Lemma t_linear i k : tame u (linear_filter Debug b svd i k) (linear_filter Release b svd i k). Proof using Hsvd. tm linear_filter. Qed.
  Lemma t_box i s : tame u (box_filter Debug b i s) (box_filter Release b i s). Proof. tm box_filter. Qed.
  Lemma t_wavg i s w : tame u (weighted_avg_filter Debug b i s w) (weighted_avg_filter Release b i s w). Proof. tm weighted_avg_filter. Qed.
  Lemma t_sharpen i : tame u (sharpen Debug b i) (sharpen Release b i). Proof. tm sharpen. Qed.
  Lemma t_unsharp i : tame u (unsharp_masking Debug b i) (unsharp_masking Release b i). Proof. tm unsharp_masking. Qed.
  Lemma t_deriv i k l : tame u (derivative_mask Debug b lm i k l) (derivative_mask Release b lm i k l). Proof. tm derivative_mask. Qed.
  Lemma t_laplacian i : tame u (laplacian Debug b i) (laplacian Release b i). Proof. tm laplacian. Qed.
  Lemma t_log i s g : tame u (laplacian_of_gaussian Debug b lm i s g) (laplacian_of_gaussian Release b lm i s g). Proof. tm laplacian_of_gaussian. Qed.
  Lemma t_norm_lap i : tame u (normalize_laplacian Debug i) (normalize_laplacian Release i). Proof. tm normalize_laplacian. Qed.
End Fi2.
#[export] Hint Resolve t_linear t_deriv : tame.
Section Fi3.
  Context (u : bool) (b : build) (lm : libm) (svd : Z -> list f32 -> outcome (list f32 * list f32 * list f32)) (Hsvd : forall s d, svd s d <> UB).
  Lemma t_blur i s g : tame u (gaussian_blur Debug b lm svd i s g) (gaussian_blur Release b lm svd i s g). Proof using Hsvd. tm gaussian_blur. Qed.
  Lemma t_prewitt i : tame u (prewitt Debug b lm i) (prewitt Release b lm i). Proof. tm prewitt. Qed.
  Lemma t_sobel i : tame u (sobel Debug b lm i) (sobel Release b lm i). Proof. tm sobel. Qed.
  Lemma t_sobel_w i w : tame u (sobel_weighted Debug b lm i w) (sobel_weighted Release b lm i w). Proof. tm sobel_weighted. Qed.
  Lemma t_bil_channel s r m z c v : tame u (bilateral_channel Debug lm s r m z c v) (bilateral_channel Release lm s r m z c v). Proof. tm bilateral_channel. Qed.
End Fi3.
#[export] Hint Resolve t_bil_channel : tame.
Lemma t_bil_px u lm i r m z x y : tame u (bilateral_direct_pixel Debug lm i r m z x y) (bilateral_direct_pixel Release lm i r m z x y). Proof. tm bilateral_direct_pixel. Qed.
#[export] Hint Resolve t_bil_px : tame.
Lemma t_bilateral u lm b n i r s : tame u (bilateral_filter Debug lm b n i r s) (bilateral_filter Release lm b n i r s). Proof. tm bilateral_filter. Qed.

(** ** Median.v *)
Section Me1.
  Context (u : bool) (r nc : Z).
  Lemma t_bump d n q i c k : tame u (bump Debug d n q i c k) (bump Release d n q i c k). Proof. tm bump. Qed.
  Lemma t_unbump d n q i c k : tame u (unbump Debug d n q i c k) (unbump Release d n q i c k). Proof. tm unbump. Qed.
  Lemma t_get_count d k i : tame u (get_count Debug nc d k i) (get_count Release nc d k i). Proof. tm get_count. Qed.
  Lemma t_set_pivot h q i : tame u (set_pivot h q i) (set_pivot h q i). Proof. tm set_pivot. Qed.
  Lemma t_set_sum h q i : tame u (set_sum h q i) (set_sum h q i). Proof. tm set_sum. Qed.
End Me1.
#[export] Hint Resolve t_bump t_unbump t_get_count t_set_pivot t_set_sum : tame.
Section Me2.
  Context (u : bool) (r nc : Z).
  Lemma t_phist_update d q c a : tame u (phist_update Debug r nc d q c a) (phist_update Release r nc d q c a). Proof. tm phist_update. Qed.
  Lemma t_scan_up d i c ks s : tame u (scan_up Debug nc d i c ks s) (scan_up Release nc d i c ks s).
  Proof. revert s. induction ks as [|k ks IH]; intros s; cbn [scan_up]; tame_tac. Qed.
  Lemma t_scan_down d i c ks s : tame u (scan_down Debug nc d i c ks s) (scan_down Release nc d i c ks s).
  Proof. revert s. induction ks as [|k ks IH]; intros s; cbn [scan_down]; tame_tac. Qed.
  Lemma t_found h i q : tame u (found h i q) (found h i q). Proof. tm found. Qed.
  Lemma t_set_pivots h q i : tame u (set_pivots h q i) (set_pivots h q i). Proof. tm set_pivots. Qed.
  Lemma t_row_pixels i x y : tame u (row_pixels Debug r nc i x y) (row_pixels Release r nc i x y). Proof. tm row_pixels. Qed.
End Me2.
#[export] Hint Resolve t_phist_update t_scan_up t_scan_down t_found t_set_pivots t_row_pixels : tame.
Section Me3.
  Context (u : bool) (r nc : Z).
  Lemma t_medhist_update h q c a : tame u (medhist_update Debug r nc h q c a) (medhist_update Release r nc h q c a). Proof. tm medhist_update. Qed.
  Lemma t_first_step c i h : tame u (first_step Debug nc c i h) (first_step Release nc c i h). Proof. tm first_step. Qed.
  Lemma t_next_step c i h : tame u (next_step Debug nc c i h) (next_step Release nc c i h). Proof. tm next_step. Qed.
  Lemma t_process_row (f g : Z -> medhist -> outcome (medhist * list Z)) o hs x y : (forall i h, tame u (f i h) (g i h)) ->
    tame u (process_row Debug nc f o hs x y) (process_row Release nc g o hs x y).
  Proof. tm process_row. Qed.
End Me3.
#[export] Hint Resolve t_medhist_update t_first_step t_next_step : tame.
Ltac hook6 := first [hook5 | simple apply t_process_row].
Ltac hook ::= hook6.
Lemma t_update_all u r nc hs q c a : tame u (update_all Debug r nc hs q c a) (update_all Release r nc hs q c a).
Proof. revert c. induction hs as [|h hs IH]; intros c; cbn [update_all]; tame_tac. Qed.
#[export] Hint Resolve t_update_all : tame.
Lemma t_init_cols u r nc i o hs c x : tame u (init_cols Debug r nc i o hs c x) (init_cols Release r nc i o hs c x). Proof. tm init_cols. Qed.
Lemma t_next_row u r nc i c x st j : tame u (next_row Debug r nc i c x st j) (next_row Release r nc i c x st j). Proof. tm next_row. Qed.
#[export] Hint Resolve t_init_cols t_next_row : tame.
Lemma t_block_rows u r nc i o x e : tame u (block_rows Debug r nc i o x e) (block_rows Release r nc i o x e). Proof. tm block_rows. Qed.
#[export] Hint Resolve t_block_rows : tame.
Lemma t_process_cols u r nc i o x : tame u (process_cols Debug r nc i o x) (process_cols Release r nc i o x). Proof. tm process_cols. Qed.
#[export] Hint Resolve t_process_cols : tame.
Lemma t_median u lm i r : tame u (median_filter Debug lm i r) (median_filter Release lm i r). Proof. tm median_filter. Qed.

(** ** Trimmed.v *)
Section TM1.
  Context (u : bool) (bs : search) (r nc al : Z).
  Lemma t_vremove {A} (l : list A) i : tame u (vremove l i) (vremove l i). Proof. tm vremove. Qed.
  Lemma t_vinsert {A} (l : list A) i x : tame u (vinsert l i x) (vinsert l i x). Proof. tm vinsert. Qed.
  Lemma t_meanhist_new : tame u (meanhist_new Debug r nc al) (meanhist_new Release r nc al). Proof. tm meanhist_new. Qed.
  Lemma t_add_sum h n v : tame u (add_sum Debug h n v) (add_sum Release h n v). Proof. tm add_sum. Qed.
  Lemma t_sub_sum h n v : tame u (sub_sum Debug h n v) (sub_sum Release h n v). Proof. tm sub_sum. Qed.
  Lemma t_edit_lower h n f g : (forall l, tame u (f l) (g l)) -> tame u (edit_lower h n f) (edit_lower h n g). Proof. tm edit_lower. Qed.
  Lemma t_edit_upper h n f g : (forall l, tame u (f l) (g l)) -> tame u (edit_upper h n f) (edit_upper h n g). Proof. tm edit_upper. Qed.
  Lemma t_get_upper h n : tame u (get_upper Debug al h n) (get_upper Release al h n). Proof. tm get_upper. Qed.
  Lemma t_get_lower h n : tame u (get_lower Debug al h n) (get_lower Release al h n). Proof. tm get_lower. Qed.
  Lemma t_get_mean h n : tame u (get_mean r al h n) (get_mean r al h n). Proof. tm get_mean. Qed.
  Lemma t_first_key d n ks : tame u (first_key Debug nc d n ks) (first_key Release nc d n ks).
  Proof. induction ks as [|k ks IH]; cbn [first_key]; tame_tac. Qed.
  Lemma t_count_rest q c l v st j : tame u (count_rest Debug q c l v st j) (count_rest Release q c l v st j). Proof. tm count_rest. Qed.
  Lemma t_drop_run l x c : tame u (drop_run Debug l x c) (drop_run Release l x c).
  Proof. revert c. induction l as [|k l IH]; intros c; cbn [drop_run]; tame_tac. Qed.
  Lemma t_fill_lower f k l s a : tame u (fill_lower Debug al f k l s a) (fill_lower Release al f k l s a).
  Proof. revert l s a. induction f as [|f IH]; intros l s a; cbn [fill_lower]; tame_tac. Qed.
  Lemma t_fill_upper f k c t l s a : tame u (fill_upper Debug al f k c t l s a) (fill_upper Release al f k c t l s a).
  Proof. revert l s a. induction f as [|f IH]; intros l s a; cbn [fill_upper]; tame_tac. Qed.
End TM1.
#[export] Hint Resolve t_vremove t_vinsert t_meanhist_new t_add_sum t_sub_sum t_get_upper t_get_lower t_get_mean t_first_key t_count_rest t_drop_run t_fill_lower t_fill_upper : tame.
Ltac hook7 := first [hook6 | simple apply t_edit_lower | simple apply t_edit_upper].
Ltac hook ::= hook7.
Section TM2.
  Context (u : bool) (bs : search) (r nc al : Z).
  Lemma t_gnl h n c l : tame u (get_next_lower Debug nc h n c l) (get_next_lower Release nc h n c l). Proof. tm get_next_lower. Qed.
  Lemma t_gnu h n c l : tame u (get_next_upper Debug nc h n c l) (get_next_upper Release nc h n c l). Proof. tm get_next_upper. Qed.
  Lemma t_add_one q c n h i : tame u (add_one Debug bs al q c n h i) (add_one Release bs al q c n h i). Proof. tm add_one. Qed.
  Lemma t_scan_key d i t st k : tame u (scan_key Debug nc al d i t st k) (scan_key Release nc al d i t st k). Proof. tm scan_key. Qed.
End TM2.
#[export] Hint Resolve t_gnl t_gnu t_add_one t_scan_key : tame.
Section TM3.
  Context (u : bool) (bs : search) (r nc al : Z).
  Lemma t_remove_one q c n h i : tame u (remove_one Debug bs r nc al q c n h i) (remove_one Release bs r nc al q c n h i). Proof. tm remove_one. Qed.
  Lemma t_mean_first t i h : tame u (mean_first Debug r nc al t i h) (mean_first Release r nc al t i h). Proof. tm mean_first. Qed.
  Lemma t_mean_next i h : tame u (mean_next r al i h) (mean_next r al i h). Proof. tm mean_next. Qed.
  Lemma t_mean_row (f g : Z -> meanhist -> outcome (meanhist * Z)) o hs x y : (forall i h, tame u (f i h) (g i h)) ->
    tame u (mean_row Debug nc f o hs x y) (mean_row Release nc g o hs x y).
  Proof. tm mean_row. Qed.
End TM3.
#[export] Hint Resolve t_remove_one t_mean_first t_mean_next : tame.
Ltac hook8 := first [hook7 | simple apply t_mean_row].
Ltac hook ::= hook8.
Lemma t_meanhist_update u bs r nc al h q c a : tame u (meanhist_update Debug bs r nc al h q c a) (meanhist_update Release bs r nc al h q c a). Proof. tm meanhist_update. Qed.
#[export] Hint Resolve t_meanhist_update : tame.
Lemma t_mean_update_all u bs r nc al hs q c a : tame u (mean_update_all Debug bs r nc al hs q c a) (mean_update_all Release bs r nc al hs q c a).
Proof. revert c. induction hs as [|h hs IH]; intros c; cbn [mean_update_all]; tame_tac. Qed.
#[export] Hint Resolve t_mean_update_all : tame.
Lemma t_init_cols_mean u bs r nc al i o hs x : tame u (init_cols_mean Debug bs r nc al i o hs x) (init_cols_mean Release bs r nc al i o hs x). Proof. tm init_cols_mean. Qed.
Lemma t_mean_next_row u bs r nc al i x st j : tame u (mean_next_row Debug bs r nc al i x st j) (mean_next_row Release bs r nc al i x st j). Proof. tm mean_next_row. Qed.
#[export] Hint Resolve t_init_cols_mean t_mean_next_row : tame.
Lemma t_process_cols_mean u bs r nc al i o x : tame u (process_cols_mean Debug bs r nc al i o x) (process_cols_mean Release bs r nc al i o x). Proof. tm process_cols_mean. Qed.
#[export] Hint Resolve t_process_cols_mean : tame.
Lemma t_trimmed u bs lm i r al : tame u (alpha_trimmed_mean_filter Debug bs lm i r al) (alpha_trimmed_mean_filter Release bs lm i r al). Proof. tm alpha_trimmed_mean_filter. Qed.

#[export] Hint Resolve t_brightness t_brightness_s t_contrast t_saturation t_saturation_s t_brightness_lab t_contrast_lab t_gamma t_histeq t_open t_close
  t_crop t_crop_par t_superimpose t_overlay t_translate t_reflect t_scale_seq t_scale_par t_scale_lanczos_seq t_scale_lanczos_par t_shear t_rotate
  t_threshold t_residual t_box t_wavg t_sharpen t_unsharp t_laplacian t_log t_norm_lap t_blur t_prewitt t_sobel t_sobel_w t_bilateral t_median t_trimmed : tame.
