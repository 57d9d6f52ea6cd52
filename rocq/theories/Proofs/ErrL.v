(** * Which errors a call can return: lemmas for C102 *)
From Verif.Proofs Require Import BaseL.
From Verif.Model Require Import Base Float Image MathM Util Par Convert Simd Colorspace Filter Transform Tone Morph Bilateral Median Trimmed.
Open Scope Z_scope.

(** the only error that can come out is [InvalidArgError], and none at all when [w = false] *)
Definition only (w : bool) {A} (o : outcome A) : Prop := match o with Fail e => w = true /\ e = InvalidArgError | _ => True end.

Lemma only_bind w {A B} (a : outcome A) (f : A -> outcome B) : only w a -> (forall x, only w (f x)) -> only w (bind a f).
Proof. intros H K. destruct a; cbn [bind]; [apply K|exact H|exact I|exact I]. Qed.
Lemma only_unwrap w {A} (a : outcome A) : only w (unwrap a). Proof. destruct a; exact I. Qed.
Lemma only_mfold w {A S} (f : S -> A -> outcome S) : (forall s x, only w (f s x)) -> forall l s, only w (mfold f l s).
Proof. intros H. induction l as [|a l IH]; intros s; cbn [mfold]; [exact I|]. apply only_bind; [apply H|exact IH]. Qed.
Lemma only_mmap w {A B} (f : A -> outcome B) : (forall x, only w (f x)) -> forall l, only w (mmap f l).
Proof. intros H. induction l as [|a l IH]; cbn [mmap]; [exact I|]. apply only_bind; [apply H|]. intros b. apply only_bind; [exact IH|]. intros bs. exact I. Qed.
Lemma only_mwhile w {S} (c : S -> outcome bool) (f : S -> outcome S) : (forall s, only w (c s)) -> (forall s, only w (f s)) -> forall n s, only w (mwhile n c f s).
Proof.
  intros Hc H. induction n as [|n IH]; intros s; cbn [mwhile]; [exact I|]. apply only_bind; [apply Hc|]. intros []; [|exact I]. apply only_bind; [apply H|exact IH].
Qed.
Lemma only_arith w p t x : only w (arith p t x). Proof. unfold arith. destruct (in_ity t x); [exact I|destruct p; exact I]. Qed.
Lemma only_Ret w {A} (a : A) : only w (Ret a). Proof. exact I. Qed.
Lemma only_Panic w {A} : only w (@Panic A). Proof. exact I. Qed.
Lemma only_UB w {A} : only w (@UB A). Proof. exact I. Qed.
Lemma only_Fail {A} : only true (@Fail A InvalidArgError). Proof. split; reflexivity. Qed.

Create HintDb only discriminated.
Ltac hook := fail.
Ltac tstep :=
  match goal with
  | |- forall _, _ => intro
  | |- only _ (Ret _) => exact I
  | |- only _ Panic => exact I
  | |- only _ UB => exact I
  | |- only true (Fail InvalidArgError) => apply only_Fail
  | |- only _ (bind _ _) => apply only_bind
  | |- only _ (unwrap _) => apply only_unwrap
  | |- only _ (mfold _ _ _) => apply only_mfold
  | |- only _ (mmap _ _) => apply only_mmap
  | |- only _ (arith _ _ _) => apply only_arith
  | |- only _ (match ?x with _ => _ end) => destruct x
  | |- only _ (match ?x with _ => _ end _) => destruct x
  | |- _ => solve [auto 3 with only nocore]
  | |- _ => hook
  | |- _ => progress cbv beta zeta
  end.
Ltac only_tac := cbv beta zeta; repeat tstep.
Tactic Notation "tm" reference(f) := intros; unfold f; only_tac.

(** ** Base *)
Section Base.
  Context (u : bool) (p : profile).
  Lemma r_iadd t a b : only u (iadd p t a b). Proof. apply only_arith. Qed.
  Lemma r_isub t a b : only u (isub p t a b). Proof. apply only_arith. Qed.
  Lemma r_imul t a b : only u (imul p t a b). Proof. apply only_arith. Qed.
  Lemma r_iabs t a : only u (iabs p t a). Proof. apply only_arith. Qed.
  Lemma r_ineg t a : only u (ineg p t a). Proof. apply only_arith. Qed.
  Lemma r_idiv t a b : only u (idiv t a b). Proof. tm idiv. Qed.
  Lemma r_irem t a b : only u (irem t a b). Proof. tm irem. Qed.
  Lemma r_iclamp a b c : only u (iclamp a b c). Proof. tm iclamp. Qed.
  Lemma r_zrange_step a b c : only u (zrange_step a b c). Proof. tm zrange_step. Qed.
  Lemma r_vget {A} (v : list A) i : only u (vget v i). Proof. tm vget. Qed.
  Lemma r_vset {A} (v : list A) i x : only u (vset v i x). Proof. tm vset. Qed.
  Lemma r_vslice {A} (v : list A) a b : only u (vslice v a b). Proof. tm vslice. Qed.
  Lemma r_vcopy {A} (v : list A) a b s : only u (vcopy v a b s). Proof. tm vcopy. Qed.
  Lemma r_f32_clamp x a b : only u (f32_clamp x a b). Proof. tm f32_clamp. Qed.
End Base.
#[export] Hint Resolve r_iadd r_isub r_imul r_iabs r_ineg r_idiv r_irem r_iclamp r_zrange_step r_vget r_vset r_vslice r_vcopy r_f32_clamp : only.

(** ** channel types *)
Definition only_num {T} (N : number T) : Prop := forall w p a b,
  only w (n_add N p a b) /\ only w (n_sub N p a b) /\ only w (n_mul N p a b) /\ only w (n_div N p a b) /\ only w (n_rem N p a b).
Lemma num_int_only t : only_num (num_int t).
Proof. intros u p a b. cbn. auto 10 with only. Qed.
Lemma num_f32_only : only_num num_f32.
Proof. intros u p a b. cbn. repeat split. Qed.
Lemma num_f64_only : only_num num_f64.
Proof. intros u p a b. cbn. repeat split. Qed.
Section Num.
  Context {T} (N : number T) (HN : only_num N) (w : bool) (p : profile).
  Lemma r_nadd a b : only w (n_add N p a b). Proof using HN. apply HN. Qed.
  Lemma r_nsub a b : only w (n_sub N p a b). Proof using HN. apply HN. Qed.
  Lemma r_nmul a b : only w (n_mul N p a b). Proof using HN. apply HN. Qed.
  Lemma r_nrem a b : only w (n_rem N p a b). Proof using HN. apply HN. Qed.
End Num.
#[export] Hint Resolve num_int_only num_f32_only num_f64_only r_nadd r_nsub r_nmul r_nrem : only.
Lemma num_u8_only : only_num num_u8. Proof. apply num_int_only. Qed.
#[export] Hint Resolve num_u8_only : only.

(** ** Image.v *)
Section Image.
  Context (u : bool) (p : profile).
  Lemma r_check_channels a b : only u (check_channels a b). Proof. tm check_channels. Qed.
  Lemma r_check_xy a b c d : only u (check_xy a b c d). Proof. tm check_xy. Qed.
  Lemma r_check_odd {T} (N : number T) (HN : only_num N) v : only true (check_odd p N v). Proof. tm check_odd. Qed.
  Lemma r_check_even {T} (N : number T) (HN : only_num N) v : only true (check_even p N v). Proof. tm check_even. Qed.
  Lemma r_check_non_neg {T} (N : number T) v : only true (check_non_neg N v). Proof. tm check_non_neg. Qed.
  Lemma r_check_in_range {T} (N : number T) v a b : only true (check_in_range N v a b). Proof. tm check_in_range. Qed.
  Lemma r_check_equal_Z a b : only true (check_equal_Z a b). Proof. tm check_equal_Z. Qed.
  Lemma r_check_equal_info a b : only true (check_equal_info a b). Proof. tm check_equal_info. Qed.
  Lemma r_check_square a : only true (check_square a). Proof. tm check_square. Qed.
  Lemma r_check_grayscale {T} (i : image T) : only true (check_grayscale i). Proof. tm check_grayscale. Qed.
End Image.
#[export] Hint Resolve r_check_channels r_check_xy r_check_odd r_check_even r_check_non_neg r_check_in_range r_check_equal_Z r_check_equal_info r_check_square r_check_grayscale : only.

Section Img.
  Context (u : bool) (p : profile) {T : Type}.
  Implicit Types (img : image T) (px : list T).
  Lemma r_px_alpha px : only u (px_alpha p px). Proof. tm px_alpha. Qed.
  Lemma r_px_cwa px : only u (px_channels_without_alpha p px). Proof. tm px_channels_without_alpha. Qed.
  Lemma r_channels_non_alpha i : only u (channels_non_alpha p i). Proof. tm channels_non_alpha. Qed.
  Lemma r_size i : only u (size p i). Proof. tm size. Qed.
  Lemma r_full_size i : only u (full_size p i). Proof. tm full_size. Qed.
  Lemma r_fvv w h c a (d : list (list T)) : only u (from_vec_of_vec p w h c a d). Proof. tm from_vec_of_vec. Qed.
  Lemma r_fvs w h c a (d : list (list T)) : only u (from_vec_of_slice p w h c a d). Proof. tm from_vec_of_slice. Qed.
End Img.
#[export] Hint Resolve r_px_alpha r_px_cwa r_channels_non_alpha r_size r_full_size r_fvv r_fvs : only.
Section Img2.
  Context (u : bool) (p : profile) {T : Type}.
  Implicit Types (img : image T) (px : list T).
  Lemma r_px_is_black_alpha (N : number T) px : only u (px_is_black_alpha p N px). Proof. tm px_is_black_alpha. Qed.
  Lemma r_blank (N : number T) i : only u (blank p N i). Proof. tm blank. Qed.
  Lemma r_empty i : only u (@empty p T i). Proof. tm empty. Qed.
  Lemma r_index img x y : only u (index p img x y). Proof. tm index. Qed.
  Lemma r_img_index img i : only u (img_index p img i). Proof. tm img_index. Qed.
  Lemma r_nb_coord a b c d : only u (nb_coord p a b c d). Proof. tm nb_coord. Qed.
End Img2.
#[export] Hint Resolve r_px_is_black_alpha r_blank r_empty r_index r_img_index r_nb_coord : only.
Section Img3.
  Context (u : bool) (p : profile) {T : Type}.
  Implicit Types (img : image T) (px : list T).
  Lemma r_get_pixel img x y : only u (get_pixel p img x y). Proof. tm get_pixel. Qed.
  Lemma r_get_pixel_unchecked img x y : only u (get_pixel_unchecked p img x y). Proof. tm get_pixel_unchecked. Qed.
  Lemma r_set_pixel img x y px : only u (set_pixel p img x y px). Proof. tm set_pixel. Qed.
  Lemma r_set_pixel_indexed img i px : only u (set_pixel_indexed p img i px). Proof. tm set_pixel_indexed. Qed.
End Img3.
#[export] Hint Resolve r_get_pixel r_get_pixel_unchecked r_set_pixel r_set_pixel_indexed : only.
Section Img4.
  Context (u : bool) (p : profile) {T S : Type}.
  Implicit Types (img : image T) (px : list T).
  Lemma r_img_index_mut img i f : (forall x, only u (f x)) -> only u (img_index_mut p img i f). Proof. tm img_index_mut. Qed.
  Lemma r_get_subimage img x y w h : only u (get_subimage p img x y w h). Proof. tm get_subimage. Qed.
  Lemma r_nb1 img x y s v : only u (get_neighborhood_1d p img x y s v). Proof. tm get_neighborhood_1d. Qed.
  Lemma r_nb2 img x y s : only u (get_neighborhood_2d p img x y s). Proof. tm get_neighborhood_2d. Qed.
  Lemma r_sub_index (s : subimage T) i : only u (sub_index s i). Proof. tm sub_index. Qed.
  Lemma r_map_pixels (f : list T -> outcome (list S)) img : (forall x, only u (f x)) -> only u (map_pixels p f img).
  Proof. tm map_pixels. Qed.
  Lemma r_map_channels (f : T -> outcome S) img : (forall x, only u (f x)) -> only u (map_channels p f img).
  Proof. tm map_channels. Qed.
  Lemma r_px_map_alpha (f g : T -> outcome S) px : (forall x, only u (f x)) -> (forall x, only u (g x)) ->
    only u (px_map_alpha p f g px).
  Proof. tm px_map_alpha. Qed.
  Lemma r_px_apply_alpha (f g : T -> outcome T) px : (forall x, only u (f x)) -> (forall x, only u (g x)) ->
    only u (px_apply_alpha p f g px).
  Proof. tm px_apply_alpha. Qed.
  Lemma r_apply_pixels (f : list T -> outcome (list T)) img : (forall x, only u (f x)) -> only u (apply_pixels p f img).
  Proof. tm apply_pixels. Qed.
  Lemma r_apply_channels (f : T -> outcome T) img : (forall x, only u (f x)) -> only u (apply_channels p f img).
  Proof. tm apply_channels. Qed.
  Lemma r_edit_channel (f : T -> outcome T) k img : (forall x, only u (f x)) -> only u (edit_channel p f k img).
  Proof. tm edit_channel. Qed.
  Lemma r_get_pixel_mut img x y f : (forall x, only u (f x)) -> only u (get_pixel_mut p img x y f). Proof. tm get_pixel_mut. Qed.
End Img4.
#[export] Hint Resolve r_get_subimage r_nb1 r_nb2 r_sub_index : only.
Ltac hook ::= first [simple apply r_img_index_mut | simple apply r_map_pixels | simple apply r_map_channels | simple apply r_px_map_alpha | simple apply r_px_apply_alpha
  | simple apply r_apply_pixels | simple apply r_apply_channels | simple apply r_edit_channel | simple apply r_get_pixel_mut].

Section Img5.
  Context (u : bool) (p : profile) {T S : Type}.
  Implicit Types (img : image T).
  Lemma r_map_pixels_if_alpha (f : list T -> outcome (list S)) (g : T -> outcome S) img : (forall x, only u (f x)) -> (forall x, only u (g x)) ->
    only u (map_pixels_if_alpha p f g img).
  Proof. tm map_pixels_if_alpha. Qed.
  Lemma r_map_channels_if_alpha (f g : T -> outcome S) img : (forall x, only u (f x)) -> (forall x, only u (g x)) ->
    only u (map_channels_if_alpha p f g img).
  Proof. tm map_channels_if_alpha. Qed.
  Lemma r_apply_pixels_if_alpha (f : list T -> outcome (list T)) (g : T -> outcome T) img : (forall x, only u (f x)) -> (forall x, only u (g x)) ->
    only u (apply_pixels_if_alpha p f g img).
  Proof. tm apply_pixels_if_alpha. Qed.
  Lemma r_apply_channels_if_alpha (f g : T -> outcome T) img : (forall x, only u (f x)) -> (forall x, only u (g x)) ->
    only u (apply_channels_if_alpha p f g img).
  Proof. tm apply_channels_if_alpha. Qed.
  Lemma r_get_pixel_mut_unchecked img x y f : (forall x, only u (f x)) -> only u (get_pixel_mut_unchecked p img x y f).
  Proof. tm get_pixel_mut_unchecked. Qed.
  Lemma r_sub_get_pixel (s : subimage T) x y : only u (sub_get_pixel p s x y). Proof. tm sub_get_pixel. Qed.
  Lemma r_sub_to_vec (s : subimage T) : only u (sub_to_vec p s). Proof. tm sub_to_vec. Qed.
  Lemma r_iter_new img : only u (iter_new p img). Proof. tm iter_new. Qed.
  Lemma r_iter_next img it : only u (iter_next p img it). Proof. tm iter_next. Qed.
  Lemma r_iter_size_hint it : only u (iter_size_hint p it). Proof. tm iter_size_hint. Qed.
End Img5.
#[export] Hint Resolve r_sub_get_pixel r_sub_to_vec r_iter_new r_iter_next r_iter_size_hint : only.
Ltac hook1 := first [simple apply r_img_index_mut | simple apply r_map_pixels | simple apply r_map_channels | simple apply r_px_map_alpha | simple apply r_px_apply_alpha
  | simple apply r_apply_pixels | simple apply r_apply_channels | simple apply r_edit_channel | simple apply r_get_pixel_mut
  | simple apply r_map_pixels_if_alpha | simple apply r_map_channels_if_alpha | simple apply r_apply_pixels_if_alpha | simple apply r_apply_channels_if_alpha
  | simple apply r_get_pixel_mut_unchecked].
Ltac hook ::= hook1.

Section Conv0.
  Context (u : bool) (p : profile).
  Lemma r_from_u8_f32 i : only u (from_u8_f32 p i). Proof. tm from_u8_f32. Qed.
  Lemma r_from_uint_f64 i : only u (from_uint_f64 p i). Proof. tm from_uint_f64. Qed.
  Lemma r_from_f32_f64 i : only u (from_f32_f64 p i). Proof. tm from_f32_f64. Qed.
  Lemma r_from_f64_u8 i : only u (from_f64_u8 p i). Proof. tm from_f64_u8. Qed.
  Lemma r_from_f32_u8 i : only u (from_f32_u8 p i). Proof. tm from_f32_u8. Qed.
  Lemma r_scale_channels i a b c d : only u (scale_channels p i a b c d). Proof. tm scale_channels. Qed.
  Lemma r_f32_to_u8_scale i s : only u (f32_to_u8_scale p i s). Proof. tm f32_to_u8_scale. Qed.
  Lemma r_u8_to_f32_scale i s : only u (u8_to_f32_scale p i s). Proof. tm u8_to_f32_scale. Qed.
End Conv0.
#[export] Hint Resolve r_from_u8_f32 r_from_uint_f64 r_from_f32_f64 r_from_f64_u8 r_from_f32_u8 r_scale_channels r_f32_to_u8_scale r_u8_to_f32_scale : only.

(** ** MathM.v *)
Section Math1.
  Context (u : bool) (p : profile) {T : Type} (N : number T) (HN : only_num N).
  Lemma r_vml m i r o : only u (vector_mul_loop p N m i r o). Proof using HN. tm vector_mul_loop. Qed.
  Lemma r_kernel_tap i k n o : only u (kernel_tap i k n o). Proof using. tm kernel_tap. Qed.
  Lemma r_gaussian_fn lm x s : only true (gaussian_fn lm x s). Proof using. tm gaussian_fn. Qed.
End Math1.
#[export] Hint Resolve r_vml r_kernel_tap r_gaussian_fn : only.
Section Math2.
  Context (u : bool) (p : profile) {T : Type} (N : number T) (HN : only_num N).
  Lemma r_vector_mul m i : only true (vector_mul p N m i). Proof using HN. tm vector_mul. Qed.
  Lemma r_vector_mul_mut m i o : only true (vector_mul_mut p N m i o). Proof using HN. tm vector_mul_mut. Qed.
  Lemma r_k1s i o k : only true (apply_1d_kernel_seq p i o k). Proof using. tm apply_1d_kernel_seq. Qed.
  Lemma r_k1p i k : only true (apply_1d_kernel_par p i k). Proof using. tm apply_1d_kernel_par. Qed.
  Lemma r_2dl i k s o : only u (apply_2d_loop p i k s o). Proof using. tm apply_2d_loop. Qed.
End Math2.
#[export] Hint Resolve r_vector_mul r_vector_mul_mut r_k1s r_k1p r_2dl : only.
Section Math3.
  Context (u : bool) (p : profile).
  Lemma r_k2s i o k : only true (apply_2d_kernel_seq p i o k). Proof using. tm apply_2d_kernel_seq. Qed.
  Lemma r_k2p i k : only true (apply_2d_kernel_par p i k). Proof using. tm apply_2d_kernel_par. Qed.
  Lemma r_separate_kernel svd k : only u (separate_kernel svd k). Proof. tm separate_kernel. Qed.
End Math3.
#[export] Hint Resolve r_k2s r_k2p r_separate_kernel : only.

(** ** Util.v *)
Section Util1.
  Context (u : bool) (p : profile).
  Lemma r_btree_bump m k : only u (btree_bump p m k).
  Proof. induction m as [|[k' v] m IH]; cbn [btree_bump]; only_tac. Qed.
  Lemma r_hist_key a px : only u (hist_key a px). Proof. tm hist_key. Qed.
  Lemma r_lookup {T} (t : list T) f : (forall x, only u (f x)) -> only u (generate_lookup_table t f). Proof. tm generate_lookup_table. Qed.
  Lemma r_kernel_fill f s : only u (kernel_fill p f s). Proof. tm kernel_fill. Qed.
  Lemma r_mat_put s g m a b : only u (mat_put p s g m a b). Proof. tm mat_put. Qed.
  Lemma r_get_2d_coords i w : only u (get_2d_coords p i w). Proof. tm get_2d_coords. Qed.
  Lemma r_sat i : only u (generate_summed_area_table p i). Proof. tm generate_summed_area_table. Qed.
  Lemma r_ris i a b c d : only u (rectangular_intensity_sum p i a b c d). Proof. tm rectangular_intensity_sum. Qed.
End Util1.
#[export] Hint Resolve r_btree_bump r_hist_key r_kernel_fill r_mat_put r_get_2d_coords r_sat r_ris : only.
Ltac hook2 := first [hook1 | simple apply r_lookup].
Ltac hook ::= hook2.
Section Util2.
  Context (u : bool) (p : profile) (lm : libm).
  Lemma r_ghp i h q : only u (generate_histogram_percentiles p i h q). Proof. tm generate_histogram_percentiles. Qed.
  Lemma r_ggk s g : only true (generate_gaussian_kernel p lm s g). Proof. tm generate_gaussian_kernel. Qed.
  Lemma r_glk s g : only true (generate_log_kernel p lm s g). Proof. tm generate_log_kernel. Qed.
  Lemma r_gsm s g : only true (generate_spatial_mat p lm s g). Proof. tm generate_spatial_mat. Qed.
  Lemma r_par {A} sched n (f : Z -> outcome A) : (forall x, only u (f x)) -> only u (par_collect sched n f). Proof. tm par_collect. Qed.
End Util2.
#[export] Hint Resolve r_ghp r_ggk r_glk r_gsm : only.
Ltac hook3 := first [hook2 | simple apply r_par].
Ltac hook ::= hook3.

(** ** Simd.v *)
Section SimdA.
  Context (u : bool).
  Context (p : profile).
  Lemma r_add_clamped a b : only u (add_clamped p a b). Proof. tm add_clamped. Qed.
  Lemma r_loadu v i : only u (loadu v i). Proof. tm loadu. Qed.
  Lemma r_store v i r : only u (store v i r). Proof. tm store. Qed.
  Lemma r_storeu2 v i j r : only u (storeu2 v i j r). Proof. intros. unfold storeu2. apply only_bind; intros; apply r_store. Qed.
  Lemma r_deinterleave i o c : only u (deinterleave p i o c). Proof. tm deinterleave. Qed.
End SimdA.
#[export] Hint Resolve r_add_clamped r_loadu r_store r_storeu2 r_deinterleave : only.
Ltac hook4 := first [hook3 | simple apply only_mwhile].
Ltac hook ::= hook4.
Section SimdB.
  Context (u : bool).
  Context (p : profile).
  Lemma r_adds_loop i n s v r : only u (adds_loop p i n s v r). Proof. tm adds_loop. Qed.
  Lemma r_avg i : only u (avg_256_u8 p i). Proof. tm avg_256_u8. Qed.
  Lemma r_avg_alpha i : only u (avg_alpha_256_u8 p i). Proof. tm avg_alpha_256_u8. Qed.
End SimdB.
#[export] Hint Resolve r_adds_loop r_avg r_avg_alpha : only.
Section SimdC.
  Context (u : bool).
  Context (p : profile).
  Lemma r_adds i v : only u (adds_256_u8 p i v). Proof. tm adds_256_u8. Qed.
  Lemma r_adds_n i v n : only u (adds_n_256_u8 p i v n). Proof. tm adds_n_256_u8. Qed.
  Lemma r_avg_checked i : only u (avg_checked_256_u8 p i). Proof. tm avg_checked_256_u8. Qed.
End SimdC.
#[export] Hint Resolve r_adds r_adds_n r_avg_checked : only.

(** ** Colorspace.v *)
Section Color1.
  Context (u : bool) (p : profile) (lm : libm).
  Lemma r_gray_norm_px c : only u (gray_norm_px p c). Proof. tm gray_norm_px. Qed.
  Lemma r_gray_f32_px c : only u (gray_f32_px c). Proof. tm gray_f32_px. Qed.
  Lemma r_rgb_to_hsv_px c : only u (rgb_to_hsv_px p c). Proof. tm rgb_to_hsv_px. Qed.
  Lemma r_hsv_to_rgb_px c : only u (hsv_to_rgb_px p c). Proof. tm hsv_to_rgb_px. Qed.
  Lemma r_rgb_to_hsv_f32_px c : only u (rgb_to_hsv_f32_px p c). Proof. tm rgb_to_hsv_f32_px. Qed.
  Lemma r_hsv_to_rgb_f32_px c : only u (hsv_to_rgb_f32_px c). Proof. tm hsv_to_rgb_f32_px. Qed.
  Lemma r_xyz_to_lab_px w c : only u (xyz_to_lab_px lm w c). Proof. tm xyz_to_lab_px. Qed.
  Lemma r_lab_to_xyz_px w c : only u (lab_to_xyz_px lm w c). Proof. tm lab_to_xyz_px. Qed.
End Color1.
#[export] Hint Resolve r_gray_norm_px r_gray_f32_px r_rgb_to_hsv_px r_hsv_to_rgb_px r_rgb_to_hsv_f32_px r_hsv_to_rgb_f32_px r_xyz_to_lab_px r_lab_to_xyz_px : only.
Section Color2.
  Context (u : bool) (p : profile) (lm : libm).
  Lemma r_gray_norm i : only u (rgb_to_grayscale_norm p i). Proof. tm rgb_to_grayscale_norm. Qed.
  Lemma r_gray_f32 i : only u (rgb_to_grayscale_f32 p i). Proof. tm rgb_to_grayscale_f32. Qed.
  Lemma r_rgb_to_hsv i : only u (rgb_to_hsv p i). Proof. tm rgb_to_hsv. Qed.
  Lemma r_hsv_to_rgb i : only u (hsv_to_rgb p i). Proof. tm hsv_to_rgb. Qed.
  Lemma r_rgb_to_hsv_f32 i : only u (rgb_to_hsv_f32 p i). Proof. tm rgb_to_hsv_f32. Qed.
  Lemma r_hsv_to_rgb_f32 i : only u (hsv_to_rgb_f32 p i). Proof. tm hsv_to_rgb_f32. Qed.
  Lemma r_lin_xyz i : only u (srgb_lin_to_xyz_f32 p i). Proof. tm srgb_lin_to_xyz_f32. Qed.
  Lemma r_xyz_lin i : only u (xyz_to_srgb_lin_f32 p i). Proof. tm xyz_to_srgb_lin_f32. Qed.
  Lemma r_linearize i : only u (linearize_srgb_f32 p lm i). Proof. tm linearize_srgb_f32. Qed.
  Lemma r_unlinearize i : only u (unlinearize_srgb_f32 p lm i). Proof. tm unlinearize_srgb_f32. Qed.
  Lemma r_xyz_lab i w : only u (xyz_to_lab_f32 p lm i w). Proof. tm xyz_to_lab_f32. Qed.
  Lemma r_lab_xyz i w : only u (lab_to_xyz_f32 p lm i w). Proof. tm lab_to_xyz_f32. Qed.
End Color2.
#[export] Hint Resolve r_gray_norm r_gray_f32 r_rgb_to_hsv r_hsv_to_rgb r_rgb_to_hsv_f32 r_hsv_to_rgb_f32 r_lin_xyz r_xyz_lin r_linearize r_unlinearize r_xyz_lab r_lab_xyz : only.
Section Color3.
  Context (u : bool) (p : profile) (lm : libm).
  Lemma r_gray i : only u (rgb_to_grayscale p false i). Proof. unfold rgb_to_grayscale. only_tac. Qed.
  Lemma r_gray_s s i : only u (rgb_to_grayscale p s i). Proof. tm rgb_to_grayscale. Qed.
  Lemma r_srgb_xyz i : only u (srgb_to_xyz_f32 p lm i). Proof. tm srgb_to_xyz_f32. Qed.
  Lemma r_xyz_srgb i : only u (xyz_to_srgb_f32 p lm i). Proof. tm xyz_to_srgb_f32. Qed.
End Color3.
#[export] Hint Resolve r_gray r_gray_s r_srgb_xyz r_xyz_srgb : only.
Section Color4.
  Context (u : bool) (p : profile) (lm : libm).
  Lemma r_srgb_lab i w : only u (srgb_to_lab_f32 p lm i w). Proof. tm srgb_to_lab_f32. Qed.
  Lemma r_lab_srgb i w : only u (lab_to_srgb_f32 p lm i w). Proof. tm lab_to_srgb_f32. Qed.
End Color4.
#[export] Hint Resolve r_srgb_lab r_lab_srgb : only.

(** ** Tone.v *)
Section Tone1.
  Context (u : bool) (p : profile) (lm : libm).
  Lemma r_brightness_norm i b : only u (brightness_rgb_norm p i b). Proof. tm brightness_rgb_norm. Qed.
  Lemma r_contrast_fn g i : only u (contrast_fn g i). Proof. tm contrast_fn. Qed.
  Lemma r_saturation_norm i s : only u (saturation_norm p i s). Proof. tm saturation_norm. Qed.
End Tone1.
#[export] Hint Resolve r_brightness_norm r_contrast_fn r_saturation_norm : only.
Section Tone2.
  Context (u : bool) (p : profile) (lm : libm).
  Lemma r_brightness i b : only true (brightness p false i b). Proof. unfold brightness. only_tac. Qed.
  Lemma r_brightness_s s i b : only true (brightness p s i b). Proof. tm brightness. Qed.
  Lemma r_contrast i g : only true (contrast p i g). Proof. tm contrast. Qed.
  Lemma r_saturation i d : only true (saturation p false i d). Proof. unfold saturation. only_tac. Qed.
  Lemma r_saturation_s s i d : only true (saturation p s i d). Proof. tm saturation. Qed.
  Lemma r_brightness_lab i b : only true (brightness_lab p lm i b). Proof. tm brightness_lab. Qed.
  Lemma r_contrast_lab i g : only true (contrast_lab p lm i g). Proof. tm contrast_lab. Qed.
  Lemma r_gamma i g m : only true (gamma p lm i g m). Proof. tm gamma. Qed.
  Lemma r_histeq i a w q : only true (histogram_equalization p lm i a w q). Proof. tm histogram_equalization. Qed.
End Tone2.

(** ** Morph.v *)
Section Morph1.
  Context (u : bool) (p : profile).
  Lemma r_window a b c d e : only u (window p a b c d e). Proof. tm window. Qed.
  Lemma r_max_sum r : only u (max_sum p r). Proof. tm max_sum. Qed.
End Morph1.
#[export] Hint Resolve r_window r_max_sum : only.
Lemma r_morph_scan u p q i r : only u (morph_scan p q i r). Proof. tm morph_scan. Qed.
#[export] Hint Resolve r_morph_scan : only.
Section Morph2.
  Context (u : bool) (p : profile).
  Lemma r_erode i r : only true (erode p i r). Proof. tm erode. Qed.
  Lemma r_dilate i r : only true (dilate p i r). Proof. tm dilate. Qed.
  Lemma r_majority i r : only true (majority p i r). Proof. tm majority. Qed.
  Lemma r_gradient i r : only true (gradient p i r). Proof. tm gradient. Qed.
End Morph2.
#[export] Hint Resolve r_erode r_dilate r_majority r_gradient : only.
Section Morph3.
  Context (u : bool) (p : profile).
  Lemma r_open i r : only true (morph_open p i r). Proof. tm morph_open. Qed.
  Lemma r_close i r : only true (morph_close p i r). Proof. tm morph_close. Qed.
End Morph3.

(** ** Transform.v *)
Section Tr1.
  Context (u : bool) (p : profile) {T : Type} (N : number T) (lm : libm).
  Implicit Types (img : image T).
  Lemma r_crop_check img x y w h : only true (crop_check p img x y w h). Proof. tm crop_check. Qed.
  Lemma r_superimpose a b x y l : only true (superimpose p a b x y l). Proof. tm superimpose. Qed.
  Lemma r_overlay img img2 x y : only true (overlay p img img2 x y). Proof. tm overlay. Qed.
  Lemma r_translate img x y : only u (translate p N img x y). Proof. tm translate. Qed.
  Lemma r_reflect img a : only u (reflect_image p N img a). Proof. tm reflect_image. Qed.
  Lemma r_nearest i a b x y : only u (interpolate_nearest_neighbor p i a b x y). Proof. tm interpolate_nearest_neighbor. Qed.
  Lemma r_bilinear i a b x y : only u (interpolate_bilinear p i a b x y). Proof. tm interpolate_bilinear. Qed.
  Lemma r_resample i r x y f : only u (resample p i r x y f). Proof. tm resample. Qed.
End Tr1.
#[export] Hint Resolve r_crop_check r_nearest r_bilinear r_resample : only.
Section Tr2.
  Context (u : bool) (p : profile) {T : Type} (N : number T) (lm : libm).
  Implicit Types (img : image T).
  Lemma r_crop img x y w h : only true (crop_seq p N img x y w h). Proof. tm crop_seq. Qed.
  Lemma r_crop_par s img x y w h : only true (crop_par p s img x y w h). Proof. tm crop_par. Qed.
  Lemma r_bicubic i a b x y : only u (interpolate_bicubic p lm i a b x y). Proof. tm interpolate_bicubic. Qed.
  Lemma r_lanczos i a b s x y : only u (interpolate_lanczos p lm i a b s x y). Proof. tm interpolate_lanczos. Qed.
End Tr2.
#[export] Hint Resolve r_bicubic r_lanczos : only.
Section Tr3.
  Context (u : bool) (p : profile) (lm : libm).
  Lemma r_interp m i a b x y : only u (scale_interp p lm m i a b x y). Proof. destruct m; cbn [scale_interp]; auto with only nocore. Qed.
  Lemma r_loop_seq (f : Z -> Z -> outcome (list f32)) o : (forall x y, only u (f x y)) -> only u (scale_loop_seq p f o). Proof. tm scale_loop_seq. Qed.
  Lemma r_loop_par s (f : Z -> Z -> outcome (list f32)) o : (forall x y, only u (f x y)) -> only u (scale_loop_par p s f o). Proof. tm scale_loop_par. Qed.
End Tr3.
#[export] Hint Resolve r_interp : only.
Ltac hook5 := first [hook4 | simple apply r_loop_seq | simple apply r_loop_par].
Ltac hook ::= hook5.
Section Tr4.
  Context (u : bool) (p : profile) (lm : libm).
  Lemma r_scale_seq i a b m : only true (scale_seq p lm i a b m). Proof. tm scale_seq. Qed.
  Lemma r_scale_par s i a b m : only true (scale_par p lm s i a b m). Proof. tm scale_par. Qed.
  Lemma r_scale_lanczos_seq i a b m : only true (scale_lanczos_seq p lm i a b m). Proof. tm scale_lanczos_seq. Qed.
  Lemma r_scale_lanczos_par s i a b m : only true (scale_lanczos_par p lm s i a b m). Proof. tm scale_lanczos_par. Qed.
End Tr4.
(** the matrix of a rotation or a shear has the right size *)
Lemma r_vm2 u p (a b c d x y : f32) : only u (vector_mul p num_f32 [a; b; c; d] [x; y]).
Proof.
  unfold vector_mul. change (idiv USIZE (len [a; b; c; d]) (len [x; y])) with (@Ret Z 2). cbn [bind]. change (check_equal_Z 2 (len [x; y])) with (Ret tt). cbn [bind].
  auto with only nocore.
Qed.
Lemma r_vmm2 u p (a b c d x y : f32) o : only u (vector_mul_mut p num_f32 [a; b; c; d] [x; y] o).
Proof.
  unfold vector_mul_mut. change (idiv USIZE (len [a; b; c; d]) (len [x; y])) with (@Ret Z 2). cbn [bind]. change (check_equal_Z 2 (len [x; y])) with (Ret tt). cbn [bind].
  only_tac.
Qed.
#[export] Hint Resolve r_vm2 r_vmm2 : only.
Lemma r_rotate_by u p i a b : only u (rotate_by p i a b). Proof. tm rotate_by. Qed.
Lemma r_shear u p i a b : only u (shear p i a b). Proof. tm shear. Qed.
#[export] Hint Resolve r_rotate_by : only.
Lemma r_rotate u p lm i d : only u (rotate p lm i d). Proof. tm rotate. Qed.

(** ** Filter.v, Bilateral.v *)
Section Fi1.
  Context (u : bool) (p : profile) (b : build).
  Lemma r_filter_1d n i k v : only true (filter_1d p b n i k v). Proof. tm filter_1d. Qed.
  Lemma r_unsep n i k : only true (unseparable_filter p b n i k). Proof. tm unseparable_filter. Qed.
  Lemma r_threshold i a c m : only true (threshold p i a c m). Proof. tm threshold. Qed.
  Lemma r_residual {T} (N : number T) (HN : only_num N) i j : only true (residual p N i j). Proof. tm residual. Qed.
  Lemma r_min_by d : only u (min_by_cmp d). Proof. tm min_by_cmp. Qed.
  Lemma r_max_by d : only u (max_by_cmp d). Proof. tm max_by_cmp. Qed.
End Fi1.
#[export] Hint Resolve r_filter_1d r_unsep r_min_by r_max_by : only.
Lemma r_sep p b n i k l : only true (separable_filter p b n i k l). Proof. tm separable_filter. Qed.
#[export] Hint Resolve r_sep : only.
Section Fi2.
  Context (u : bool) (p : profile) (b : build) (lm : libm) (svd : Z -> list f32 -> outcome (list f32 * list f32 * list f32)).
  Lemma r_linear i k : only true (linear_filter p b svd i k). Proof. tm linear_filter. Qed.
  Lemma r_box i s : only true (box_filter p b i s). Proof. tm box_filter. Qed.
  Lemma r_wavg i s w : only true (weighted_avg_filter p b i s w). Proof. tm weighted_avg_filter. Qed.
  Lemma r_sharpen i : only true (sharpen p b i). Proof. tm sharpen. Qed.
  Lemma r_unsharp i : only true (unsharp_masking p b i). Proof. tm unsharp_masking. Qed.
  Lemma r_deriv i k l : only true (derivative_mask p b lm i k l). Proof. tm derivative_mask. Qed.
  Lemma r_laplacian i : only true (laplacian p b i). Proof. tm laplacian. Qed.
  Lemma r_log i s g : only true (laplacian_of_gaussian p b lm i s g). Proof. tm laplacian_of_gaussian. Qed.
  Lemma r_norm_lap i : only true (normalize_laplacian p i). Proof. tm normalize_laplacian. Qed.
End Fi2.
#[export] Hint Resolve r_linear r_deriv : only.
Section Fi3.
  Context (u : bool) (p : profile) (b : build) (lm : libm) (svd : Z -> list f32 -> outcome (list f32 * list f32 * list f32)).
  Lemma r_blur i s g : only true (gaussian_blur p b lm svd i s g). Proof. tm gaussian_blur. Qed.
  Lemma r_prewitt i : only true (prewitt p b lm i). Proof. tm prewitt. Qed.
  Lemma r_sobel i : only true (sobel p b lm i). Proof. tm sobel. Qed.
  Lemma r_sobel_w i w : only true (sobel_weighted p b lm i w). Proof. tm sobel_weighted. Qed.
  Lemma r_bil_channel s r m z c v : only u (bilateral_channel p lm s r m z c v). Proof. tm bilateral_channel. Qed.
End Fi3.
#[export] Hint Resolve r_bil_channel : only.
Lemma r_bil_px u p lm i r m z x y : only u (bilateral_direct_pixel p lm i r m z x y). Proof. tm bilateral_direct_pixel. Qed.
#[export] Hint Resolve r_bil_px : only.
Lemma r_bilateral p lm b n i r s : only true (bilateral_filter p lm b n i r s). Proof. tm bilateral_filter. Qed.

(** ** Median.v *)
Section Me1.
  Context (u : bool) (p : profile) (r nc : Z).
  Lemma r_bump d n q i c k : only u (bump p d n q i c k). Proof. tm bump. Qed.
  Lemma r_unbump d n q i c k : only u (unbump p d n q i c k). Proof. tm unbump. Qed.
  Lemma r_get_count d k i : only u (get_count p nc d k i). Proof. tm get_count. Qed.
  Lemma r_set_pivot h q i : only u (set_pivot h q i). Proof. tm set_pivot. Qed.
  Lemma r_set_sum h q i : only u (set_sum h q i). Proof. tm set_sum. Qed.
End Me1.
#[export] Hint Resolve r_bump r_unbump r_get_count r_set_pivot r_set_sum : only.
Section Me2.
  Context (u : bool) (p : profile) (r nc : Z).
  Lemma r_phist_update d q c a : only u (phist_update p r nc d q c a). Proof. tm phist_update. Qed.
  Lemma r_scan_up d i c ks s : only u (scan_up p nc d i c ks s).
  Proof. revert s. induction ks as [|k ks IH]; intros s; cbn [scan_up]; only_tac. Qed.
  Lemma r_scan_down d i c ks s : only u (scan_down p nc d i c ks s).
  Proof. revert s. induction ks as [|k ks IH]; intros s; cbn [scan_down]; only_tac. Qed.
  Lemma r_found h i q : only u (found h i q). Proof. tm found. Qed.
  Lemma r_set_pivots h q i : only u (set_pivots h q i). Proof. tm set_pivots. Qed.
  Lemma r_row_pixels i x y : only u (row_pixels p r nc i x y). Proof. tm row_pixels. Qed.
End Me2.
#[export] Hint Resolve r_phist_update r_scan_up r_scan_down r_found r_set_pivots r_row_pixels : only.
Section Me3.
  Context (u : bool) (p : profile) (r nc : Z).
  Lemma r_medhist_update h q c a : only u (medhist_update p r nc h q c a). Proof. tm medhist_update. Qed.
  Lemma r_first_step c i h : only u (first_step p nc c i h). Proof. tm first_step. Qed.
  Lemma r_next_step c i h : only u (next_step p nc c i h). Proof. tm next_step. Qed.
  Lemma r_process_row (f : Z -> medhist -> outcome (medhist * list Z)) o hs x y : (forall i h, only u (f i h)) ->
    only u (process_row p nc f o hs x y).
  Proof. tm process_row. Qed.
End Me3.
#[export] Hint Resolve r_medhist_update r_first_step r_next_step : only.
Ltac hook6 := first [hook5 | simple apply r_process_row].
Ltac hook ::= hook6.
Lemma r_update_all u p r nc hs q c a : only u (update_all p r nc hs q c a).
Proof. revert c. induction hs as [|h hs IH]; intros c; cbn [update_all]; only_tac. Qed.
#[export] Hint Resolve r_update_all : only.
Lemma r_init_cols u p r nc i o hs c x : only u (init_cols p r nc i o hs c x). Proof. tm init_cols. Qed.
Lemma r_next_row u p r nc i c x st j : only u (next_row p r nc i c x st j). Proof. tm next_row. Qed.
#[export] Hint Resolve r_init_cols r_next_row : only.
Lemma r_block_rows u p r nc i o x e : only u (block_rows p r nc i o x e). Proof. tm block_rows. Qed.
#[export] Hint Resolve r_block_rows : only.
Lemma r_process_cols u p r nc i o x : only u (process_cols p r nc i o x). Proof. tm process_cols. Qed.
#[export] Hint Resolve r_process_cols : only.
Lemma r_median u p lm i r : only u (median_filter p lm i r). Proof. tm median_filter. Qed.

(** ** Trimmed.v *)
Section TM1.
  Context (u : bool) (p : profile) (bs : search) (r nc al : Z).
  Lemma r_vremove {A} (l : list A) i : only u (vremove l i). Proof. tm vremove. Qed.
  Lemma r_vinsert {A} (l : list A) i x : only u (vinsert l i x). Proof. tm vinsert. Qed.
  Lemma r_meanhist_new : only u (meanhist_new p r nc al). Proof. tm meanhist_new. Qed.
  Lemma r_add_sum h n v : only u (add_sum p h n v). Proof. tm add_sum. Qed.
  Lemma r_sub_sum h n v : only u (sub_sum p h n v). Proof. tm sub_sum. Qed.
  Lemma r_edit_lower h n f : (forall l, only u (f l)) -> only u (edit_lower h n f). Proof. tm edit_lower. Qed.
  Lemma r_edit_upper h n f : (forall l, only u (f l)) -> only u (edit_upper h n f). Proof. tm edit_upper. Qed.
  Lemma r_get_upper h n : only u (get_upper p al h n). Proof. tm get_upper. Qed.
  Lemma r_get_lower h n : only u (get_lower p al h n). Proof. tm get_lower. Qed.
  Lemma r_get_mean h n : only u (get_mean r al h n). Proof. tm get_mean. Qed.
  Lemma r_first_key d n ks : only u (first_key p nc d n ks).
  Proof. induction ks as [|k ks IH]; cbn [first_key]; only_tac. Qed.
  Lemma r_count_rest q c l v st j : only u (count_rest p q c l v st j). Proof. tm count_rest. Qed.
  Lemma r_drop_run l x c : only u (drop_run p l x c).
  Proof. revert c. induction l as [|k l IH]; intros c; cbn [drop_run]; only_tac. Qed.
  Lemma r_fill_lower f k l s a : only u (fill_lower p al f k l s a).
  Proof. revert l s a. induction f as [|f IH]; intros l s a; cbn [fill_lower]; only_tac. Qed.
  Lemma r_fill_upper f k c t l s a : only u (fill_upper p al f k c t l s a).
  Proof. revert l s a. induction f as [|f IH]; intros l s a; cbn [fill_upper]; only_tac. Qed.
End TM1.
#[export] Hint Resolve r_vremove r_vinsert r_meanhist_new r_add_sum r_sub_sum r_get_upper r_get_lower r_get_mean r_first_key r_count_rest r_drop_run r_fill_lower r_fill_upper : only.
Ltac hook7 := first [hook6 | simple apply r_edit_lower | simple apply r_edit_upper].
Ltac hook ::= hook7.
Section TM2.
  Context (u : bool) (p : profile) (bs : search) (r nc al : Z).
  Lemma r_gnl h n c l : only u (get_next_lower p nc h n c l). Proof. tm get_next_lower. Qed.
  Lemma r_gnu h n c l : only u (get_next_upper p nc h n c l). Proof. tm get_next_upper. Qed.
  Lemma r_add_one q c n h i : only u (add_one p bs al q c n h i). Proof. tm add_one. Qed.
  Lemma r_scan_key d i t st k : only u (scan_key p nc al d i t st k). Proof. tm scan_key. Qed.
End TM2.
#[export] Hint Resolve r_gnl r_gnu r_add_one r_scan_key : only.
Section TM3.
  Context (u : bool) (p : profile) (bs : search) (r nc al : Z).
  Lemma r_remove_one q c n h i : only u (remove_one p bs r nc al q c n h i). Proof. tm remove_one. Qed.
  Lemma r_mean_first t i h : only u (mean_first p r nc al t i h). Proof. tm mean_first. Qed.
  Lemma r_mean_next i h : only u (mean_next r al i h). Proof. tm mean_next. Qed.
  Lemma r_mean_row (f : Z -> meanhist -> outcome (meanhist * Z)) o hs x y : (forall i h, only u (f i h)) ->
    only u (mean_row p nc f o hs x y).
  Proof. tm mean_row. Qed.
End TM3.
#[export] Hint Resolve r_remove_one r_mean_first r_mean_next : only.
Ltac hook8 := first [hook7 | simple apply r_mean_row].
Ltac hook ::= hook8.
Lemma r_meanhist_update u p bs r nc al h q c a : only u (meanhist_update p bs r nc al h q c a). Proof. tm meanhist_update. Qed.
#[export] Hint Resolve r_meanhist_update : only.
Lemma r_mean_update_all u p bs r nc al hs q c a : only u (mean_update_all p bs r nc al hs q c a).
Proof. revert c. induction hs as [|h hs IH]; intros c; cbn [mean_update_all]; only_tac. Qed.
#[export] Hint Resolve r_mean_update_all : only.
Lemma r_init_cols_mean u p bs r nc al i o hs x : only u (init_cols_mean p bs r nc al i o hs x). Proof. tm init_cols_mean. Qed.
Lemma r_mean_next_row u p bs r nc al i x st j : only u (mean_next_row p bs r nc al i x st j). Proof. tm mean_next_row. Qed.
#[export] Hint Resolve r_init_cols_mean r_mean_next_row : only.
Lemma r_process_cols_mean u p bs r nc al i o x : only u (process_cols_mean p bs r nc al i o x). Proof. tm process_cols_mean. Qed.
#[export] Hint Resolve r_process_cols_mean : only.
Lemma r_trimmed p bs lm i r al : only true (alpha_trimmed_mean_filter p bs lm i r al). Proof. tm alpha_trimmed_mean_filter. Qed.

#[export] Hint Resolve r_brightness r_brightness_s r_contrast r_saturation r_saturation_s r_brightness_lab r_contrast_lab r_gamma r_histeq r_open r_close
  r_crop r_crop_par r_superimpose r_overlay r_translate r_reflect r_scale_seq r_scale_par r_scale_lanczos_seq r_scale_lanczos_par r_shear r_rotate
  r_threshold r_residual r_box r_wavg r_sharpen r_unsharp r_laplacian r_log r_norm_lap r_blur r_prewitt r_sobel r_sobel_w r_bilateral r_median r_trimmed : only.
