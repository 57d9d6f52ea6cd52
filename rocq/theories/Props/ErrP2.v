(** * C102, continued: exactly when a call reports a wrong argument *)
From Verif.Proofs Require TransformL PipeL2.
From Verif.Proofs Require Import BaseL Safe PipeL ErrL FilterL ErrL2.
From Verif.Model Require Import Base Float Image MathM Util Par Convert Simd Colorspace Filter Transform Tone Morph Bilateral Median Trimmed.
From Verif.Spec Require Import ErrS.
From Verif.Props Require Import FloatP MatP FilterP ErrP.
Open Scope Z_scope.

(** a check, then the rest of the function *)
Lemma exact_if {A} (c : bool) (rest : outcome A) : never_err rest -> err_exactly (c = true) ((if c then Fail InvalidArgError else Ret tt) ;! rest).
Proof. intros H. destruct c; split; intros E; try congruence; [reflexivity|]. exact H. Qed.
Lemma exact_weaken {A} (c c' : Prop) (o : outcome A) : (c <-> c') -> err_exactly c o -> err_exactly c' o.
Proof. intros H [H1 H2]. split; intros E; [apply H1|apply H2]; tauto. Qed.
Lemma exact_or {A} (c : bool) (d : Prop) (rest : outcome A) : err_exactly d rest -> err_exactly (c = true \/ d) ((if c then Fail InvalidArgError else Ret tt) ;! rest).
Proof.
  intros [H1 H2]. destruct c; cbn [bind]; split; intros E; [reflexivity|exfalso; apply E; left; reflexivity|apply H1; destruct E as [E|E]; [discriminate|exact E]|].
  apply H2. intros D. apply E. right. exact D.
Qed.
Definition negative (x : f32) : Prop := f32_ltb x f32_0 = true.
Definition above (x y : f32) : Prop := f32_ltb y x = true.

(** ** Tone: the ranges of the documentation; a NaN is outside no range.  [b] is any i16 but -32768, for which see C39 *)
Theorem C102_tone_exactly lm (p : profile) (si : bool) (img : image Z) (b m : Z) (g q : f32) (w : white) : -32768 < b <= 32767 ->
  err_exactly (255 < Z.abs b) (brightness p si img b) /\ err_exactly (255 < Z.abs b) (brightness_lab p lm img b)
  /\ err_exactly (255 < Z.abs b) (saturation p si img b)
  /\ err_exactly (negative g \/ above g f32_1) (contrast p img g) /\ err_exactly (negative g \/ above g f32_1) (contrast_lab p lm img g)
  /\ err_exactly (negative g) (gamma p lm img g m)
  /\ err_exactly (negative q \/ negative g \/ above g f32_1) (histogram_equalization p lm img g w q).
Proof.
  intros Hb.
  assert (A : forall T (rest : outcome T), never_err rest -> err_exactly (255 < Z.abs b) (let! ab := iabs p I16 b in check_in_range (num_int I16) ab (-255) 255 ;! rest)).
  { intros T rest H. assert (E : iabs p I16 b = Ret (Z.abs b)).
    { unfold iabs, arith. replace (in_ity I16 (Z.abs b)) with true; [reflexivity|]. symmetry. unfold in_ity. cbn. lia. }
    rewrite E. cbn [bind]. unfold check_in_range. cbn [n_ltb num_int]. eapply exact_weaken; [|apply exact_if; exact H]. lia. }
  assert (B : forall T (rest : outcome T), never_err rest -> err_exactly (255 < Z.abs b) (check_in_range (num_int I16) b (-255) 255 ;! rest)).
  { intros T rest H. unfold check_in_range. cbn [n_ltb num_int]. eapply exact_weaken; [|apply exact_if; exact H]. lia. }
  assert (G : forall T (rest : outcome T), never_err rest -> err_exactly (negative g \/ above g f32_1) (check_non_neg num_f32 g ;! check_in_range num_f32 g f32_0 f32_1 ;! rest)).
  { intros T rest H. unfold check_in_range, check_non_neg, negative, above. change (n_zero num_f32) with f32_0. change (n_ltb num_f32) with f32_ltb.
    apply (exact_weaken (f32_ltb g f32_0 = true \/ (f32_ltb g f32_0 || f32_ltb f32_1 g)%bool = true)); [rewrite orb_true_iff; tauto|]. apply exact_or. apply exact_if. exact H. }
  split; [|split; [|split; [|split; [|split; [|split]]]]].
  - apply A. destruct si; apply only_never; [apply r_adds|apply r_brightness_norm].
  - apply A. apply only_never. only_tac.
  - apply B. apply only_never. only_tac.
  - apply G. apply only_never. only_tac.
  - apply G. apply only_never. only_tac.
  - unfold gamma, check_non_neg, negative. change (n_zero num_f32) with f32_0. change (n_ltb num_f32) with f32_ltb. apply exact_if. apply only_never. only_tac.
  - unfold histogram_equalization, check_in_range, check_non_neg, negative, above. change (n_zero num_f32) with f32_0. change (n_ltb num_f32) with f32_ltb.
    apply exact_or. apply (exact_weaken ((f32_ltb g f32_0 || f32_ltb f32_1 g)%bool = true)); [rewrite orb_true_iff; tauto|]. apply exact_if. apply only_never. only_tac.
Qed.

(** the remaining i16: its absolute value does not fit, a debug build panics and a release build reports the error *)
Theorem C102_tone_minimum lm (p : profile) (si : bool) (img : image Z) :
  brightness Debug si img (-32768) = Panic /\ brightness_lab Debug lm img (-32768) = Panic
  /\ brightness Release si img (-32768) = Fail InvalidArgError /\ brightness_lab Release lm img (-32768) = Fail InvalidArgError
  /\ saturation p si img (-32768) = Fail InvalidArgError.
Proof. repeat (split; [reflexivity|]). reflexivity. Qed.

(** ** Morphology: exactly for an image that is not gray *)
Lemma gray_cases {T} (img : image T) : check_grayscale img = Ret tt /\ gray img \/ check_grayscale img = Fail InvalidArgError /\ ~ gray img.
Proof.
  unfold check_grayscale, gray. destruct (alpha (info_of img)); cbn [andb orb negb]; rewrite ?orb_false_r;
    [destruct (Z.eqb_spec (channels (info_of img)) 2)|destruct (Z.eqb_spec (channels (info_of img)) 1)]; cbn [negb]; auto.
Qed.
Lemma gray_exact {T A} (img : image T) (rest : outcome A) : never_err rest -> err_exactly (~ gray img) (check_grayscale img ;! rest).
Proof. intros H. destruct (gray_cases img) as [[-> g]|[-> g]]; split; intros O; try contradiction; [exact H|reflexivity]. Qed.
Lemma gray_info {T S} (a : image T) (b : image S) : info_of a = info_of b -> (gray a <-> gray b).
Proof. intros E. unfold gray. rewrite E. tauto. Qed.
Lemma scan_info p q img r o : morph_scan p q img r = Ret o -> info_of o = info_of img.
Proof.
  unfold morph_scan. intros E. apply bind_inv in E as (f & _ & E). apply bind_inv in E as (t & _ & E). apply bind_inv in E as (o0 & E0 & E).
  assert (I0 : info_of o0 = info_of img).
  { unfold blank in E0. apply bind_inv in E0 as (n & _ & E0). injection E0 as <-. reflexivity. }
  revert o E. change (ens (fun o => info_of o = info_of img) (mfold (fun output y => mfold (fun output x =>
      let! '(x0, y0, x1, y1) := window p (width (info_of img)) (height (info_of img)) r x y in
      let! sums := rectangular_intensity_sum p t x0 y0 x1 y1 in
      let! s := vget sums 0 in
      if q s then set_pixel p output x y [255] else Ret output) (zrange 0 (width (info_of img))) output) (zrange 0 (height (info_of img))) o0)).
  apply e_mfold; [exact I0|]. intros o1 y I1. apply e_mfold; [exact I1|]. intros o2 x I2.
  apply e_bind_any. intros [[[x0 y0] x1] y1]. apply e_bind_any. intros sums. apply e_bind_any. intros v.
  destruct (q v); [|apply e_Ret; exact I2]. intros o3 E3. pose proof (safe_set_pixel p o2 x y [255]) as S. rewrite E3 in S. cbn in S. congruence.
Qed.
Lemma scan_never p q img r : never_err (morph_scan p q img r).
Proof. apply only_never. only_tac. Qed.
Lemma maxsum_never p r : never_err (max_sum p r).
Proof. apply only_never. only_tac. Qed.
Lemma never_bind {A B} (a : outcome A) (f : A -> outcome B) : never_err a -> (forall x, a = Ret x -> never_err (f x)) -> never_err (bind a f).
Proof. intros H K. apply only_never. apply only_bind_eq; [apply never_only; exact H|]. intros x E. apply never_only. apply K. exact E. Qed.
Lemma exact_bind {A B} (c : Prop) (a : outcome A) (f : A -> outcome B) : err_exactly c a -> (forall x, a = Ret x -> never_err (f x)) -> err_exactly c (bind a f).
Proof. intros [H1 H2] K. split; intros O; [rewrite (H1 O); reflexivity|]. apply never_bind; [exact (H2 O)|exact K]. Qed.

Lemma erode_gray (p : profile) (img : image Z) (r : Z) : err_exactly (~ gray img) (erode p img r).
Proof. apply gray_exact. apply never_bind; [apply maxsum_never|]. intros m _. apply scan_never. Qed.
Lemma dilate_gray (p : profile) (img : image Z) (r : Z) : err_exactly (~ gray img) (dilate p img r).
Proof. apply gray_exact. apply scan_never. Qed.
Lemma gray_after (img o : image Z) : info_of o = info_of img -> check_grayscale img = Ret tt -> gray o.
Proof. intros I E. apply (gray_info o img I). destruct (gray_cases img) as [[_ g]|[E2 _]]; [exact g|congruence]. Qed.
Theorem C102_morphology_exactly (p : profile) (img : image Z) (r : Z) :
  err_exactly (~ gray img) (erode p img r) /\ err_exactly (~ gray img) (dilate p img r) /\ err_exactly (~ gray img) (majority p img r)
  /\ err_exactly (~ gray img) (gradient p img r) /\ err_exactly (~ gray img) (morph_open p img r) /\ err_exactly (~ gray img) (morph_close p img r).
Proof.
  split; [apply erode_gray|]. split; [apply dilate_gray|]. split; [apply gray_exact; apply scan_never|].
  split; [apply gray_exact; apply never_bind; [apply maxsum_never|]; intros m _; apply scan_never|]. split; apply exact_bind; try apply erode_gray; try apply dilate_gray; intros o E.
  - unfold erode in E. apply bind_inv in E as ([] & Eg & E). apply bind_inv in E as (m & _ & E). apply scan_info in E.
    apply dilate_gray. intros N. apply N. exact (gray_after img o E Eg).
  - unfold dilate in E. apply bind_inv in E as ([] & Eg & E). apply scan_info in E.
    apply erode_gray. intros N. apply N. exact (gray_after img o E Eg).
Qed.

(** ** Geometry; [superimpose] always reports an error (see C19) *)
Theorem C102_transform_exactly {T} (N : number T) lm (p : profile) (sched : list Z) (img front : image T) (imf imf2 : image f32) (x y w h sz : Z) (a b : f32) (m : scale_method) :
  0 <= x -> 0 <= y -> 0 <= w -> 0 <= h -> 0 <= sz -> x + w <= u32_max -> y + h <= u32_max ->
  err_exactly (width (info_of img) <= x + w \/ height (info_of img) <= y + h) (crop_seq p N img x y w h)
  /\ err_exactly (width (info_of img) <= x + w \/ height (info_of img) <= y + h) (crop_par p sched img x y w h)
  /\ err_exactly (channels (info_of img) <> channels (info_of front)) (overlay p img front x y)
  /\ err_exactly True (superimpose p imf imf2 x y a)
  /\ err_exactly (negative a \/ negative b) (scale_seq p lm imf a b m) /\ err_exactly (negative a \/ negative b) (scale_par p lm sched imf a b m)
  /\ err_exactly (negative a \/ negative b) (scale_lanczos_seq p lm imf a b sz) /\ err_exactly (negative a \/ negative b) (scale_lanczos_par p lm sched imf a b sz).
Proof.
  intros Hx Hy Hw Hh Hz Hxw Hyh.
  assert (Ew : iadd p U32 x w = Ret (x + w)). { unfold iadd, arith. replace (in_ity U32 (x + w)) with true; [reflexivity|]. symmetry. unfold in_ity, u32_max in *. cbn. lia. }
  assert (Eh : iadd p U32 y h = Ret (y + h)). { unfold iadd, arith. replace (in_ity U32 (y + h)) with true; [reflexivity|]. symmetry. unfold in_ity, u32_max in *. cbn. lia. }
  assert (Kc : forall B (rest : outcome B), never_err rest -> err_exactly (width (info_of img) <= x + w \/ height (info_of img) <= y + h) (crop_check p img x y w h ;! rest)).
  { intros B rest H. unfold crop_check. rewrite Ew, Eh. cbn [bind].
    destruct (Z.leb_spec (width (info_of img)) (x + w)) as [L|L]; [split; intros O; [reflexivity|exfalso; apply O; left; exact L]|].
    destruct (Z.leb_spec (height (info_of img)) (y + h)) as [L2|L2]; [split; intros O; [reflexivity|exfalso; apply O; right; exact L2]|].
    split; intros O; [exfalso; lia|exact H]. }
  assert (Ke : forall u v B (rest : outcome B), never_err rest -> err_exactly (u <> v) (check_equal_Z u v ;! rest)).
  { intros u v B rest H. unfold check_equal_Z. destruct (Z.eqb_spec u v); split; intros O; try contradiction; [exact H|reflexivity]. }
  assert (Ks : forall B (rest : outcome B), never_err rest -> err_exactly (negative a \/ negative b) (check_non_neg num_f32 a ;! check_non_neg num_f32 b ;! rest)).
  { intros B rest H. unfold check_non_neg, negative. change (n_zero num_f32) with f32_0. change (n_ltb num_f32) with f32_ltb. apply exact_or. apply exact_if. exact H. }
  assert (Kz : forall B (rest : outcome B), (check_non_neg (num_int U32) sz ;! rest) = rest).
  { intros B rest. unfold check_non_neg. cbn [n_ltb n_zero num_int n_of_u8]. destruct (Z.ltb_spec sz 0); [lia|reflexivity]. }
  split; [apply Kc; apply only_never; only_tac|]. split; [apply Kc; apply only_never; only_tac|]. split; [apply Ke; apply only_never; only_tac|].
  split.
  { split; intros O; [|exfalso; apply O; exact I]. unfold superimpose, check_equal_Z. destruct (channels (info_of imf) =? channels (info_of imf2)); [|reflexivity].
    cbn [bind]. unfold check_in_range. change (n_ltb num_f32) with f32_ltb. replace (f32_ltb f32_0 f32_1) with true by (vm_compute; reflexivity). reflexivity. }
  split; [apply Ks; apply only_never; only_tac|]. split; [apply Ks; apply only_never; only_tac|].
  split; [unfold scale_lanczos_seq|unfold scale_lanczos_par]; apply Ks; rewrite Kz; apply only_never; only_tac.
Qed.

(** ** Utilities *)
Theorem C102_util_exactly lm (p : profile) {T} (N : number T) (mat v out : list T) (sz : Z) (x s : f32) : plain_number N ->
  err_exactly (negative s) (gaussian_fn lm x s)
  /\ (0 <= sz <= u32_max -> err_exactly (Z.odd sz = false) (generate_gaussian_kernel p lm sz s) /\ err_exactly (Z.odd sz = false) (generate_log_kernel p lm sz s))
  /\ (0 < len v -> len mat <= u32_max -> err_exactly (len mat / len v <> len v) (vector_mul p N mat v) /\ err_exactly (len mat / len v <> len v) (vector_mul_mut p N mat v out)).
Proof.
  intros HN. apply plain_only in HN. split; [|split].
  - unfold gaussian_fn, check_non_neg, negative. change (n_zero num_f32) with f32_0. change (n_ltb num_f32) with f32_ltb. apply exact_if. apply only_never. only_tac.
  - intros Hz.
    assert (C : check_odd p (num_int U32) sz = if Z.odd sz then Ret tt else Fail InvalidArgError) by (apply check_odd_ok; unfold u32_max in *; cbn; lia).
    unfold generate_gaussian_kernel, generate_log_kernel. rewrite C.
    split; (destruct (Z.odd sz); split; intros O; try discriminate; try (exfalso; apply O; reflexivity); [apply only_never; only_tac|reflexivity]).
  - intros Hv Hm. unfold vector_mul, vector_mul_mut.
    assert (D : idiv USIZE (len mat) (len v) = Ret (len mat / len v)).
    { unfold idiv. destruct (Z.eqb_spec (len v) 0); [lia|]. cbn [orb]. assert (0 <= len mat) by (unfold len; lia). rewrite Z.quot_div_nonneg by lia.
      pose proof (Z.div_pos (len mat) (len v) ltac:(lia) ltac:(lia)). assert (len mat / len v <= len mat) by (apply Z.div_le_upper_bound; [lia|]; rewrite <- (Z.mul_1_l (len mat)) at 1; apply Z.mul_le_mono_nonneg_r; lia).
      generalize dependent (len mat / len v). intros q Hq Hq2. replace (in_ity USIZE q) with true; [reflexivity|]. symmetry. unfold in_ity, u32_max in *. cbn. lia. }
    rewrite D. cbn [bind]. unfold check_equal_Z.
    split; (destruct (Z.eqb_spec (len mat / len v) (len v)) as [E|E]; split; intros O; try contradiction; try reflexivity; apply only_never; only_tac).
Qed.

(** ** Filters *)
Definition square (n : Z) : Prop := exists s, n = s * s.
Lemma square_dec n : 0 <= n -> {s | 0 <= s /\ n = s * s} + {~ square n}.
Proof.
  intros H. destruct (Z.eq_dec (Z.sqrt n * Z.sqrt n) n) as [E|E].
  - left. exists (Z.sqrt n). split; [apply Z.sqrt_nonneg|lia].
  - right. intros [s ->]. apply E. assert (Q : Z.sqrt (s * s) = Z.abs s) by (rewrite <- Z.abs_square; apply Z.sqrt_square; lia). rewrite Q. lia.
Qed.
Lemma side_odd n s : n = s * s -> Z.odd n = Z.odd s.
Proof. intros ->. rewrite Z.odd_mul. apply andb_diag. Qed.
Lemma unsep_ok (b : build) (p : profile) n img k s : 0 <= s -> s * s <= 16777216 -> len k = s * s -> Z.odd s = true -> never_err (unseparable_filter p b n img k).
Proof.
  intros H0 Hb E O. destruct (square_side s k E H0 Hb) as [Q K]. apply only_never. apply (unsep_odd false p b n img k s); auto; [unfold u32_max; lia|rewrite (side_odd _ s E); exact O].
Qed.
Lemma sides svd (k : list f32) s v h : 0 <= s -> s * s <= 16777216 -> len k = s * s -> separate_kernel svd k = Ret (Some (v, h)) -> len v = s /\ len h = s.
Proof.
  intros H0 Hb E. unfold separate_kernel. set (sz := f32_to_int USIZE _). destruct (Z.eqb_spec (len k) (sz * sz)) as [Es|]; [|discriminate]. cbn [negb].
  assert (Z0 : 0 <= sz). { unfold sz. unfold f32_to_int. pose proof (TransformL.float_to_int_range USIZE (f32_sqrt (f32_of_Z (len k))) ltac:(cbn; lia)) as R. change (lo USIZE) with 0 in R. tauto. }
  assert (sz = s) by nia. subst s. clearbody sz.
  intros K. apply bind_inv in K as ([[ss uu] vv] & _ & K). apply bind_inv in K as (s0 & _ & K). destruct (f32_neb s0 f32_0); [|discriminate].
  apply bind_inv in K as (sep & _ & K). destruct sep; [|discriminate]. cbv zeta in K. apply bind_inv in K as (vk & Ev & K). apply bind_inv in K as (hk & Eh & K). injection K as <- <-.
  apply mmap_length in Ev. apply mmap_length in Eh. unfold len. rewrite Ev, Eh. rewrite !zrange_length. lia.
Qed.
Theorem C102_kernel_filters_exactly (b : build) (p : profile) svd (n : nat) (img : image f32) (k : list f32) : len k <= 16777216 ->
  err_exactly (Z.odd (len k) = false \/ ~ square (len k)) (unseparable_filter p b n img k)
  /\ err_exactly (Z.odd (len k) = false \/ ~ square (len k)) (linear_filter p b svd img k).
Proof.
  intros Hk. assert (H0 : 0 <= len k) by (unfold len; lia).
  destruct (C61_check_square (len k) ltac:(lia)) as [Q1 Q2].
  assert (C : forall A (rest : outcome A), (Z.odd (len k) = true -> square (len k) -> never_err rest) ->
    err_exactly (Z.odd (len k) = false \/ ~ square (len k)) (check_odd p (num_int USIZE) (len k) ;! check_square (f32_of_Z (len k)) ;! rest)).
  { intros A rest H. rewrite check_odd_usize by (unfold u32_max; lia). destruct (Z.odd (len k)) eqn:O; [|split; intros D; [reflexivity|exfalso; apply D; left; reflexivity]].
    cbn [bind]. destruct (square_dec (len k) H0) as [[s [_ E]]|E].
    - assert (S : square (len k)) by (exists s; exact E). rewrite (Q1 S). cbn [bind]. split; intros D; [exfalso; destruct D as [D|D]; [discriminate|contradiction]|]. apply H; [reflexivity|exact S].
    - rewrite (Q2 E). split; intros D; [reflexivity|exfalso; apply D; right; exact E]. }
  split.
  - split; intros D.
    + unfold unseparable_filter. rewrite check_odd_usize by (unfold u32_max; lia). destruct (Z.odd (len k)) eqn:O; [|reflexivity]. cbn [bind].
      destruct D as [D|D]; [discriminate|]. rewrite (Q2 D). reflexivity.
    + destruct (Z.odd (len k)) eqn:O; [|exfalso; apply D; left; reflexivity]. destruct (square_dec (len k) H0) as [[s [Hs E]]|E]; [|exfalso; apply D; right; exact E].
      apply (unsep_ok b p n img k s Hs); [lia|exact E|]. rewrite <- (side_odd _ s E). exact O.
  - unfold linear_filter. apply C. intros O S. destruct (square_dec (len k) H0) as [[s [Hs E]]|E]; [|contradiction].
    assert (Os : Z.odd s = true) by (rewrite <- (side_odd _ s E); exact O).
    apply never_bind; [apply only_never; only_tac|]. intros [[v h]|] Ek; [|apply (unsep_ok b p 0 img k s Hs); [lia|exact E|exact Os]].
    destruct (sides svd k s v h Hs ltac:(lia) E Ek) as [Lv Lh]. assert (s <= u32_max) by (unfold u32_max; nia).
    apply only_never. apply sep_odd; [lia|rewrite Lv; exact Os|lia].
Qed.

Theorem C102_sized_filters_exactly (b : build) lm svd (p : profile) (img : image f32) (sz weight : Z) (s : f32) : 0 <= sz <= 4096 ->
  err_exactly (Z.odd sz = false) (weighted_avg_filter p b img sz weight)
  /\ err_exactly (Z.odd sz = false) (gaussian_blur p b lm svd img sz s)
  /\ err_exactly (Z.odd sz = false) (laplacian_of_gaussian p b lm img sz s).
Proof.
  intros Hz. assert (Hq : sz * sz <= 16777216) by nia.
  split; [|split].
  - assert (C : check_odd p (num_int U32) sz = if Z.odd sz then Ret tt else Fail InvalidArgError) by (apply check_odd_ok; cbn; lia).
    unfold weighted_avg_filter. rewrite C. destruct (Z.odd sz) eqn:O; split; intros D; try discriminate; try (exfalso; apply D; reflexivity); [|reflexivity]. cbn [bind].
    assert (Eq : imul p U32 sz sz = Ret (sz * sz)) by (apply imul_ok; cbn; nia). rewrite Eq. cbn [bind].
    apply never_bind; [apply only_never; only_tac|]. intros s1 _. apply never_bind; [apply only_never; only_tac|]. intros sum _.
    apply never_bind; [apply only_never; only_tac|]. intros half _. apply never_bind; [apply only_never; only_tac|]. intros hs _.
    apply never_bind; [apply only_never; only_tac|]. intros c _. cbv zeta. apply never_bind; [apply only_never; only_tac|]. intros k Ek.
    apply (unsep_ok b p 0 img k sz); [lia|exact Hq| |exact O].
    apply PipeL2.e_vset_len in Ek. rewrite Ek. unfold len. rewrite repeat_length. nia.
  - destruct (C30_gaussian_kernel p lm sz s ltac:(lia) ltac:(lia)) as [G1 G2]. unfold gaussian_blur. split; intros D; [rewrite (G2 D); reflexivity|].
    apply not_false_is_true in D. destruct (G1 D) as (m & -> & [L _]). cbn [bind].
    destruct (C102_kernel_filters_exactly b p svd 0 img m ltac:(lia)) as [_ [_ H]]. apply H. intros [O|O].
    + rewrite (side_odd _ sz L) in O. congruence.
    + apply O. exists sz. exact L.
  - destruct (C30_log_kernel p lm sz s ltac:(lia) ltac:(lia)) as [G1 G2]. unfold laplacian_of_gaussian. split; intros D; [rewrite (G2 D); reflexivity|].
    apply not_false_is_true in D. destruct (G1 D) as (m & -> & [L _]). cbn [bind]. apply (unsep_ok b p 0 img m sz); [lia|exact Hq|exact L|exact D].
Qed.
Lemma spatial_never p lm sz s : f32_ltb s f32_0 = false -> never_err (generate_spatial_mat p lm sz s).
Proof.
  intros H. assert (G : forall u x, only u (gaussian_fn lm x s)).
  { intros u x. unfold gaussian_fn, check_non_neg. change (n_ltb num_f32 s (n_zero num_f32)) with (f32_ltb s f32_0). rewrite H. cbn [bind]. only_tac. }
  apply only_never. unfold generate_spatial_mat. cbv zeta. repeat (apply G || tstep).
Qed.
Theorem C102_spatial_exactly (p : profile) lm (sz : Z) (s : f32) : 0 <= sz <= 4096 -> err_exactly (negative s /\ 2 <= sz) (generate_spatial_mat p lm sz s).
Proof.
  intros Hz. split.
  - intros [Hs H2]. unfold generate_spatial_mat, idiv. cbn [Z.eqb orb].
    assert (Hq : 1 <= sz / 2 /\ sz / 2 <= 2048) by (split; [apply Z.div_le_lower_bound; lia|apply Z.div_le_upper_bound; lia]).
    rewrite Z.quot_div_nonneg by lia. generalize dependent (sz / 2). intros c Hq.
    replace (in_ity U32 c) with true by (symmetry; unfold in_ity; cbn; lia). cbn [negb bind].
    rewrite imul_ok by (cbn; nia). cbn [bind]. rewrite iadd_ok by (cbn; lia). cbn [bind].
    rewrite !(zrange_cons 0 (c + 1)) by lia. cbn [mfold]. rewrite imul_ok by (cbn; lia). cbn [bind]. rewrite iadd_ok by (cbn; lia). cbn [bind]. rewrite Z.mul_0_l, Z.add_0_l.
    destruct (Z.to_nat (sz * sz)) as [|k] eqn:Ek; [nia|]. cbn [repeat].
    change (vget (f32_0 :: repeat f32_0 k) 0) with (Ret f32_0). cbn [bind].
    replace (f32_eqb f32_0 f32_0) with true by (vm_compute; reflexivity).
    destruct (Z.eqb_spec 0 c); [lia|]. cbn [andb negb]. cbv zeta. unfold gaussian_fn, check_non_neg. change (n_ltb num_f32 s (n_zero num_f32)) with (f32_ltb s f32_0). rewrite Hs. reflexivity.
  - intros D. destruct (f32_ltb s f32_0) eqn:Es; [|apply spatial_never; exact Es].
    assert (sz = 0 \/ sz = 1) as [-> | ->] by (assert (~ 2 <= sz) by (intros K; apply D; split; [exact Es|exact K]); lia).
    + intros e. vm_compute. destruct p; discriminate.
    + intros e. vm_compute. destruct p; discriminate.
Qed.
Theorem C102_other_filters_exactly {T} (N : number T) lm (bs : search) (p : profile) (b : build) (n : nat) (img : image Z) (imf : image f32) (a c : image T) (s t : f32) (m : thresh) (r al : Z) : plain_number N ->
  err_exactly (~ gray imf) (threshold p imf s t m) /\ err_exactly (~ gray imf) (normalize_laplacian p imf)
  /\ err_exactly (info_of a <> info_of c) (residual p N a c)
  /\ err_exactly (negative s \/ negative t) (bilateral_filter p lm b n img s t)
  /\ (0 <= r <= 32767 -> 0 <= al <= u32_max -> err_exactly (Z.odd al = true \/ (2 * r + 1) * (2 * r + 1) <= al) (alpha_trimmed_mean_filter p bs lm img r al)).
Proof.
  intros HN. apply plain_only in HN.
  split; [apply gray_exact; apply only_never; only_tac|]. split; [apply gray_exact; apply only_never; only_tac|].
  split.
  { pose proof (C61_check_equal (info_of a) (info_of c)) as [H1 H2]. unfold residual. split; intros D.
    - rewrite (H2 D). reflexivity.
    - apply never_bind; [|intros _ _; apply only_never; only_tac]. intros e E. apply D. intros K. rewrite (H1 K) in E. discriminate. }
  split.
  { unfold bilateral_filter. change (check_non_neg num_f32 s) with (if f32_ltb s f32_0 then @Fail unit InvalidArgError else Ret tt). apply exact_or.
    unfold check_non_neg. change (n_ltb num_f32 t (n_zero num_f32)) with (f32_ltb t f32_0). split; intros D; [unfold negative in D; rewrite D; reflexivity|].
    unfold negative in D. destruct (f32_ltb t f32_0) eqn:Et; [contradiction|]. cbn [bind]. cbv zeta.
    apply never_bind; [apply spatial_never; exact Et|]. intros sm _. apply only_never. destruct b; only_tac. }
  intros Hr Ha. destruct (C61_check_even p U32 al eq_refl ltac:(cbn; lia) ltac:(unfold u32_max in *; cbn; lia)) as [E1 E2].
  unfold alpha_trimmed_mean_filter.
  assert (M : imul p U32 2 r = Ret (2 * r)) by (apply imul_ok; cbn [lo hi U32]; lia). rewrite M. cbn [bind].
  assert (A : iadd p U32 (2 * r) 1 = Ret (2 * r + 1)) by (apply iadd_ok; cbn [lo hi U32]; lia). rewrite A. cbn [bind].
  assert (Q : imul p U32 (2 * r + 1) (2 * r + 1) = Ret ((2 * r + 1) * (2 * r + 1))) by (apply imul_ok; cbn [lo hi U32]; split; [nia|]; assert ((2 * r + 1) * (2 * r + 1) <= 65535 * 65535) by (apply Z.mul_le_mono_nonneg; lia); lia).
  destruct (Z.odd al) eqn:O; [rewrite (E2 eq_refl); split; intros D; [reflexivity|exfalso; apply D; left; reflexivity]|].
  rewrite (E1 eq_refl). cbn [bind]. rewrite Q. cbn [bind]. destruct (Z.leb_spec ((2 * r + 1) * (2 * r + 1)) al) as [L|L]; split; intros D; try reflexivity.
  - exfalso. apply D. right. exact L.
  - exfalso. destruct D as [D|D]; [discriminate|lia].
  - apply only_never. only_tac.
Qed.

(** both sides of the conditions are met *)
Example C102_exactly_example :
  let g1 := Image (Info 2 1 1 false) [7; 8] in let rgb := Image (Info 1 1 3 false) [7; 8; 9] in
  let lm := Libm (fun x _ => x) (fun x => x) (fun x => x) in
  brightness Debug false g1 256 = Fail InvalidArgError /\ brightness Debug false rgb 1 = Ret (Image (Info 1 1 3 false) [8; 9; 10])
  /\ erode Debug rgb 0 = Fail InvalidArgError /\ dilate Debug g1 0 = Ret (Image (Info 2 1 1 false) [0; 0])
  /\ crop_seq Debug num_u8 g1 0 0 2 0 = Fail InvalidArgError /\ crop_seq Debug num_u8 g1 0 0 1 0 = Ret (Image (Info 1 0 1 false) [])
  /\ overlay Debug g1 rgb 0 0 = Fail InvalidArgError
  /\ vector_mul Debug num_u8 [1; 2; 3] [1; 2] = Fail InvalidArgError /\ vector_mul Debug num_u8 [1; 2; 3; 4] [1; 2] = Ret [5; 11]
  /\ residual Debug num_u8 g1 rgb = Fail InvalidArgError /\ residual Debug num_u8 g1 g1 = Ret (Image (Info 2 1 1 false) [0; 0])
  /\ (forall bs, alpha_trimmed_mean_filter Debug bs lm g1 1 10 = Fail InvalidArgError) /\ (forall bs, alpha_trimmed_mean_filter Debug bs lm g1 1 1 = Fail InvalidArgError)
  /\ square 9 /\ ~ square 3.
Proof.
  cbv zeta. repeat (split; [first [intros bs; vm_compute; reflexivity|vm_compute; reflexivity|exists 3; reflexivity]|]). intros [s E].
  assert (-2 < s < 2) by nia. assert (s = -1 \/ s = 0 \/ s = 1) as [-> | [-> | ->]] by lia; discriminate.
Qed.
