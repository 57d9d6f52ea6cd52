(** * C99: src/transform.rs, scale by powers of two: what an output pixel depends on *)
From Coq Require Import Permutation Lra.
From Verif.Model Require Import Transform.
From Verif.Spec Require Import ImageS FloatS ConvS ResampleS.
From Verif.Proofs Require Import BaseL ImageL Safe TransformL FloatL FloatL2 DyadL.
From Verif.Props Require Import TransformP ScaleP ResampleP.
Open Scope Z_scope.

(** ** positions *)
Lemma zero_div k : 0 <= k <= 23 -> f32_div (f32_of_Z 0) (f32_of_Z (2 ^ k)) = f32_0.
Proof.
  intros Hk. assert (C : forall j : nat, (j <= 23)%nat -> f32_div (f32_of_Z 0) (f32_of_Z (2 ^ Z.of_nat j)) = f32_0).
  { intros j Hj. do 24 (destruct j as [|j]; [apply B2SF_inj; vm_compute; reflexivity|]). lia. }
  specialize (C (Z.to_nat k) ltac:(lia)). rewrite Z2Nat.id in C by lia. exact C.
Qed.
Lemma pow_range k : 0 <= k <= 23 -> 1 <= 2 ^ k <= 8388608.
Proof. intros Hk. split; [pose proof (Z.pow_pos_nonneg 2 k); lia|change 8388608 with (2 ^ 23); apply Z.pow_le_mono_r; lia]. Qed.
Lemma pos_D k x : 0 <= k <= 23 -> 0 <= x <= 16777216 -> isD (f32_div (f32_of_Z x) (f32_of_Z (2 ^ k))) x k.
Proof. intros Hk Hx. pose proof (pow_range k Hk). apply div_pow2_D; try (apply of_Z_isZ; lia); lia. Qed.
Lemma rem_small k x : 0 <= k <= 23 -> 0 <= x -> 0 <= x mod 2 ^ k <= 16777216.
Proof. intros Hk Hx. pose proof (pow_range k Hk). pose proof (Z.mod_pos_bound x (2 ^ k) ltac:(lia)). lia. Qed.
(** the part after the point *)
Lemma past_point k x : 0 <= k <= 23 -> 0 <= x <= 16777216 ->
  f32_sub (f32_div (f32_of_Z x) (f32_of_Z (2 ^ k))) (f32_of_Z (x / 2 ^ k)) = f32_div (f32_of_Z (x mod 2 ^ k)) (f32_of_Z (2 ^ k)).
Proof.
  intros Hk Hx. pose proof (pow_range k Hk) as Hp. pose proof (rem_small k x Hk ltac:(lia)) as Hm. pose proof (pos_D k x Hk Hx) as D.
  pose proof (Z.div_mod x (2 ^ k) ltac:(lia)) as Dm. assert (Hq : 0 <= x / 2 ^ k <= 16777216) by (split; [apply Z.div_pos; lia|apply Z.div_le_upper_bound; nia]).
  destruct (Z.eq_dec (x mod 2 ^ k) 0) as [E|E].
  - rewrite E, zero_div by exact Hk. rewrite E in Dm. destruct (Z.eq_dec (x / 2 ^ k) 0) as [Eq|Eq].
    + rewrite Eq in *. replace x with 0 by lia. rewrite zero_div by exact Hk. apply B2SF_inj. vm_compute. reflexivity.
    + assert (Z1 : isZ (f32_div (f32_of_Z x) (f32_of_Z (2 ^ k))) (x / 2 ^ k)).
      { apply (isD_Z _ _ k); [|lia]. apply (isD_ext _ x); [exact D|lia]. }
      rewrite (fin_inj _ _ _ Z1 (of_Z_isZ (x / 2 ^ k) ltac:(lia))) by (apply IZR_neq; exact Eq). apply (sub_self_zero _ (x / 2 ^ k)). apply of_Z_isZ. lia.
  - assert (D1 : isD (f32_sub (f32_div (f32_of_Z x) (f32_of_Z (2 ^ k))) (f32_of_Z (x / 2 ^ k))) (x mod 2 ^ k) k).
    { apply (isD_ext _ (x - x / 2 ^ k * 2 ^ k)); [|lia]. apply sub_D; try lia; [exact D|]. apply isZ_D; [|lia]. apply of_Z_isZ. lia. }
    pose proof (pos_D k (x mod 2 ^ k) Hk Hm) as D2. apply (fin_inj _ _ _ D1 D2).
    apply Rmult_integral_contrapositive_currified; [apply IZR_neq; exact E|]. apply Rgt_not_eq, bpow_gt_0.
Qed.
Lemma frac_pow k x : 0 <= k <= 23 -> 0 <= x <= 16777216 ->
  frac (f32_div (f32_of_Z x) (f32_of_Z (2 ^ k))) = f32_div (f32_of_Z (x mod 2 ^ k)) (f32_of_Z (2 ^ k)).
Proof.
  intros Hk Hx. pose proof (pow_range k Hk) as Hp. pose proof (pos_D k x Hk Hx) as D. pose proof (rem_small k x Hk ltac:(lia)) as Hm.
  assert (Hq : 0 <= x / 2 ^ k <= 16777216) by (split; [apply Z.div_pos; lia|apply Z.div_le_upper_bound; nia]).
  unfold frac. pose proof (floor_D _ _ _ D ltac:(lia)) as F. destruct (Z.eq_dec (x / 2 ^ k) 0) as [Eq|Eq].
  - destruct (Z.eq_dec x 0) as [->|Nx].
    + rewrite Z.mod_0_l by lia. rewrite zero_div by exact Hk. apply B2SF_inj. vm_compute. reflexivity.
    + assert (Em : x mod 2 ^ k = x) by (pose proof (Z.div_mod x (2 ^ k) ltac:(lia)) as Dm; rewrite Eq in Dm; lia). rewrite Em. rewrite Eq in F.
      pose proof (sub_D _ _ x 0 k D (isZ_D _ 0 k F ltac:(lia)) ltac:(lia) ltac:(lia)) as S. rewrite Z.sub_0_r in S.
      apply (fin_inj _ _ _ S D). apply Rmult_integral_contrapositive_currified; [apply IZR_neq; exact Nx|]. apply Rgt_not_eq, bpow_gt_0.
  - rewrite (fin_inj _ _ _ F (of_Z_isZ (x / 2 ^ k) ltac:(lia))) by (apply IZR_neq; exact Eq). apply past_point; assumption.
Qed.
Lemma tap_pow k x w m : 0 <= k <= 23 -> 0 <= x < w * 2 ^ k -> w * 2 ^ k < 16777216 -> - 16777216 <= m * 2 ^ k -> x + m * 2 ^ k <= 16777216 ->
  tap w (f32_div (f32_of_Z x) (f32_of_Z (2 ^ k))) m = Z.max 0 (Z.min (w - 1) (x / 2 ^ k + m)).
Proof.
  intros Hk Hx Hw Hm1 Hm2. pose proof (pow_range k Hk) as Hp. pose proof (pos_D k x Hk ltac:(lia)) as D.
  assert (Hm : Z.abs m <= 16777216) by nia. assert (Hw1 : 1 <= w) by nia.
  assert (S : isD (f32_add (f32_div (f32_of_Z x) (f32_of_Z (2 ^ k))) (f32_of_Z m)) (x + m * 2 ^ k) k).
  { apply add_D; try lia; [exact D|]. apply isZ_D; [|lia]. apply of_Z_isZ. exact Hm. }
  unfold tap, f32_to_int. rewrite (to_int_fin U32 _ _ ltac:(cbn; lia) S).
  destruct (Z_le_gt_dec 0 (x + m * 2 ^ k)) as [Hp0|Hn].
  - assert (E : Ztrunc (IZR (x + m * 2 ^ k) * bpow radix2 (- k)) = x / 2 ^ k + m).
    { rewrite Ztrunc_floor by (apply Rmult_le_pos; [apply (IZR_le 0); lia|apply bpow_ge_0]).
      rewrite bpow_opp, <- IZR_pow2 by lia. rewrite <- Z.div_add by lia. apply Zfloor_div. lia. }
    rewrite E. assert (0 <= x / 2 ^ k + m) by (rewrite <- Z.div_add by lia; apply Z.div_pos; lia).
    assert (x / 2 ^ k + m <= 16777216) by (rewrite <- Z.div_add by lia; apply Z.div_le_upper_bound; nia).
    unfold clampZ. cbn [lo hi U32]. lia.
  - assert (E : Ztrunc (IZR (x + m * 2 ^ k) * bpow radix2 (- k)) <= 0).
    { assert (Hneg : (IZR (x + m * 2 ^ k) * bpow radix2 (- k) <= 0)%R).
      { assert (H1 : (IZR (x + m * 2 ^ k) <= 0)%R) by (apply (IZR_le _ 0); lia). pose proof (bpow_ge_0 radix2 (- k)). clear - H1 H. nra. }
      rewrite Ztrunc_ceil by exact Hneg. apply Zceil_glb. exact Hneg. }
    assert (x / 2 ^ k + m < 0) by (rewrite <- Z.div_add by lia; apply Z.div_lt_upper_bound; lia).
    unfold clampZ. cbn [lo hi U32]. lia.
Qed.

(** ** the sizes concerned: f32 counts exactly up to the last coordinate read, and the result can be stored *)
Definition fits_pow (i : info) (k l after : Z) : Prop :=
  0 <= k <= 23 /\ 0 <= l <= 23 /\ (width i + after) * 2 ^ k < 16777216 /\ (height i + after) * 2 ^ l < 16777216
  /\ (width i * 2 ^ k) * (height i * 2 ^ l) * Z.max 1 (channels i) <= u32_max.
Definition enlarged (i : info) (k l : Z) : info := Info (width i * 2 ^ k) (height i * 2 ^ l) (channels i) (alpha i).

(** the pixel at column x, row y, or the nearest one inside *)
Definition at_or_near (img : image f32) (x y : Z) : list f32 :=
  pixel_at img (Z.max 0 (Z.min (width (info_of img) - 1) x)) (Z.max 0 (Z.min (height (info_of img) - 1) y)).

(** how many pixels before and after the source position are used *)
Definition pixels_before (m : scale_method) : Z := match m with NearestNeighbor => 0 | Bilinear => 0 | Bicubic => 1 | Lanczos => 2 end.
Definition pixels_after (m : scale_method) : Z := match m with NearestNeighbor => 0 | Bilinear => 1 | Bicubic => 2 | Lanczos => 3 end.

(** position (x, y) of the first enlarged image and (x', y') of the second lie alike within a source pixel, and the source pixels around them are the same *)
Definition same_sources (a b : image f32) (k l before after x y x' y' : Z) : Prop :=
  x mod 2 ^ k = x' mod 2 ^ k /\ y mod 2 ^ l = y' mod 2 ^ l
  /\ forall i j, - before <= i <= after -> - before <= j <= after ->
       at_or_near a (x / 2 ^ k + i) (y / 2 ^ l + j) = at_or_near b (x' / 2 ^ k + i) (y' / 2 ^ l + j).

Lemma scale_info_pow (img : image f32) k l after : wf img -> 0 <= after -> fits_pow (info_of img) k l after ->
  scale_info img (f32_of_Z (2 ^ k)) (f32_of_Z (2 ^ l)) = enlarged (info_of img) k l /\ info_ok (enlarged (info_of img) k l)
  /\ width (info_of img) <= 16777216 /\ height (info_of img) <= 16777216
  /\ width (info_of img) * 2 ^ k < 16777216 /\ height (info_of img) * 2 ^ l < 16777216.
Proof.
  intros W Ha (Hk & Hl & Hw & Hh & Hs). pose proof W as [W0 H0 HC _ _ _]. unfold u32_max in *.
  pose proof (pow_range k Hk). pose proof (pow_range l Hl).
  set (w := width (info_of img)) in *. set (h := height (info_of img)) in *. set (c := channels (info_of img)) in *.
  assert (A1 : 0 <= w * 2 ^ k < 16777216) by nia. assert (A2 : 0 <= h * 2 ^ l < 16777216) by nia.
  assert (A3 : 0 <= (w * 2 ^ k) * (h * 2 ^ l)) by nia.
  split; [apply scale_info_int; fold w h; lia|]. split.
  - unfold info_ok, enlarged. cbn [width height channels]. fold w h c. unfold u32_max. conj; try lia; nia.
  - conj; try lia; nia.
Qed.

Section Methods.
  Context (p : profile) (lm : libm).

  Lemma resampled_same (a b : image f32) k l before after win wx wy x y x' y' :
    wf a -> wf b -> channels (info_of a) = channels (info_of b) -> 0 <= before -> 0 <= after -> before <= after + 1 ->
    fits_pow (info_of a) k l after -> fits_pow (info_of b) k l after ->
    (forall m, In m win -> - before <= m <= after) ->
    0 <= x < width (info_of a) * 2 ^ k -> 0 <= y < height (info_of a) * 2 ^ l ->
    0 <= x' < width (info_of b) * 2 ^ k -> 0 <= y' < height (info_of b) * 2 ^ l ->
    same_sources a b k l before after x y x' y' ->
    resampled a (f32_of_Z (2 ^ k)) (f32_of_Z (2 ^ l)) win wx wy x y = resampled b (f32_of_Z (2 ^ k)) (f32_of_Z (2 ^ l)) win wx wy x' y'.
  Proof using Type.
    intros Wa Wb HC Hb Ha Hba (Hk & Hl & Fa1 & Fa2 & _) (_ & _ & Fb1 & Fb2 & _) Hwin Hx Hy Hx' Hy' (Ex & Ey & S).
    pose proof (pow_range k Hk) as Pk. pose proof (pow_range l Hl) as Pl.
    assert (T : forall w e z m, 0 <= e <= 23 -> (w + after) * 2 ^ e < 16777216 -> 0 <= z < w * 2 ^ e -> In m win ->
      tap w (f32_div (f32_of_Z z) (f32_of_Z (2 ^ e))) m = Z.max 0 (Z.min (w - 1) (z / 2 ^ e + m))).
    { intros w e z m He Hw Hz Hm. pose proof (pow_range e He) as Pe. specialize (Hwin m Hm). assert (1 <= w) by nia.
      assert (w * 2 ^ e <= (w + after) * 2 ^ e) by nia. assert ((after + 1) * 2 ^ e <= (w + after) * 2 ^ e) by (apply Z.mul_le_mono_nonneg_r; lia).
      assert (- (after + 1) * 2 ^ e <= m * 2 ^ e) by (apply Z.mul_le_mono_nonneg_r; lia). assert (m * 2 ^ e <= after * 2 ^ e) by (apply Z.mul_le_mono_nonneg_r; lia).
      apply tap_pow; try assumption; lia. }
    assert (B : forall w e z, 0 <= e <= 23 -> (w + after) * 2 ^ e < 16777216 -> 0 <= z < w * 2 ^ e -> 0 <= z <= 16777216).
    { intros w e z He Hw Hz. pose proof (pow_range e He). nia. }
    unfold resampled. cbv zeta. rewrite HC. apply map_ext. intros c.
    rewrite !(frac_pow k) by (try exact Hk; first [apply (B _ k _ Hk Fa1 Hx)|apply (B _ k _ Hk Fb1 Hx')]).
    rewrite !(frac_pow l) by (try exact Hl; first [apply (B _ l _ Hl Fa2 Hy)|apply (B _ l _ Hl Fb2 Hy')]).
    rewrite Ex, Ey. unfold window_sum.
    assert (L : forall t u acc, incl t (list_prod win win) -> u = t ->
       fold_left (fun acc mn => (acc + nth (Z.to_nat c) (pixel_at a (tap (width (info_of a)) (f32_div (f32_of_Z x) (f32_of_Z (2 ^ k))) (fst mn)) (tap (height (info_of a)) (f32_div (f32_of_Z y) (f32_of_Z (2 ^ l))) (snd mn))) f32_0
           * (wx (f32_div (f32_of_Z (x' mod 2 ^ k)) (f32_of_Z (2 ^ k))) (fst mn) * wy (f32_div (f32_of_Z (y' mod 2 ^ l)) (f32_of_Z (2 ^ l))) (snd mn)))%F) t acc
     = fold_left (fun acc mn => (acc + nth (Z.to_nat c) (pixel_at b (tap (width (info_of b)) (f32_div (f32_of_Z x') (f32_of_Z (2 ^ k))) (fst mn)) (tap (height (info_of b)) (f32_div (f32_of_Z y') (f32_of_Z (2 ^ l))) (snd mn))) f32_0
           * (wx (f32_div (f32_of_Z (x' mod 2 ^ k)) (f32_of_Z (2 ^ k))) (fst mn) * wy (f32_div (f32_of_Z (y' mod 2 ^ l)) (f32_of_Z (2 ^ l))) (snd mn)))%F) u acc).
    { intros t u acc Ht ->. revert acc. induction t as [|[m n] t IH]; intros acc; [reflexivity|].
      cbn [fold_left fst snd]. rewrite IH by (intros z Hz; apply Ht; right; exact Hz). f_equal. f_equal. f_equal. f_equal.
      assert (Hmn : In m win /\ In n win) by (apply in_prod_iff, Ht; left; reflexivity). destruct Hmn as [Hm Hn].
      rewrite !T by assumption. exact (S m n (Hwin m Hm) (Hwin n Hn)). }
    apply L; [apply incl_refl|reflexivity].
  Qed.

  (** ** bilinear *)
  Definition to_right (k x : Z) : Z := if x mod 2 ^ k =? 0 then 0 else 1.
  Definition bilinear_pixel (img : image f32) (k l x y : Z) : list f32 :=
    map (fun c => bilinear_mix
        (nth (Z.to_nat c) (at_or_near img (x / 2 ^ k + 0) (y / 2 ^ l + 0)) f32_0) (nth (Z.to_nat c) (at_or_near img (x / 2 ^ k + to_right k x) (y / 2 ^ l + 0)) f32_0)
        (nth (Z.to_nat c) (at_or_near img (x / 2 ^ k + 0) (y / 2 ^ l + to_right l y)) f32_0) (nth (Z.to_nat c) (at_or_near img (x / 2 ^ k + to_right k x) (y / 2 ^ l + to_right l y)) f32_0)
        (f32_div (f32_of_Z (x mod 2 ^ k)) (f32_of_Z (2 ^ k))) (f32_div (f32_of_Z (y mod 2 ^ l)) (f32_of_Z (2 ^ l))))
      (zrange 0 (channels (info_of img))).
  Lemma coords_pow e n x : 0 <= e <= 23 -> 0 <= x < n * 2 ^ e -> n * 2 ^ e < 16777216 ->
    f32_to_int U32 (f32_floor (f32_div (f32_of_Z x) (f32_of_Z (2 ^ e)))) = x / 2 ^ e
    /\ f32_to_int U32 (f32_ceil (f32_div (f32_of_Z x) (f32_of_Z (2 ^ e)))) = x / 2 ^ e + to_right e x
    /\ 0 <= x / 2 ^ e < n.
  Proof using Type.
    intros He Hx Hn. pose proof (pow_range e He) as Pe. pose proof (pos_D e x He ltac:(lia)) as D.
    assert (R : 0 <= x / 2 ^ e < n) by (split; [apply Z.div_pos; lia|apply Z.div_lt_upper_bound; lia]). assert (n <= 16777216) by nia.
    split; [|split; [|exact R]].
    - apply to_int_isZ; cbn [lo hi U32]; try lia. apply floor_D; [exact D|lia].
    - pose proof (ceil_D _ _ _ D ltac:(lia)) as C. unfold to_right. destruct (Z.eqb_spec (x mod 2 ^ e) 0) as [E|E].
      + rewrite Z.div_opp_l_z, Z.opp_involutive in C by lia. apply to_int_isZ; cbn [lo hi U32]; try lia. rewrite Z.add_0_r. exact C.
      + rewrite Z.div_opp_l_nz in C by lia. replace (- (- (x / 2 ^ e) - 1)) with (x / 2 ^ e + 1) in C by lia.
        apply to_int_isZ; cbn [lo hi U32]; try lia. exact C.
  Qed.
  Lemma bilinear_pow (img : image f32) k l : wf img -> fits_pow (info_of img) k l 1 ->
    scales_to p lm img (f32_of_Z (2 ^ k)) (f32_of_Z (2 ^ l)) Bilinear (enlarged (info_of img) k l) (bilinear_pixel img k l).
  Proof using All.
    intros W F. destruct (scale_info_pow img k l 1 W ltac:(lia) F) as (Ei & Hok & Hw & Hh & Hwk & Hhl). destruct F as (Hk & Hl & _).
    pose proof (pow_range k Hk) as Pk. pose proof (pow_range l Hl) as Pl. pose proof (wf_c _ W).
    apply scale_ok; auto; try (apply pos_factor; lia).
    - intros x y Hx Hy. cbn [enlarged width height] in Hx, Hy. cbn [scale_interp].
      destruct (coords_pow k _ x Hk Hx Hwk) as (C1 & C2 & C3). destruct (coords_pow l _ y Hl Hy Hhl) as (D1 & D2 & D3).
      assert (T1 : 0 <= to_right k x <= 1) by (unfold to_right; destruct (_ =? 0); lia). assert (T2 : 0 <= to_right l y <= 1) by (unfold to_right; destruct (_ =? 0); lia).
      unfold bilinear_pixel, at_or_near.
      set (w := width (info_of img)) in *. set (h := height (info_of img)) in *.
      replace (Z.max 0 (Z.min (w - 1) (x / 2 ^ k + 0))) with (x / 2 ^ k) by lia. replace (Z.max 0 (Z.min (h - 1) (y / 2 ^ l + 0))) with (y / 2 ^ l) by lia.
      apply bilinear_eq; auto; fold w h; try lia.
      all: first [exact C1 | exact D1 | rewrite C2; lia | rewrite D2; lia | apply past_point; [exact Hk|lia] | apply past_point; [exact Hl|lia]
                 | split; fold w h; lia | idtac].
    - intros x y _ _. unfold bilinear_pixel. rewrite len_map, len_zrange by lia. cbn [enlarged channels]. lia.
  Qed.

  (** the pixel at (x, y) of the enlarged image, for each method *)
  Definition enlarged_pixel (m : scale_method) (img : image f32) (k l x y : Z) : list f32 :=
    match m with
    | NearestNeighbor => pixel_at img (x / 2 ^ k) (y / 2 ^ l)
    | Bilinear => bilinear_pixel img k l x y
    | Bicubic => resampled img (f32_of_Z (2 ^ k)) (f32_of_Z (2 ^ l)) [-1; 0; 1; 2]
        (fun d m => b_spline (powf lm) (f32_of_Z m - d)%F) (fun d n => b_spline (powf lm) (d - f32_of_Z n)%F) x y
    | Lanczos => resampled img (f32_of_Z (2 ^ k)) (f32_of_Z (2 ^ l)) [-2; -1; 0; 1; 2; 3] (lanczos_weight lm 3) (lanczos_weight lm 3) x y
    end.
  Lemma enlarge_pow (m : scale_method) (img : image f32) k l : wf img -> fits_pow (info_of img) k l (pixels_after m) ->
    scales_to p lm img (f32_of_Z (2 ^ k)) (f32_of_Z (2 ^ l)) m (enlarged (info_of img) k l) (enlarged_pixel m img k l).
  Proof using All.
    intros W F. assert (Ha : 0 <= pixels_after m) by (destruct m; cbn; lia).
    destruct (scale_info_pow img k l _ W Ha F) as (Ei & Hok & Hw & Hh & Hwk & Hhl).
    pose proof F as (Hk & Hl & _ & _ & Hs). pose proof (pow_range k Hk) as Pk. pose proof (pow_range l Hl) as Pl.
    change (scale_info img (f32_of_Z (2 ^ k)) (f32_of_Z (2 ^ l))) with (scaled (info_of img) (f32_of_Z (2 ^ k)) (f32_of_Z (2 ^ l))) in Ei.
    destruct m; cbn [enlarged_pixel].
    - unfold enlarged. apply (C22_integer_factors p lm img (2 ^ k) (2 ^ l) W); try lia; try assumption.
    - apply bilinear_pow; assumption.
    - rewrite <- Ei. apply C66_bicubic; auto; try (apply pos_factor; lia). rewrite Ei. exact Hok.
    - rewrite <- Ei. apply C66_lanczos; auto; try (apply pos_factor; lia). rewrite Ei. exact Hok.
  Qed.
  Lemma enlarged_same (m : scale_method) (a b : image f32) k l x y x' y' : wf a -> wf b -> channels (info_of a) = channels (info_of b) ->
    fits_pow (info_of a) k l (pixels_after m) -> fits_pow (info_of b) k l (pixels_after m) ->
    0 <= x < width (info_of a) * 2 ^ k -> 0 <= y < height (info_of a) * 2 ^ l ->
    0 <= x' < width (info_of b) * 2 ^ k -> 0 <= y' < height (info_of b) * 2 ^ l ->
    same_sources a b k l (pixels_before m) (pixels_after m) x y x' y' ->
    enlarged_pixel m a k l x y = enlarged_pixel m b k l x' y'.
  Proof using All.
    intros Wa Wb HC Fa Fb Hx Hy Hx' Hy' S. pose proof Fa as (Hk & Hl & _). pose proof (pow_range k Hk) as Pk. pose proof (pow_range l Hl) as Pl.
    destruct m; cbn [enlarged_pixel pixels_before pixels_after] in *.
    - destruct S as (_ & _ & S). specialize (S 0 0 ltac:(lia) ltac:(lia)). unfold at_or_near in S. rewrite !Z.add_0_r in S.
      assert (D : forall w e z, 1 <= 2 ^ e -> 0 <= z < w * 2 ^ e -> Z.max 0 (Z.min (w - 1) (z / 2 ^ e)) = z / 2 ^ e).
      { intros w e z He Hz. assert (0 <= z / 2 ^ e < w) by (split; [apply Z.div_pos; lia|apply Z.div_lt_upper_bound; lia]). lia. }
      rewrite !D in S by (assumption || lia). exact S.
    - destruct S as (Ex & Ey & S). unfold bilinear_pixel. rewrite HC. apply map_ext. intros c. unfold to_right. rewrite Ex, Ey.
      assert (Q : forall b : bool, 0 <= (if b then 0 else 1) <= 1) by (intros []; lia).
      pose proof (Q (x' mod 2 ^ k =? 0)) as Tx. pose proof (Q (y' mod 2 ^ l =? 0)) as Ty.
      set (tx := if x' mod 2 ^ k =? 0 then 0 else 1) in *. set (ty := if y' mod 2 ^ l =? 0 then 0 else 1) in *. clearbody tx ty.
      rewrite (S 0 0), (S tx 0), (S 0 ty), (S tx ty) by lia. reflexivity.
    - apply (resampled_same a b k l 1 2); auto; try lia. intros m Hm. cbn in Hm. lia.
    - apply (resampled_same a b k l 2 3); auto; try lia. intros m Hm. cbn in Hm. lia.
  Qed.

  (** ** an output pixel depends only on the source pixels around its position *)
  Lemma near_same (a b : image f32) k l before after x y : 0 <= k -> 0 <= l -> 0 <= before -> 0 <= after -> info_of a = info_of b ->
    0 <= x < width (info_of a) * 2 ^ k -> 0 <= y < height (info_of a) * 2 ^ l ->
    (forall i j, inside a i j -> x / 2 ^ k - before <= i <= x / 2 ^ k + after -> y / 2 ^ l - before <= j <= y / 2 ^ l + after ->
       pixel_at a i j = pixel_at b i j) -> same_sources a b k l before after x y x y.
  Proof using Type.
    intros Hk Hl Hb Ha I Hx Hy S. pose proof (Z.pow_pos_nonneg 2 k ltac:(lia) Hk). pose proof (Z.pow_pos_nonneg 2 l ltac:(lia) Hl).
    split; [reflexivity|]. split; [reflexivity|]. intros i j Hi Hj. unfold at_or_near. rewrite <- I.
    assert (Rx : 0 <= x / 2 ^ k < width (info_of a)) by (split; [apply Z.div_pos; lia|apply Z.div_lt_upper_bound; lia]).
    assert (Ry : 0 <= y / 2 ^ l < height (info_of a)) by (split; [apply Z.div_pos; lia|apply Z.div_lt_upper_bound; lia]).
    apply S; unfold inside; lia.
  Qed.
  Theorem C99_reach (m : scale_method) (a b : image f32) k l x y : wf a -> wf b -> info_of a = info_of b ->
    fits_pow (info_of a) k l (pixels_after m) -> 0 <= x < width (info_of a) * 2 ^ k -> 0 <= y < height (info_of a) * 2 ^ l ->
    (forall i j, inside a i j -> x / 2 ^ k - pixels_before m <= i <= x / 2 ^ k + pixels_after m ->
       y / 2 ^ l - pixels_before m <= j <= y / 2 ^ l + pixels_after m -> pixel_at a i j = pixel_at b i j) ->
    exists oa ob, scale_seq p lm a (f32_of_Z (2 ^ k)) (f32_of_Z (2 ^ l)) m = Ret oa
      /\ scale_seq p lm b (f32_of_Z (2 ^ k)) (f32_of_Z (2 ^ l)) m = Ret ob /\ pixel_at oa x y = pixel_at ob x y.
  Proof using All.
    intros Wa Wb I F Hx Hy S. pose proof F as (Hk & Hl & _).
    destruct (enlarge_pow m a k l Wa F) as (oa & Ea & _ & _ & Ia & Sa).
    destruct (enlarge_pow m b k l Wb ltac:(rewrite <- I; exact F)) as (ob & Eb & _ & _ & Ib & Sb).
    exists oa, ob. split; [exact Ea|]. split; [exact Eb|].
    rewrite Sa, Sb by (split; rewrite ?Ia, ?Ib, <- ?I; cbn [enlarged width height]; assumption).
    apply enlarged_same; rewrite <- ?I; auto. apply near_same; auto; try lia; destruct m; cbn; lia.
  Qed.

  (** ** enlarging a part: away from its edges the same pixels as the part of the enlarged image *)
  Lemma crop_same (a b : image f32) k l before after x0 y0 x y : 0 <= k -> 0 <= l -> 0 <= before -> 0 <= after -> 0 <= x0 -> 0 <= y0 ->
    x0 + width (info_of b) <= width (info_of a) -> y0 + height (info_of b) <= height (info_of a) ->
    (forall i j, inside b i j -> pixel_at b i j = pixel_at a (x0 + i) (y0 + j)) ->
    before <= x / 2 ^ k -> x / 2 ^ k + after < width (info_of b) -> before <= y / 2 ^ l -> y / 2 ^ l + after < height (info_of b) ->
    same_sources a b k l before after (x0 * 2 ^ k + x) (y0 * 2 ^ l + y) x y.
  Proof using Type.
    intros Hk Hl Hb Ha Hx0 Hy0 Hw Hh Hp Hx1 Hx2 Hy1 Hy2. pose proof (Z.pow_pos_nonneg 2 k ltac:(lia) Hk). pose proof (Z.pow_pos_nonneg 2 l ltac:(lia) Hl).
    rewrite (Z.add_comm (x0 * 2 ^ k)), (Z.add_comm (y0 * 2 ^ l)). unfold same_sources. rewrite !Z.mod_add, !Z.div_add by lia.
    split; [reflexivity|]. split; [reflexivity|]. intros i j Hi Hj. unfold at_or_near.
    rewrite (Hp (Z.max 0 (Z.min (width (info_of b) - 1) (x / 2 ^ k + i))) (Z.max 0 (Z.min (height (info_of b) - 1) (y / 2 ^ l + j)))) by (unfold inside; lia).
    f_equal; lia.
  Qed.
  Lemma fits_part (i : info) k l after w h : fits_pow i k l after -> 0 <= w <= width i -> 0 <= h <= height i -> 0 <= after ->
    fits_pow (Info w h (channels i) (alpha i)) k l after.
  Proof using Type.
    intros (Hk & Hl & F1 & F2 & F3) Hw Hh Ha. pose proof (pow_range k Hk). pose proof (pow_range l Hl). unfold fits_pow. cbn [width height channels].
    split; [exact Hk|]. split; [exact Hl|]. split; [nia|]. split; [nia|].
    assert (0 <= w * 2 ^ k <= width i * 2 ^ k) by nia. assert (0 <= h * 2 ^ l <= height i * 2 ^ l) by nia.
    assert (A : w * 2 ^ k * (h * 2 ^ l) <= width i * 2 ^ k * (height i * 2 ^ l)) by (apply Z.mul_le_mono_nonneg; lia).
    apply (Z.mul_le_mono_nonneg_r _ _ (Z.max 1 (channels i))) in A; [|lia]. lia.
  Qed.
  Theorem C99_crop (m : scale_method) (img : image f32) k l x0 y0 w h : wf img -> fits_pow (info_of img) k l (pixels_after m) ->
    0 <= x0 -> 0 <= y0 -> 0 <= w -> 0 <= h -> x0 + w < width (info_of img) -> y0 + h < height (info_of img) ->
    exists big part small, scale_seq p lm img (f32_of_Z (2 ^ k)) (f32_of_Z (2 ^ l)) m = Ret big
      /\ crop_seq p num_f32 img x0 y0 w h = Ret part
      /\ scale_seq p lm part (f32_of_Z (2 ^ k)) (f32_of_Z (2 ^ l)) m = Ret small
      /\ forall x y, pixels_before m <= x / 2 ^ k -> x / 2 ^ k + pixels_after m < w ->
           pixels_before m <= y / 2 ^ l -> y / 2 ^ l + pixels_after m < h ->
           pixel_at small x y = pixel_at big (x0 * 2 ^ k + x) (y0 * 2 ^ l + y).
  Proof using All.
    intros W F Hx0 Hy0 Hw Hh Hxw Hyh. pose proof F as (Hk & Hl & _). pose proof (pow_range k Hk) as Pk. pose proof (pow_range l Hl) as Pl.
    assert (HB : 0 <= pixels_before m) by (destruct m; cbn; lia). assert (HA : 0 <= pixels_after m) by (destruct m; cbn; lia).
    destruct (enlarge_pow m img k l W F) as (big & Eb & _ & _ & Ib & Sb).
    destruct (crop_seq_ok p num_f32 img x0 y0 w h W) as (part & Ep & Wp & Ip & Pp); try lia.
    assert (Fp : fits_pow (info_of part) k l (pixels_after m)) by (rewrite Ip; apply fits_part; auto; lia).
    destruct (enlarge_pow m part k l Wp Fp) as (small & Es & _ & _ & Is & Ss).
    exists big, part, small. split; [exact Eb|]. split; [exact Ep|]. split; [exact Es|]. intros x y Hx1 Hx2 Hy1 Hy2.
    assert (Rx : 0 <= x < w * 2 ^ k).
    { pose proof (Z.div_mod x (2 ^ k) ltac:(lia)). pose proof (Z.mod_pos_bound x (2 ^ k) ltac:(lia)). nia. }
    assert (Ry : 0 <= y < h * 2 ^ l).
    { pose proof (Z.div_mod y (2 ^ l) ltac:(lia)). pose proof (Z.mod_pos_bound y (2 ^ l) ltac:(lia)). nia. }
    assert (RX : 0 <= x0 * 2 ^ k + x < width (info_of img) * 2 ^ k) by nia. assert (RY : 0 <= y0 * 2 ^ l + y < height (info_of img) * 2 ^ l) by nia.
    rewrite Ss by (split; rewrite Is, Ip; cbn [enlarged width height]; assumption).
    rewrite Sb by (split; rewrite Ib; cbn [enlarged width height]; assumption). symmetry.
    apply enlarged_same; auto; try (rewrite Ip; cbn [width height channels]; (reflexivity || assumption)).
    apply crop_same; rewrite ?Ip; cbn [width height]; auto; try lia.
  Qed.

  (** the same for scale_lanczos with any window size *)
  Theorem C99_lanczos_crop (img : image f32) k l sz x0 y0 w h : wf img -> 1 <= sz -> fits_pow (info_of img) k l sz ->
    0 <= x0 -> 0 <= y0 -> 0 <= w -> 0 <= h -> x0 + w < width (info_of img) -> y0 + h < height (info_of img) ->
    exists big part small, scale_lanczos_seq p lm img (f32_of_Z (2 ^ k)) (f32_of_Z (2 ^ l)) sz = Ret big
      /\ crop_seq p num_f32 img x0 y0 w h = Ret part
      /\ scale_lanczos_seq p lm part (f32_of_Z (2 ^ k)) (f32_of_Z (2 ^ l)) sz = Ret small
      /\ forall x y, sz - 1 <= x / 2 ^ k -> x / 2 ^ k + sz < w -> sz - 1 <= y / 2 ^ l -> y / 2 ^ l + sz < h ->
           pixel_at small x y = pixel_at big (x0 * 2 ^ k + x) (y0 * 2 ^ l + y).
  Proof using All.
    intros W Hsz F Hx0 Hy0 Hw Hh Hxw Hyh. pose proof F as (Hk & Hl & F1 & _). pose proof (pow_range k Hk) as Pk. pose proof (pow_range l Hl) as Pl.
    assert (Hs2 : sz < 2147483647) by nia.
    assert (Lz : forall i : image f32, wf i -> fits_pow (info_of i) k l sz ->
      scales_lanczos_to p lm i (f32_of_Z (2 ^ k)) (f32_of_Z (2 ^ l)) sz (enlarged (info_of i) k l)
        (resampled i (f32_of_Z (2 ^ k)) (f32_of_Z (2 ^ l)) (zrange (1 - sz) (sz + 1)) (lanczos_weight lm sz) (lanczos_weight lm sz))).
    { intros i Wi Fi. destruct (scale_info_pow i k l sz Wi ltac:(lia) Fi) as (Ei & Hok & Hwi & Hhi & _).
      change (scale_info i (f32_of_Z (2 ^ k)) (f32_of_Z (2 ^ l))) with (scaled (info_of i) (f32_of_Z (2 ^ k)) (f32_of_Z (2 ^ l))) in Ei.
      rewrite <- Ei. apply C66_scale_lanczos; auto; try (apply pos_factor; lia); try lia. rewrite Ei. exact Hok. }
    destruct (Lz img W F) as (big & Eb & _ & _ & Ib & Sb).
    destruct (crop_seq_ok p num_f32 img x0 y0 w h W) as (part & Ep & Wp & Ip & Pp); try lia.
    assert (Fp : fits_pow (info_of part) k l sz) by (rewrite Ip; apply fits_part; auto; lia).
    destruct (Lz part Wp Fp) as (small & Es & _ & _ & Is & Ss).
    exists big, part, small. split; [exact Eb|]. split; [exact Ep|]. split; [exact Es|]. intros x y Hx1 Hx2 Hy1 Hy2.
    assert (Rx : 0 <= x < w * 2 ^ k).
    { pose proof (Z.div_mod x (2 ^ k) ltac:(lia)). pose proof (Z.mod_pos_bound x (2 ^ k) ltac:(lia)). nia. }
    assert (Ry : 0 <= y < h * 2 ^ l).
    { pose proof (Z.div_mod y (2 ^ l) ltac:(lia)). pose proof (Z.mod_pos_bound y (2 ^ l) ltac:(lia)). nia. }
    assert (RX : 0 <= x0 * 2 ^ k + x < width (info_of img) * 2 ^ k) by nia. assert (RY : 0 <= y0 * 2 ^ l + y < height (info_of img) * 2 ^ l) by nia.
    rewrite Ss by (split; rewrite Is, Ip; cbn [enlarged width height]; assumption).
    rewrite Sb by (split; rewrite Ib; cbn [enlarged width height]; assumption). symmetry.
    apply (resampled_same img part k l (sz - 1) sz); auto; try lia; try (rewrite Ip; cbn [width height channels]; (reflexivity || assumption)).
    - intros m Hm. apply in_zrange in Hm. lia.
    - apply crop_same; rewrite ?Ip; cbn [width height]; auto; try lia.
    Qed.
End Methods.

(** enlarging does not commute with mirroring, for bilinear scaling by 2 *)
Definition ex_row2 : image f32 := Image (Info 2 1 1 false) (map f32_of_Z [0; 100]).
Theorem C99_mirror_refuted p lm :
  zdata (let! o := reflect_image p num_f32 ex_row2 Vertical in scale_seq p lm o (f32_of_Z 2) (f32_of_Z 1) Bilinear) = [100; 50; 0; 0]
  /\ zdata (let! o := scale_seq p lm ex_row2 (f32_of_Z 2) (f32_of_Z 1) Bilinear in reflect_image p num_f32 o Vertical) = [100; 100; 50; 0].
Proof. split; destruct p; vm_compute; reflexivity. Qed.

Example C99_example : fits_pow (Info 40 30 3 false) 2 3 3 /\ (pixels_before Lanczos <= 9 / 2 ^ 2 /\ 9 / 2 ^ 2 + pixels_after Lanczos < 12)
  /\ wfb (Image (Info 2 2 1 false) (map f32_of_Z [1; 2; 3; 4])) = true /\ fits_pow (Info 2 2 1 false) 1 1 3.
Proof. unfold fits_pow, u32_max. cbn [width height channels pixels_before pixels_after]. change (9 / 2 ^ 2) with 2. repeat split; try lia. Qed.
