(** * C54 (normalize_laplacian), C55 (derivative_mask, prewitt, sobel, sobel_weighted) *)
From Verif.Proofs Require Import BaseL ImageL ImageOps ImageProps FilterL FloatL FloatL2 ToneL.
From Verif.Spec Require Import SumS ColorS.
From Verif.Props Require Import ImageP FloatP MatP FilterP FilterP2.
From Flocq Require Import Core BinarySingleNaN Relative Plus_error.
From Coq Require Import Reals Lra.
Open Scope Z_scope.

(** ** C55 *)
(** [out] is [img] filtered by the column [vk] and then by the row [hk] *)
Definition filtered_twice (vk hk : list f32) (img out : image f32) : Prop :=
  exists mid, correlates (column vk) img mid /\ correlates (row hk) mid out.

(** the length of the vector (a, b), with the power function of the math library *)
Definition magnitude (lm : libm) (a b : f32) : f32 :=
  f32_sqrt (f32_add (powf lm a (f32_of_Z 2)) (powf lm b (f32_of_Z 2))).

Lemma pixel_1 (img : image f32) x y : wf img -> channels (info_of img) = 1 -> inside img x y ->
  pixel_at img x y = [value img x y 0].
Proof.
  intros Hwf HC Hin. pose proof (pixel_at_len img Hwf x y Hin) as L. rewrite HC in L. unfold value.
  destruct (pixel_at img x y) as [|a [|b l]]; unfold len in L; cbn in L; try lia. reflexivity.
Qed.

Theorem C55_derivative_mask p b lm (img : image f32) vk hk :
  wf img -> small (info_of img) -> scheduled b (info_of img) ->
  channels (info_of img) = 1 -> alpha (info_of img) = false ->
  Z.odd (len vk) = true -> len hk = len vk -> len vk <= 2 ^ 30 ->
  exists gx gy out, derivative_mask p b lm img vk hk = Ret out
    /\ filtered_twice vk hk img gx /\ filtered_twice hk vk img gy
    /\ info_of out = info_of img /\ wf out
    /\ forall x y, inside img x y -> value out x y 0 = magnitude lm (value gx x y 0) (value gy x y 0).
Proof.
  intros Hwf Hsm Hb HC HA Ho He Hk. unfold derivative_mask.
  rewrite check_grayscale_ok by (unfold grayscale; rewrite HA; exact HC). cbn [bind].
  destruct (C50_separable_filter p b 0 img vk hk) as [m1 [gx [-> [A1 A2]]]]; auto. cbn [bind].
  destruct (C50_separable_filter p b 2 img hk vk) as [m2 [gy [-> [B1 B2]]]]; auto; try congruence. cbn [bind].
  exists gx, gy.
  pose proof Hwf as [w1 w2 w3 w4 w5 w6].
  rewrite blank_ok by (apply wf_info_ok; exact Hwf). cbn [bind].
  set (bl := Image (info_of img) _).
  assert (Hbl : wf bl) by (apply blank_wf, wf_info_ok, Hwf).
  assert (Ib : info_of bl = info_of img) by reflexivity.
  rewrite (full_size_ok bl Hbl p). cbn [bind]. rewrite Ib, HC, Z.mul_1_r. clearbody bl.
  set (W := width (info_of img)) in *. set (H := height (info_of img)) in *.
  assert (Igx : info_of gx = info_of img) by (destruct A1 as [e _], A2 as [e' _]; congruence).
  assert (Igy : info_of gy = info_of img) by (destruct B1 as [e _], B2 as [e' _]; congruence).
  assert (Wgx : wf gx) by apply A2. assert (Wgy : wf gy) by apply B2.
  pose (g := fun i => [magnitude lm (nth 0 (pixel_i gx i) f32_0) (nth 0 (pixel_i gy i) f32_0)]).
  match goal with |- exists out, mfold ?f _ _ = _ /\ _ => set (body := f) end.
  assert (HS : exists out, mfold body (zrange 0 (W * H)) bl = Ret out
     /\ (info_of out = info_of img /\ wf out /\ forall i, 0 <= i < W * H -> pixel_i out i = g i)).
  { assert (0 <= W * H) by (unfold W, H; nia).
    apply (mfold_zrange_inv (fun n o => info_of o = info_of img /\ wf o /\ forall i, 0 <= i < n -> pixel_i o i = g i)).
    - lia.
    - conj; auto. intros i Hi. lia.
    - intros k o Hk' [Io [Wo Ho']]. unfold body.
      assert (Lx : len (pixel_i gx k) = 1) by (rewrite pixel_i_len; [congruence|auto|rewrite Igx; exact Hk']).
      assert (Ly : len (pixel_i gy k) = 1) by (rewrite pixel_i_len; [congruence|auto|rewrite Igy; exact Hk']).
      rewrite (img_index_ok gx Wgx p k) by (rewrite Igx; exact Hk'). cbn [bind].
      rewrite (img_index_ok gy Wgy p k) by (rewrite Igy; exact Hk'). cbn [bind].
      rewrite (vget_ok _ 0 f32_0) by lia. cbn [bind]. rewrite (vget_ok _ 0 f32_0) by lia. cbn [bind].
      exists (put o k (g k)).
      assert (Hk1 : 0 <= k < width (info_of o) * height (info_of o)) by (rewrite Io; exact Hk').
      assert (Hg : len (g k) = channels (info_of o)) by (rewrite Io, HC; reflexivity).
      split; [apply (set_pixel_indexed_ok o Wo p k (g k) Hk1 Hg)|].
      conj.
      + exact Io.
      + apply put_wf; assumption.
      + intros i Hi. destruct (Z.eq_dec i k) as [->|Hne].
        * apply put_same; assumption.
        * rewrite put_other; auto; [apply Ho'; lia|rewrite Io; change (0 <= i < W * H); lia]. }
  destruct HS as [out [E [Io [Wo Hp]]]]. exists out. conj; auto.
  - exists m1; auto.
  - exists m2; auto.
  - intros x y [Hx Hy]. unfold value. rewrite !pixel_at_i. rewrite Io, Igx, Igy. fold W.
    rewrite Hp; [reflexivity|]. unfold W, H in *. nia.
Qed.

(** refuted: every non-empty (gray, alpha) image makes it panic *)
Theorem C55_gray_alpha_refuted p b lm (img : image f32) vk hk :
  wf img -> small (info_of img) -> scheduled b (info_of img) ->
  channels (info_of img) = 2 -> alpha (info_of img) = true ->
  0 < width (info_of img) * height (info_of img) ->
  Z.odd (len vk) = true -> len hk = len vk -> len vk <= 2 ^ 30 ->
  grayscale img /\ derivative_mask p b lm img vk hk = Panic.
Proof.
  intros Hwf Hsm Hb HC HA Hpos Ho He Hk. assert (Hg : grayscale img) by (unfold grayscale; rewrite HA; exact HC).
  split; [exact Hg|]. unfold derivative_mask. rewrite check_grayscale_ok by exact Hg. cbn [bind].
  destruct (C50_separable_filter p b 0 img vk hk) as [m1 [gx [-> [A1 A2]]]]; auto. cbn [bind].
  destruct (C50_separable_filter p b 2 img hk vk) as [m2 [gy [-> [B1 B2]]]]; auto; try congruence. cbn [bind].
  rewrite blank_ok by (apply wf_info_ok; exact Hwf). cbn [bind].
  set (bl := Image (info_of img) _).
  assert (Hbl : wf bl) by (apply blank_wf, wf_info_ok, Hwf).
  assert (Ib : info_of bl = info_of img) by reflexivity.
  rewrite (full_size_ok bl Hbl p). cbn [bind]. rewrite Ib. clearbody bl.
  assert (Igx : info_of gx = info_of img) by (destruct A1 as [e _], A2 as [e' _]; congruence).
  assert (Igy : info_of gy = info_of img) by (destruct B1 as [e _], B2 as [e' _]; congruence).
  assert (Wgx : wf gx) by apply A2. assert (Wgy : wf gy) by apply B2.
  rewrite zrange_cons by (rewrite HC; lia). cbn [mfold].
  assert (Lx : len (pixel_i gx 0) = 2) by (rewrite pixel_i_len; [congruence|auto|rewrite Igx; lia]).
  assert (Ly : len (pixel_i gy 0) = 2) by (rewrite pixel_i_len; [congruence|auto|rewrite Igy; lia]).
  rewrite (img_index_ok gx Wgx p 0) by (rewrite Igx; lia). cbn [bind].
  rewrite (img_index_ok gy Wgy p 0) by (rewrite Igy; lia). cbn [bind].
  rewrite (vget_ok _ 0 f32_0) by lia. cbn [bind]. rewrite (vget_ok _ 0 f32_0) by lia. cbn [bind].
  rewrite set_pixel_indexed_panic; auto; [rewrite Ib, HC; lia|lia|].
  rewrite Ib, HC. intros [_ H]. discriminate H.
Qed.
Example C55_gray_alpha_example lm : prewitt Debug Seq lm ex_ga = Panic /\ sobel Release Seq lm ex_ga = Panic.
Proof. split; apply C55_gray_alpha_refuted; try apply ex_ga_wf; try apply ex_ga_small; try exact I; reflexivity || (cbn; lia). Qed.

(** errors: images that are not grayscale, kernels of even or different length *)
Theorem C55_rejects p b lm (img : image f32) vk hk w :
  (~ grayscale img -> derivative_mask p b lm img vk hk = Fail InvalidArgError
     /\ prewitt p b lm img = Fail InvalidArgError /\ sobel p b lm img = Fail InvalidArgError
     /\ sobel_weighted p b lm img w = Fail InvalidArgError)
  /\ (len vk <= 2 ^ 63 -> len hk <= 2 ^ 63 -> Z.odd (len vk) = false \/ Z.odd (len hk) = false \/ len vk <> len hk ->
      derivative_mask p b lm img vk hk = Fail InvalidArgError).
Proof.
  split.
  - intros Hg. unfold prewitt, sobel, sobel_weighted, derivative_mask. rewrite check_grayscale_bad by exact Hg. repeat split.
  - intros H1 H2 H. unfold derivative_mask. destruct (C61_check_grayscale img) as [G1 G2].
    destruct (C50_rejects p b 0 img vk hk true H1 H2) as [R1 [R2 _]].
    destruct (C50_rejects p b 0 img hk vk true H2 H1) as [R3 _].
    assert (E : separable_filter p b 0 img vk hk = Fail InvalidArgError).
    { destruct H as [H|[H|H]]; [apply R1; exact H|apply R3; exact H|apply R2; exact H]. }
    rewrite E. unfold check_grayscale. destruct (_ || _); reflexivity.
Qed.

(** the operators on integer images: gx = sum_j w_j (v(x+1,y+j) - v(x-1,y+j)) and gy = sum_j w_j (v(x+j,y+1) - v(x+j,y-1))
    with w = (1, w, 1): Prewitt has w = 1, Sobel w = 2 (coordinates outside the image: see [padded]) *)
Definition grad_x (inf : info) (w : Z) (v : Z -> Z -> Z -> Z) (x y : Z) : Z :=
  let X d := padded (width inf) x d in let Y d := padded (height inf) y d in
  (v (X 1) (Y (-1)) 0 - v (X (-1)) (Y (-1)) 0) + w * (v (X 1) (Y 0) 0 - v (X (-1)) (Y 0) 0) + (v (X 1) (Y 1) 0 - v (X (-1)) (Y 1) 0).
Definition grad_y (inf : info) (w : Z) (v : Z -> Z -> Z -> Z) (x y : Z) : Z :=
  let X d := padded (width inf) x d in let Y d := padded (height inf) y d in
  (v (X (-1)) (Y 1) 0 - v (X (-1)) (Y (-1)) 0) + w * (v (X 0) (Y 1) 0 - v (X 0) (Y (-1)) 0) + (v (X 1) (Y 1) 0 - v (X 1) (Y (-1)) 0).

Lemma taps3 (k : list f32) a b c : k = map f32_of_Z [a; b; c] -> Z.abs a <= 16777216 -> Z.abs b <= 16777216 -> Z.abs c <= 16777216 ->
  Ztaps (column k) [(a, 0, -1); (b, 0, 0); (c, 0, 1)] /\ Ztaps (row k) [(a, -1, 0); (b, 0, 0); (c, 1, 0)].
Proof.
  intros -> Ha Hb Hc. unfold Ztaps, column, row. change (zrange 0 (len (map f32_of_Z [a; b; c]))) with [0; 1; 2].
  change (len (map f32_of_Z [a; b; c])) with 3. cbn [map].
  split; repeat (apply Forall2_cons; [split; [cbn [fst]; match goal with |- holds _ ?z => change (isZ (f32_of_Z z) z) end; apply of_Z_isZ; assumption|split; reflexivity]|]); apply Forall2_nil.
Qed.

(** two passes with integer kernels of length 3 *)
Lemma twice3 (vk hk : list f32) a b c d e f (img out : image f32) v m x y :
  vk = map f32_of_Z [a; b; c] -> hk = map f32_of_Z [d; e; f] -> wf img ->
  filtered_twice vk hk img out -> int_image img v -> (forall x y, inside img x y -> Z.abs (v x y 0) <= m) ->
  channels (info_of img) = 1 -> inside img x y ->
  0 <= m -> (Z.abs a + Z.abs b + Z.abs c) * m <= 16777216 ->
  (Z.abs d + Z.abs e + Z.abs f) * ((Z.abs a + Z.abs b + Z.abs c) * m) <= 16777216 ->
  Z.abs a <= 16777216 -> Z.abs b <= 16777216 -> Z.abs c <= 16777216 ->
  Z.abs d <= 16777216 -> Z.abs e <= 16777216 -> Z.abs f <= 16777216 ->
  let X d := padded (width (info_of img)) x d in let Y d := padded (height (info_of img)) y d in
  let V x := a * v x (Y (-1)) 0 + b * v x (Y 0) 0 + c * v x (Y 1) 0 in
  holds (value out x y 0) (d * V (X (-1)) + e * V (X 0) + f * V (X 1)).
Proof.
  intros Ev Eh Hwf [mid [C1 C2]] Hv Hm HC Hin H0 Hb1 Hb2 ? ? ? ? ? ?.
  destruct (taps3 vk a b c Ev) as [Tv _]; auto. destruct (taps3 hk d e f Eh) as [_ Th]; auto.
  set (K := Z.abs a + Z.abs b + Z.abs c) in *.
  pose (v1 := fun x y (_ : Z) => let Y d := padded (height (info_of img)) y d in a * v x (Y (-1)) 0 + b * v x (Y 0) 0 + c * v x (Y 1) 0).
  assert (B : forall x y, inside img x y -> Z.abs (v1 x y 0) <= K * m).
  { intros x1 y1 [Hx Hy]. unfold v1. cbv zeta.
    assert (M : forall q, Z.abs (v x1 (padded (height (info_of img)) y1 q) 0) <= m) by (intros q; apply Hm; split; [exact Hx|apply padded_range; exact Hy]).
    pose proof (M (-1)) as M1. pose proof (M 0) as M2. pose proof (M 1) as M3. clear M.
    set (p1 := v x1 (padded (height (info_of img)) y1 (-1)) 0) in *. set (p2 := v x1 (padded (height (info_of img)) y1 0) 0) in *.
    set (p3 := v x1 (padded (height (info_of img)) y1 1) 0) in *. clearbody p1 p2 p3. unfold K.
    assert (Z.abs (a * p1) <= Z.abs a * m) by (rewrite Z.abs_mul; apply Z.mul_le_mono_nonneg_l; lia).
    assert (Z.abs (b * p2) <= Z.abs b * m) by (rewrite Z.abs_mul; apply Z.mul_le_mono_nonneg_l; lia).
    assert (Z.abs (c * p3) <= Z.abs c * m) by (rewrite Z.abs_mul; apply Z.mul_le_mono_nonneg_l; lia).
    rewrite !Z.mul_add_distr_r. lia. }
  assert (I1 : int_image mid v1).
  { intros x1 y1 c1 Hin1 Hc1. pose proof (proj1 C1) as Im. rewrite Im, HC in Hc1. assert (c1 = 0) as -> by lia.
    assert (Hin1' : inside img x1 y1) by (unfold inside in *; rewrite Im in Hin1; exact Hin1).
    exists (value mid x1 y1 0). split.
    - rewrite pixel_1; [reflexivity|apply C1|congruence|exact Hin1].
    - pose proof (C50_integers_exact _ _ img mid v x1 y1 0 C1 Tv Hv Hin1' ltac:(lia)) as HE.
      unfold Zcorrelation in HE. cbn [map fold_right] in HE. rewrite !(padded_0 (width _)) in HE.
      unfold v1. cbv zeta. 
      match type of HE with _ -> holds _ ?z => match goal with |- holds _ ?z' => replace z' with z by ring end end.
      apply HE.
      destruct Hin1' as [Hx Hy].
      assert (M : forall q, Z.abs (v x1 (padded (height (info_of img)) y1 q) 0) <= m) by (intros q; apply Hm; split; [exact Hx|apply padded_range; exact Hy]).
      rewrite !Z.abs_mul. pose proof (M (-1)) as M1. pose proof (M 0) as M2. pose proof (M 1) as M3. clear M HE.
      set (p1 := Z.abs (v x1 (padded (height (info_of img)) y1 (-1)) 0)) in *. set (p2 := Z.abs (v x1 (padded (height (info_of img)) y1 0) 0)) in *.
      set (p3 := Z.abs (v x1 (padded (height (info_of img)) y1 1) 0)) in *.
      assert (Z.abs a * p1 <= Z.abs a * m) by (apply Z.mul_le_mono_nonneg_l; lia).
      assert (Z.abs b * p2 <= Z.abs b * m) by (apply Z.mul_le_mono_nonneg_l; lia).
      assert (Z.abs c * p3 <= Z.abs c * m) by (apply Z.mul_le_mono_nonneg_l; lia).
      unfold K in Hb1. rewrite !Z.mul_add_distr_r in Hb1. lia. }
  pose proof (proj1 C1) as Im.
  assert (Hin1 : inside mid x y) by (unfold inside; rewrite Im; exact Hin).
  pose proof (C50_integers_exact _ _ mid out v1 x y 0 C2 Th I1 Hin1 ltac:(rewrite Im; lia)) as HE.
  unfold Zcorrelation in HE. cbn [map fold_right] in HE. rewrite Im in HE. rewrite !(padded_0 (height _)) in HE. unfold v1 in HE.
  cbv beta zeta in *.
  match type of HE with _ -> holds _ ?z => match goal with |- holds _ ?z' => replace z' with z by ring end end.
  apply HE. clear HE.
  destruct Hin as [Hx Hy].
  assert (M : forall q, Z.abs (v1 (padded (width (info_of img)) x q) y 0) <= K * m) by (intros q; apply B; split; [apply padded_range; exact Hx|exact Hy]).
  unfold v1 in M. cbv zeta in M.
  rewrite !Z.abs_mul. pose proof (M (-1)) as M1. pose proof (M 0) as M2. pose proof (M 1) as M3. clear M B.
  match goal with |- _ * ?u + (_ * ?w + (_ * ?z + 0)) <= _ => set (p1 := u) in *; set (p2 := w) in *; set (p3 := z) in * end.
  assert (Z.abs d * p1 <= Z.abs d * (K * m)) by (apply Z.mul_le_mono_nonneg_l; lia).
  assert (Z.abs e * p2 <= Z.abs e * (K * m)) by (apply Z.mul_le_mono_nonneg_l; lia).
  assert (Z.abs f * p3 <= Z.abs f * (K * m)) by (apply Z.mul_le_mono_nonneg_l; lia).
  rewrite !Z.mul_add_distr_r in Hb2. lia.
Qed.

Theorem C55_sobel_weighted p b lm (img : image f32) v m w :
  wf img -> small (info_of img) -> scheduled b (info_of img) ->
  channels (info_of img) = 1 -> alpha (info_of img) = false ->
  int_image img v -> (forall x y, inside img x y -> Z.abs (v x y 0) <= m) ->
  0 <= m -> 0 <= w -> 2 * ((w + 2) * m) <= 16777216 -> w <= 16777216 ->
  exists out, sobel_weighted p b lm img w = Ret out /\ info_of out = info_of img /\ wf out
    /\ forall x y, inside img x y -> exists gx gy,
         holds gx (grad_x (info_of img) w v x y) /\ holds gy (grad_y (info_of img) w v x y)
         /\ value out x y 0 = magnitude lm gx gy.
Proof.
  intros Hwf Hsm Hb HC HA Hv Hm H0 Hw Hbd Hw2. unfold sobel_weighted.
  destruct (C55_derivative_mask p b lm img [f32_1; f32_of_Z w; f32_1] K_SOBEL_1D_HORZ) as (gx & gy & out & E & F1 & F2 & Io & Wo & V); auto; try reflexivity.
  { cbn. lia. }
  exists out. conj; auto. intros x y Hin. exists (value gx x y 0), (value gy x y 0).
  assert (E1 : [f32_1; f32_of_Z w; f32_1] = map f32_of_Z [1; w; 1]) by reflexivity.
  assert (Bd : (Z.abs 1 + Z.abs w + Z.abs 1) * m = (w + 2) * m) by (f_equal; lia).
  assert (Hpos : 0 <= (w + 2) * m) by (apply Z.mul_nonneg_nonneg; lia).
  split; [|split].
  - pose proof (twice3 _ _ 1 w 1 (-1) 0 1 img gx v m x y E1 eq_refl Hwf F1 Hv Hm HC Hin) as T. rewrite Bd in T.
    cbv zeta in T. unfold grad_x. cbv zeta.
    match type of T with context [holds _ ?z] => match goal with |- holds _ ?z' => replace z' with z by ring end end.
    apply T; lia.
  - pose proof (twice3 _ _ (-1) 0 1 1 w 1 img gy v m x y eq_refl E1 Hwf F2 Hv Hm HC Hin) as T.
    cbv zeta in T. unfold grad_y. cbv zeta.
    match type of T with context [holds _ ?z] => match goal with |- holds _ ?z' => replace z' with z by ring end end.
    apply T; try lia.
  - apply V. exact Hin.
Qed.

Theorem C55_prewitt_sobel p b lm (img : image f32) : prewitt p b lm img = sobel_weighted p b lm img 1
  /\ sobel p b lm img = sobel_weighted p b lm img 2.
Proof. split; reflexivity. Qed.

(** with a power function that squares, the output is the correctly rounded length of the gradient *)
Theorem C55_gradient_length lm gx gy a b : (forall x, powf lm x (f32_of_Z 2) = f32_mul x x) ->
  holds gx a -> holds gy b -> a * a + b * b <= 16777216 ->
  is_finite (magnitude lm gx gy) = true
  /\ B2R (magnitude lm gx gy) = round radix2 (FLT_exp (-149) 24) ZnearestE (R_sqrt.sqrt (IZR (a * a + b * b))).
Proof.
  intros Hp Ha Hb Hbd. unfold magnitude. rewrite !Hp.
  assert (isZ (f32_add (f32_mul gx gx) (f32_mul gy gy)) (a * a + b * b)).
  { apply add_isZ; [apply mul_isZ; auto; nia|apply mul_isZ; auto; nia|nia]. }
  apply (sqrt_fin _ _ H). apply IZR_le. nia.
Qed.

Definition ex_step : image f32 := Image (Info 3 2 1 false) (map f32_of_Z [0; 0; 9; 0; 0; 9]).
Example C55_example lm : exists out, sobel Debug Seq lm ex_step = Ret out
  /\ exists gx gy, holds gx 36 /\ holds gy 0 /\ value out 1 0 0 = magnitude lm gx gy.
Proof.
  rewrite (proj2 (C55_prewitt_sobel Debug Seq lm ex_step)).
  destruct (C55_sobel_weighted Debug Seq lm ex_step (fun x _ _ => if x =? 2 then 9 else 0) 9 2) as (out & E & _ & _ & V); try reflexivity; try lia.
  - apply wfb_wf. reflexivity.
  - split; cbn; lia.
  - intros x y c [Hx Hy] Hc. cbn [info_of ex_step width height channels] in *. assert (c = 0) as -> by lia.
    assert (x = 0 \/ x = 1 \/ x = 2) as [->|[->| ->]] by lia; (assert (y = 0 \/ y = 1) as [->| ->] by lia);
    (eexists; split; [reflexivity|]; apply of_Z_isZ; cbn; lia).
  - intros x y _. destruct (x =? 2); lia.
  - exists out. split; [exact E|]. apply (V 1 0). split; cbn; lia.
Qed.

(** ** C54 *)
(** the order of the samples, infinities included (false when one of them is NaN) *)
Lemma cmp_gt (x y : f32) : is_nan x = false -> is_nan y = false ->
  match f32_partial_cmp x y with Some Gt => f32_leb y x = true /\ f32_leb x y = false | Some _ => f32_leb x y = true | None => False end.
Proof.
  intros Hx Hy. unfold f32_partial_cmp, f32_leb. unfold Bleb, SpecFloat.SFleb.
  pose proof (Bcompare_swap _ _ x y) as Hs. unfold Bcompare in *.
  destruct (SpecFloat.SFcompare (B2SF x) (B2SF y)) as [[]|] eqn:E; auto.
  - rewrite Hs. cbn. auto.
  - destruct x, y; try discriminate; cbn in E; try discriminate; repeat (match type of E with context [if ?c then _ else _] => destruct c | context [match ?c with _ => _ end] => destruct c end); discriminate.
Qed.
Lemma leb_trans (x y z : f32) : f32_leb x y = true -> f32_leb y z = true -> f32_leb x z = true.
Proof.
  intros H1 H2.
  assert (N : forall a b : f32, f32_leb a b = true -> is_nan a = false /\ is_nan b = false).
  { intros a b H. unfold f32_leb, Bleb, SpecFloat.SFleb in H. destruct a, b; try discriminate; auto. }
  destruct (N x y H1) as [Nx Ny]. destruct (N y z H2) as [_ Nz].
  rewrite leb_ext in * by assumption. revert H1 H2. repeat match goal with |- context [Rle_bool ?a ?b] => destruct (Rle_bool_spec a b) end; try discriminate; auto; lra.
Qed.
Lemma leb_refl (x : f32) : is_nan x = false -> f32_leb x x = true.
Proof. intros H. rewrite leb_ext by assumption. apply Rle_bool_true. lra. Qed.

(** [m] is a smallest / largest sample *)
Definition smallest (m : f32) (d : list f32) : Prop := In m d /\ forall s, In s d -> f32_leb m s = true.
Definition largest (m : f32) (d : list f32) : Prop := In m d /\ forall s, In s d -> f32_leb s m = true.

Lemma min_by_ok (d : list f32) : d <> [] -> Forall (fun s => is_nan s = false) d ->
  exists m, min_by_cmp d = Ret m /\ smallest m d.
Proof.
  intros Hne Hn. destruct d as [|x d]; [congruence|]. clear Hne. cbn [min_by_cmp].
  inversion Hn as [|? ? Hx Hd]; subst. clear Hn. unfold smallest.
  revert x Hx. induction Hd as [|y d Hy Hd IH]; intros x Hx; cbn [mfold].
  - exists x. split; [reflexivity|]. split; [left; reflexivity|]. intros s [<-|[]]. apply leb_refl. exact Hx.
  - pose proof (cmp_gt x y Hx Hy) as Hc. destruct (f32_partial_cmp x y) as [[]|]; try contradiction; cbn [bind].
    + destruct (IH x Hx) as [m [E [Hin Hle]]]. exists m. split; [exact E|]. split; [cbn in *; tauto|].
      intros s [<-|[<-|Hs]]; [apply Hle; left; reflexivity| |apply Hle; right; exact Hs].
      apply (leb_trans _ x); [apply Hle; left; reflexivity|exact Hc].
    + destruct (IH x Hx) as [m [E [Hin Hle]]]. exists m. split; [exact E|]. split; [cbn in *; tauto|].
      intros s [<-|[<-|Hs]]; [apply Hle; left; reflexivity| |apply Hle; right; exact Hs].
      apply (leb_trans _ x); [apply Hle; left; reflexivity|exact Hc].
    + destruct (IH y Hy) as [m [E [Hin Hle]]]. exists m. split; [exact E|]. split; [cbn in *; tauto|].
      intros s [<-|[<-|Hs]]; [|apply Hle; left; reflexivity|apply Hle; right; exact Hs].
      apply (leb_trans _ y); [apply Hle; left; reflexivity|apply Hc].
Qed.
Lemma max_by_ok (d : list f32) : d <> [] -> Forall (fun s => is_nan s = false) d ->
  exists m, max_by_cmp d = Ret m /\ largest m d.
Proof.
  intros Hne Hn. destruct d as [|x d]; [congruence|]. clear Hne. cbn [max_by_cmp].
  inversion Hn as [|? ? Hx Hd]; subst. clear Hn. unfold largest.
  revert x Hx. induction Hd as [|y d Hy Hd IH]; intros x Hx; cbn [mfold].
  - exists x. split; [reflexivity|]. split; [left; reflexivity|]. intros s [<-|[]]. apply leb_refl. exact Hx.
  - pose proof (cmp_gt x y Hx Hy) as Hc. destruct (f32_partial_cmp x y) as [[]|]; try contradiction; cbn [bind].
    + destruct (IH y Hy) as [m [E [Hin Hle]]]. exists m. split; [exact E|]. split; [cbn in *; tauto|].
      intros s [<-|[<-|Hs]]; [|apply Hle; left; reflexivity|apply Hle; right; exact Hs].
      apply (leb_trans _ y); [exact Hc|apply Hle; left; reflexivity].
    + destruct (IH y Hy) as [m [E [Hin Hle]]]. exists m. split; [exact E|]. split; [cbn in *; tauto|].
      intros s [<-|[<-|Hs]]; [|apply Hle; left; reflexivity|apply Hle; right; exact Hs].
      apply (leb_trans _ y); [exact Hc|apply Hle; left; reflexivity].
    + destruct (IH x Hx) as [m [E [Hin Hle]]]. exists m. split; [exact E|]. split; [cbn in *; tauto|].
      intros s [<-|[<-|Hs]]; [apply Hle; left; reflexivity| |apply Hle; right; exact Hs].
      apply (leb_trans _ x); [apply Hc|apply Hle; left; reflexivity].
Qed.
Lemma by_nan (d : list f32) : 2 <= len d -> Exists (fun s => is_nan s = true) d -> min_by_cmp d = Panic.
Proof.
  intros Hl He. destruct d as [|x [|y d]]; [unfold len in Hl; cbn in Hl; lia|unfold len in Hl; cbn in Hl; lia|]. clear Hl.
  cbn [min_by_cmp].
  assert (N : forall a b : f32, is_nan a = true \/ is_nan b = true -> f32_partial_cmp a b = None).
  { intros a b H. unfold f32_partial_cmp, Bcompare. destruct a, b, H; try discriminate; reflexivity. }
  assert (G : forall l (m : f32), is_nan m = true \/ Exists (fun s => is_nan s = true) l -> l <> [] ->
    mfold (fun m y => match f32_partial_cmp m y with None => Panic | Some Gt => Ret y | Some _ => Ret m end) l m = Panic).
  { induction l as [|z l IH]; intros m H Hne; [congruence|]. cbn [mfold].
    destruct (is_nan m) eqn:Em; [rewrite N by auto; reflexivity|]. destruct (is_nan z) eqn:Ez; [rewrite N by auto; reflexivity|].
    assert (Hl : Exists (fun s => is_nan s = true) l).
    { destruct H as [H|H]; [discriminate|]. inversion H; subst; [congruence|assumption]. }
    assert (l <> []) by (destruct l; [inversion Hl|discriminate]).
    destruct (f32_partial_cmp m z) as [[]|]; cbn [bind]; auto. }
  apply G; [|discriminate]. inversion He; subst; auto.
Qed.

Definition scaled (lo hi s : f32) : f32 :=
  f32_add (f32_mul (f32_div (f32_sub s lo) (f32_sub hi lo)) (f32_sub (f32_of_Z 255) f32_0)) f32_0.
Lemma normalize_eq p (img : image f32) lo hi : wf img -> grayscale img ->
  min_by_cmp (data img) = Ret lo -> max_by_cmp (data img) = Ret hi ->
  normalize_laplacian p img = Ret (Image (info_of img) (map (fun s => byte_of (scaled lo hi s)) (data img))).
Proof.
  intros Hwf Hg E1 E2. unfold normalize_laplacian. rewrite check_grayscale_ok by exact Hg. cbn [bind].
  rewrite E1, E2. cbn [bind]. unfold scale_channels. rewrite map_channels_pure by exact Hwf. cbn [bind].
  rewrite C13_f32_to_u8 by (apply map_data_wf; exact Hwf). cbn [info_of data]. rewrite map_map. reflexivity.
Qed.

Lemma sub_fin' (x y : f32) : is_finite x = true -> is_finite y = true ->
  (Rabs (rnd32 (B2R x - B2R y)) < bpow radix2 128)%R -> fin (f32_sub x y) (rnd32 (B2R x - B2R y)).
Proof.
  intros Fx Fy H. pose proof (Bminus_correct 24 128 eq_refl eq_refl mode_NE x y Fx Fy) as C.
  rewrite Rlt_bool_true in C by exact H. destruct C as [C1 [C2 _]]. split; assumption.
Qed.
Lemma sub_finite (x y : f32) : is_finite x = true -> is_finite y = true -> is_finite (f32_sub x y) = true ->
  (Rabs (rnd32 (B2R x - B2R y)) < bpow radix2 128)%R.
Proof.
  intros Fx Fy H. pose proof (Bminus_correct 24 128 eq_refl eq_refl mode_NE x y Fx Fy) as C.
  destruct (Rlt_bool_spec (Rabs (round radix2 (SpecFloat.fexp 24 128) (round_mode mode_NE) (B2R x - B2R y))) (bpow radix2 128)) as [L|L]; [exact L|].
  destruct C as [C _]. exfalso. unfold f32_sub in H.
  match type of C with B2SF ?z = _ => change (is_finite z = true) in H; destruct z; cbn in C, H; try discriminate end.
Qed.

Section Norm.
  Context (lo hi : f32) (Fl : is_finite lo = true) (Fh : is_finite hi = true)
          (Hlt : (B2R lo < B2R hi)%R) (Hd : is_finite (f32_sub hi lo) = true).
  Let d : R := rnd32 (B2R hi - B2R lo).
  Definition real_scaled (r : R) : R := rnd32 (rnd32 (rnd32 (r - B2R lo) / d) * 255).
  Lemma d_pos : (0 < d)%R.
  Proof.
    assert (0 <= d)%R.
    { change 0%R with (IZR 0). apply rnd_ge_Z; [cbn; lra|cbn; lia]. }
    assert (NF : Exp_not_FTZ (FLT_exp (-149) 24)) by (intros e; unfold FLT_exp; lia).
    assert (d <> 0)%R; [|lra]. unfold d, Rminus, rnd32, rnd.
    apply (@round_plus_neq_0 radix2 (FLT_exp (-149) 24) (FLT_exp_valid _ _) NF ZnearestE (valid_rnd_N _)); [apply (fmt_B2R hi)|apply generic_format_opp, (fmt_B2R lo)|lra].
  Qed.
  Lemma step1 r : (B2R lo <= r <= B2R hi)%R -> (0 <= rnd32 (r - B2R lo) <= d)%R.
  Proof.
    intros Hr. split.
    - change 0%R with (IZR 0). apply rnd_ge_Z; [cbn; lra|cbn; lia].
    - apply rnd_le. lra.
  Qed.
  Lemma step2 r : (B2R lo <= r <= B2R hi)%R -> (0 <= rnd32 (r - B2R lo) / d <= 1)%R.
  Proof.
    intros Hr. pose proof (step1 r Hr). pose proof d_pos. split.
    - apply Rmult_le_pos; [lra|]. apply Rlt_le, Rinv_0_lt_compat. lra.
    - apply Rmult_le_reg_r with d; [lra|]. unfold Rdiv. rewrite Rmult_assoc, Rinv_l by lra. lra.
  Qed.
  Lemma step3 r : (B2R lo <= r <= B2R hi)%R -> (0 <= rnd32 (rnd32 (r - B2R lo) / d) <= 1)%R.
  Proof.
    intros Hr. pose proof (step2 r Hr). split.
    - change 0%R with (IZR 0). apply rnd_ge_Z; [cbn; lra|cbn; lia].
    - change 1%R with (IZR 1). apply rnd_le_Z; [cbn; lra|cbn; lia].
  Qed.
  Lemma step4 r : (B2R lo <= r <= B2R hi)%R -> (0 <= real_scaled r <= 255)%R.
  Proof.
    intros Hr. pose proof (step3 r Hr). unfold real_scaled. split.
    - change 0%R with (IZR 0) at 1. apply rnd_ge_Z; [cbn; nra|cbn; lia].
    - apply (rnd_le_Z _ 255); [nra|cbn; lia].
  Qed.
  Lemma big127 (x : R) : (Rabs x <= 65536)%R -> (Rabs x <= bpow radix2 (128 - 1))%R.
  Proof. intros H. eapply Rle_trans; [exact H|]. change 65536%R with (bpow radix2 16). apply bpow_le. lia. Qed.
  Lemma scaled_fin (s : f32) : is_finite s = true -> (B2R lo <= B2R s <= B2R hi)%R -> fin (scaled lo hi s) (real_scaled (B2R s)).
  Proof.
    intros Fs Hr. pose proof (sub_finite _ _ Fh Fl Hd) as Ho. pose proof d_pos as Dp.
    assert (F1 : fin (f32_sub hi lo) d) by (apply sub_fin'; assumption).
    assert (F2 : fin (f32_sub s lo) (rnd32 (B2R s - B2R lo))).
    { apply sub_fin'; auto. pose proof (step1 _ Hr). unfold d in *. rewrite Rabs_pos_eq in * by lra. lra. }
    pose proof (step2 _ Hr) as S2. pose proof (step3 _ Hr) as S3. pose proof (step4 _ Hr) as S4.
    assert (F3 : fin (f32_div (f32_sub s lo) (f32_sub hi lo)) (rnd32 (rnd32 (B2R s - B2R lo) / d))).
    { apply div_fin; auto; [lra|]. apply big127. rewrite Rabs_pos_eq; lra. }
    assert (F4 : isZ (f32_sub (f32_of_Z 255) f32_0) 255).
    { apply (sub_isZ _ _ 255 0); [apply of_Z_isZ; lia|apply isZ_0|lia]. }
    assert (F5 : fin (f32_mul (f32_div (f32_sub s lo) (f32_sub hi lo)) (f32_sub (f32_of_Z 255) f32_0)) (real_scaled (B2R s))).
    { apply mul_fin; auto. apply big127. rewrite Rabs_pos_eq; nra. }
    assert (F6 : fin (scaled lo hi s) (rnd32 (real_scaled (B2R s) + 0))).
    { apply add_fin; [exact F5|exact isZ_0|]. apply big127. rewrite Rplus_0_r, Rabs_pos_eq; lra. }
    rewrite Rplus_0_r in F6. replace (rnd32 (real_scaled (B2R s))) with (real_scaled (B2R s)) in F6; [exact F6|].
    symmetry. apply rnd_fmt. rewrite <- (proj2 F5). apply fmt_B2R.
  Qed.
  Lemma real_mono r r' : (B2R lo <= r)%R -> (r <= r')%R -> (r' <= B2R hi)%R -> (real_scaled r <= real_scaled r')%R.
  Proof.
    intros H1 H2 H3. unfold real_scaled. pose proof d_pos. apply rnd_le. apply Rmult_le_compat_r; [lra|]. apply rnd_le.
    apply Rmult_le_compat_r; [apply Rlt_le, Rinv_0_lt_compat; lra|]. apply rnd_le. lra.
  Qed.
  Lemma real_lo : real_scaled (B2R lo) = 0%R.
  Proof.
    unfold real_scaled. rewrite Rminus_eq_0. assert (Z0 : rnd32 0 = 0%R) by (apply (rnd_Z 0); cbn; lia). rewrite Z0.
    unfold Rdiv. rewrite Rmult_0_l, Z0, Rmult_0_l. exact Z0.
  Qed.
  Lemma real_hi : real_scaled (B2R hi) = 255%R.
  Proof.
    unfold real_scaled. fold d. pose proof d_pos. unfold Rdiv. rewrite Rinv_r by lra.
    assert (Z1 : rnd32 1 = 1%R) by (apply (rnd_Z 1); cbn; lia). rewrite Z1, Rmult_1_l. apply (rnd_Z 255); cbn; lia.
  Qed.
  (** accuracy *)
  Lemma rnd_err (v : R) : (0 <= v <= 255)%R -> (Rabs (rnd32 v - v) <= / 65536)%R.
  Proof.
    intros Hv. destruct (Rle_or_lt (bpow radix2 (-126)) v) as [H|H].
    - eapply Rle_trans; [apply rel_err; rewrite Rabs_pos_eq; lra|]. rewrite Rabs_pos_eq by lra.
      replace (bpow radix2 (-24)) with (/ 16777216)%R by (cbn; lra). lra.
    - assert (0 <= rnd32 v <= bpow radix2 (-126))%R.
      { split; [change 0%R with (IZR 0); apply rnd_ge_Z; [cbn; lra|cbn; lia]|].
        apply rnd_le_fmt; [lra|]. apply generic_format_bpow. cbn. lia. }
      assert (bpow radix2 (-126) <= / 65536)%R.
      { replace (/ 65536)%R with (bpow radix2 (-16)) by (cbn; lra). apply bpow_le. lia. }
      apply Rabs_le. lra.
  Qed.
  Lemma diff_err (a b : f32) : exists e, (Rabs e <= / 16777216)%R /\ rnd32 (B2R a - B2R b) = ((B2R a - B2R b) * (1 + e))%R.
  Proof.
    destruct (FLT_plus_error_N_ex radix2 (-149) 24 (fun z => negb (Z.even z)) (B2R a) (- B2R b)) as [e [He Ee]]; try reflexivity.
    - apply (fmt_B2R a).
    - apply generic_format_opp. apply (fmt_B2R b).
    - exists e. split; [|exact Ee]. eapply Rle_trans; [exact He|]. unfold u_ro. cbn. lra.
  Qed.
  Lemma real_acc (s : f32) : is_finite s = true -> (B2R lo <= B2R s <= B2R hi)%R ->
    (Rabs (real_scaled (B2R s) - 255 * ((B2R s - B2R lo) / (B2R hi - B2R lo))) <= / 128)%R.
  Proof.
    intros Fs Hr. destruct (diff_err s lo) as [e1 [He1 E1]]. destruct (diff_err hi lo) as [e2 [He2 E2]]. fold d in E2.
    apply Rabs_le_inv in He1. apply Rabs_le_inv in He2.
    set (q := ((B2R s - B2R lo) / (B2R hi - B2R lo))%R).
    assert (Hq : (0 <= q <= 1)%R).
    { unfold q. split; [apply Rmult_le_pos; [lra|apply Rlt_le, Rinv_0_lt_compat; lra]|].
      apply Rmult_le_reg_r with (B2R hi - B2R lo)%R; [lra|]. unfold Rdiv. rewrite Rmult_assoc, Rinv_l by lra. lra. }
    assert (Eq : (rnd32 (B2R s - B2R lo) / d = q * ((1 + e1) / (1 + e2)))%R).
    { rewrite E1, E2. unfold q. field. split; lra. }
    assert (Hf : (Rabs ((1 + e1) / (1 + e2) - 1) <= / 1048576)%R).
    { replace ((1 + e1) / (1 + e2) - 1)%R with ((e1 - e2) / (1 + e2))%R by (field; lra).
      unfold Rdiv. rewrite Rabs_mult, Rabs_inv. apply Rmult_le_reg_r with (Rabs (1 + e2)); [rewrite Rabs_pos_eq; lra|].
      rewrite Rmult_assoc, Rinv_l, Rmult_1_r by (rewrite Rabs_pos_eq; lra). rewrite (Rabs_pos_eq (1 + e2)) by lra.
      apply Rabs_le. lra. }
    set (f := ((1 + e1) / (1 + e2))%R) in *. clearbody f. apply Rabs_le_inv in Hf.
    pose proof (step2 _ Hr) as S2. pose proof (step3 _ Hr) as S3. unfold real_scaled.
    set (t := (rnd32 (B2R s - B2R lo) / d)%R) in *.
    pose proof (rnd_err t ltac:(lra)) as R1. apply Rabs_le_inv in R1.
    pose proof (rnd_err (rnd32 t * 255) ltac:(lra)) as R2. apply Rabs_le_inv in R2.
    set (u := rnd32 t) in *. set (w := rnd32 (u * 255)) in *. clearbody w u t q.
    assert (Rabs (t - q) <= / 1048576)%R.
    { rewrite Eq. replace (q * f - q)%R with (q * (f - 1))%R by ring. rewrite Rabs_mult.
      rewrite (Rabs_pos_eq q) by lra. assert (Rabs (f - 1) <= / 1048576)%R by (apply Rabs_le; lra).
      assert (0 <= Rabs (f - 1))%R by apply Rabs_pos. nra. }
    apply Rabs_le_inv in H. apply Rabs_le. lra.
  Qed.
End Norm.

Lemma byte_fin (x : f32) r : fin x r -> byte_of x = byte_of_real r.
Proof. intros [F E]. destruct x; try discriminate; cbn [byte_of]; rewrite E; reflexivity. Qed.
Lemma byte_real_range r : (0 <= r <= 255)%R -> byte_of_real r = Zfloor (r + / 2) /\ 0 <= Zfloor (r + / 2) <= 255.
Proof.
  intros Hr. assert (0 <= Zfloor (r + / 2) <= 255); [|unfold byte_of_real; lia].
  split; [apply Zfloor_lub; lra|]. assert (Zfloor (r + / 2) < 256); [|lia]. apply lt_IZR. eapply Rle_lt_trans; [apply Zfloor_lb|]. lra.
Qed.
Lemma leb_finite (x y : f32) : is_finite x = true -> is_finite y = true -> f32_leb x y = true -> (B2R x <= B2R y)%R.
Proof. intros Fx Fy H. unfold f32_leb in H. rewrite Bleb_correct in H by assumption. destruct (Rle_bool_spec (B2R x) (B2R y)); [assumption|discriminate]. Qed.
Lemma leb_between (lo hi s : f32) : is_finite lo = true -> is_finite hi = true -> f32_leb lo s = true -> f32_leb s hi = true -> is_finite s = true.
Proof.
  intros Fl Fh H1 H2. destruct s as [s|[]| |s m e Hm]; try reflexivity; exfalso.
  - destruct lo as [[]|[]| |[] m e Hm]; discriminate.
  - destruct hi as [[]|[]| |[] m e Hm]; discriminate.
  - destruct lo as [[]|[]| |[] m e Hm]; discriminate.
Qed.
Lemma sub_finite_args (x y : f32) : is_finite (f32_sub x y) = true -> is_finite x = true /\ is_finite y = true.
Proof. destruct x as [[]|[]| |[] m e Hm], y as [[]|[]| |[] m' e' Hm']; cbn; auto; discriminate. Qed.

Lemma scaled_black (lo hi s : f32) : is_finite (f32_sub hi lo) = false -> byte_of (scaled lo hi s) = 0.
Proof.
  intros H. unfold scaled. remember (f32_sub hi lo) as D eqn:ED. clear ED. remember (f32_sub s lo) as N eqn:EN. clear EN.
  assert (E : f32_div N D = B754_nan \/ exists sg, f32_div N D = B754_zero sg).
  { destruct D as [sd|sd| |sd m e Hm]; try discriminate; destruct N as [sn|sn| |sn m' e' Hm']; cbn; eauto. }
  destruct E as [-> |[sg ->]].
  - reflexivity.
  - apply byte_of_holds; [|lia]. assert (Z0 : forall sg, holds (B754_zero sg : f32) 0) by (intros; split; reflexivity).
    destruct sg; apply Z0.
Qed.
Lemma sub_same (x y : f32) : is_finite x = true -> is_finite y = true -> B2R x = B2R y -> exists sg, f32_sub x y = B754_zero sg.
Proof.
  intros Fx Fy E. assert (F : fin (f32_sub x y) (rnd32 (B2R x - B2R y))).
  { apply sub_fin'; auto. rewrite E, Rminus_eq_0. unfold rnd32. rewrite (rnd_Z 0) by (cbn; lia). rewrite Rabs_R0. apply bpow_gt_0. }
  rewrite E, Rminus_eq_0 in F. change 0%R with (IZR 0) in F. unfold rnd32 in F. rewrite (rnd_Z 0) in F by (cbn; lia). destruct F as [F1 F2].
  destruct (f32_sub x y) as [sg|sg| |sg m e Hm]; try discriminate; [eauto|]. exfalso. cbn in F2.
  unfold F2R in F2. cbn in F2. assert (0 < bpow radix2 e)%R by apply bpow_gt_0. apply Rmult_integral in F2 as [F2|F2]; [|lra].
  destruct sg; apply eq_IZR in F2; discriminate.
Qed.

(** the whole behaviour on NaN-free grayscale images. [lo], [hi]: a smallest and a largest sample (alpha samples included) *)
Theorem C54_normalize p (img : image f32) : wf img -> grayscale img ->
  data img <> [] -> Forall (fun s => is_nan s = false) (data img) ->
  exists lo hi out, normalize_laplacian p img = Ret out /\ info_of out = info_of img /\ wf out
    /\ smallest lo (data img) /\ largest hi (data img)
    /\ (is_finite (f32_sub hi lo) = false \/ f32_eqb lo hi = true -> forall u, In u (data out) -> u = 0)
    /\ (is_finite (f32_sub hi lo) = true -> f32_ltb lo hi = true ->
        forall i s u, nth_error (data img) i = Some s -> nth_error (data out) i = Some u ->
          0 <= u <= 255
          /\ (f32_eqb s lo = true -> u = 0) /\ (f32_eqb s hi = true -> u = 255)
          /\ (Rabs (IZR u - 255 * ((B2R s - B2R lo) / (B2R hi - B2R lo))) <= / 2 + / 128)%R
          /\ forall j t v, nth_error (data img) j = Some t -> nth_error (data out) j = Some v -> f32_leb s t = true -> u <= v).
Proof.
  intros Hwf Hg Hne Hn. destruct (min_by_ok _ Hne Hn) as [lo [E1 [Il Hl]]]. destruct (max_by_ok _ Hne Hn) as [hi [E2 [Ih Hh]]].
  exists lo, hi. eexists. split; [apply (normalize_eq p img lo hi); auto|]. conj.
  - reflexivity.
  - apply map_data_wf. exact Hwf.
  - split; assumption.
  - split; assumption.
  - intros H u Hu. cbn [data] in Hu. apply in_map_iff in Hu as [s [<- Hs]]. destruct (is_finite (f32_sub hi lo)) eqn:Ef; [|apply scaled_black; exact Ef].
    destruct H as [H|H]; [discriminate|]. destruct (sub_finite_args _ _ Ef) as [Fh Fl].
    assert (Fs : is_finite s = true) by (apply (leb_between lo hi); auto).
    assert (Elh : B2R lo = B2R hi).
    { unfold f32_eqb in H. rewrite Beqb_correct in H by assumption. destruct (Req_bool_spec (B2R lo) (B2R hi)); [assumption|discriminate]. }
    pose proof (leb_finite _ _ Fl Fs (Hl s Hs)). pose proof (leb_finite _ _ Fs Fh (Hh s Hs)).
    destruct (sub_same s lo Fs Fl ltac:(lra)) as [g1 Eg1]. destruct (sub_same hi lo Fh Fl ltac:(lra)) as [g2 Eg2].
    unfold scaled. rewrite Eg1, Eg2. destruct g1, g2; vm_compute; reflexivity.
  - intros Ef Hlt i s u Es Eu. destruct (sub_finite_args _ _ Ef) as [Fh Fl].
    assert (Lt : (B2R lo < B2R hi)%R).
    { unfold f32_ltb in Hlt. rewrite Bltb_correct in Hlt by assumption. destruct (Rlt_bool_spec (B2R lo) (B2R hi)); [assumption|discriminate]. }
    assert (G : forall i s u, nth_error (data img) i = Some s ->
       nth_error (data (Image (info_of img) (map (fun s => byte_of (scaled lo hi s)) (data img)))) i = Some u ->
       is_finite s = true /\ (B2R lo <= B2R s <= B2R hi)%R /\ u = Zfloor (real_scaled lo hi (B2R s) + / 2) /\ 0 <= u <= 255).
    { intros i0 s0 u0 Es0 Eu0. cbn [data] in Eu0. rewrite nth_error_map, Es0 in Eu0. cbn in Eu0. injection Eu0 as <-.
      pose proof (nth_error_In _ _ Es0) as Hs0.
      assert (Fs : is_finite s0 = true) by (apply (leb_between lo hi); auto).
      pose proof (leb_finite _ _ Fl Fs (Hl s0 Hs0)). pose proof (leb_finite _ _ Fs Fh (Hh s0 Hs0)).
      assert (Hr : (B2R lo <= B2R s0 <= B2R hi)%R) by lra.
      rewrite (byte_fin _ _ (scaled_fin lo hi Fl Fh Lt Ef s0 Fs Hr)).
      destruct (byte_real_range _ (step4 lo hi Lt _ Hr)) as [Eb Hb]. rewrite Eb. auto. }
    destruct (G i s u Es Eu) as (Fs & Hr & Eq & Hu).
    assert (EQ : forall x y : f32, is_finite x = true -> is_finite y = true -> f32_eqb x y = true -> B2R x = B2R y).
    { intros x y Fx Fy H. unfold f32_eqb in H. rewrite Beqb_correct in H by assumption. destruct (Req_bool_spec (B2R x) (B2R y)); [assumption|discriminate]. }
    conj.
    + apply Hu.
    + apply Hu.
    + intros H. apply EQ in H; auto. rewrite Eq, H, real_lo. apply Zfloor_imp. cbn. lra.
    + intros H. apply EQ in H; auto. rewrite Eq, H, real_hi by exact Lt. apply Zfloor_imp. cbn. lra.
    + pose proof (real_acc lo hi Lt s Fs Hr) as Ha. apply Rabs_le_inv in Ha. subst u.
      set (r := real_scaled lo hi (B2R s)) in *. pose proof (Zfloor_lb (r + / 2)). pose proof (Zfloor_ub (r + / 2)).
      apply Rabs_le. lra.
    + intros j t v Et Ev Hst. destruct (G j t v Et Ev) as (Ft & Hrt & Eqv & _). subst u v. apply Zfloor_le.
      pose proof (leb_finite _ _ Fs Ft Hst). apply Rplus_le_compat_r. apply real_mono; lra.
Qed.

(** errors and panics *)
Theorem C54_rejects p (img : image f32) :
  (~ grayscale img -> normalize_laplacian p img = Fail InvalidArgError)
  /\ (grayscale img -> data img = [] -> normalize_laplacian p img = Panic)
  /\ (grayscale img -> 2 <= len (data img) -> Exists (fun s => is_nan s = true) (data img) -> normalize_laplacian p img = Panic).
Proof.
  unfold normalize_laplacian. conj; intros Hg.
  - rewrite check_grayscale_bad by exact Hg. reflexivity.
  - intros ->. rewrite check_grayscale_ok by exact Hg. reflexivity.
  - intros Hl He. rewrite check_grayscale_ok by exact Hg. cbn [bind]. rewrite by_nan; auto.
Qed.

(** 'the maximum becomes 255 when it differs from the minimum' is refuted: the range of these two samples overflows *)
Definition ex_wide : image f32 := Image (Info 2 1 1 false) (map f32_of_Z [- 2 ^ 127; 2 ^ 127]).
Theorem C54_range_overflow_refuted p : wf ex_wide /\ grayscale ex_wide /\ Forall (fun s => is_finite s = true) (data ex_wide)
  /\ f32_ltb (f32_of_Z (- 2 ^ 127)) (f32_of_Z (2 ^ 127)) = true
  /\ normalize_laplacian p ex_wide = Ret (Image (info_of ex_wide) [0; 0]).
Proof.
  split; [apply wfb_wf; reflexivity|]. split; [reflexivity|]. split; [repeat constructor|]. split; [vm_compute; reflexivity|].
  destruct p; vm_compute; reflexivity.
Qed.
(** alpha samples take part: the only gray sample of this image is 10; it is scaled against the alpha sample 25, which is scaled too *)
Definition ex_ga2 : image f32 := Image (Info 1 1 2 true) (map f32_of_Z [10; 25]).
Example C54_alpha_example p : normalize_laplacian p ex_ga2 = Ret (Image (info_of ex_ga2) [0; 255]).
Proof. destruct p; vm_compute; reflexivity. Qed.
Example C54_example p : wf ex_step /\ grayscale ex_step /\ data ex_step <> [] /\ Forall (fun s => is_nan s = false) (data ex_step)
  /\ normalize_laplacian p ex_step = Ret (Image (info_of ex_step) [0; 0; 255; 0; 0; 255]).
Proof. split; [apply wfb_wf; reflexivity|]. split; [reflexivity|]. split; [discriminate|]. split; [repeat constructor|]. destruct p; vm_compute; reflexivity. Qed.
