(** * C22, C23: src/transform.rs, scale (nearest neighbour and bilinear). *)
From Coq Require Import Permutation Lra.
From Verif.Model Require Import Transform.
From Verif.Spec Require Import ImageS SumS.
From Verif.Proofs Require Import BaseL ImageL Safe TransformL FloatL FloatL2 DyadL.
From Verif.Props Require Import TransformP.
Open Scope Z_scope.

(** ** specification: both builds return the same image, of shape [inf], showing [g] *)
Definition scales_to p lm (img : image f32) (xf yf : f32) (m : scale_method) (inf : info) (g : Z -> Z -> list f32) : Prop :=
  exists out, scale_seq p lm img xf yf m = Ret out
    /\ (forall sched, Permutation sched (zrange 0 (width inf * height inf)) -> scale_par p lm sched img xf yf m = Ret out)
    /\ wf out /\ info_of out = inf /\ shows out g.
(** both builds panic *)
Definition scale_panics p lm (img : image f32) (xf yf : f32) (m : scale_method) : Prop :=
  scale_seq p lm img xf yf m = Panic
  /\ forall sched, Permutation sched (zrange 0 (width (scale_info img xf yf) * height (scale_info img xf yf))) ->
       scale_par p lm sched img xf yf m = Panic.

Lemma non_neg_ok (f : f32) : f32_ltb f f32_0 = false -> check_non_neg num_f32 f = Ret tt.
Proof. intros H. unfold check_non_neg. change (n_ltb num_f32 f (n_zero num_f32)) with (f32_ltb f f32_0). rewrite H. reflexivity. Qed.

Lemma scale_ok p lm (img : image f32) xf yf m inf g : wf img -> f32_ltb xf f32_0 = false -> f32_ltb yf f32_0 = false ->
  scale_info img xf yf = inf -> info_ok inf ->
  (forall x y, 0 <= x < width inf -> 0 <= y < height inf -> scale_interp p lm m img xf yf x y = Ret (g x y)) ->
  (forall x y, 0 <= x < width inf -> 0 <= y < height inf -> len (g x y) = channels inf) ->
  scales_to p lm img xf yf m inf g.
Proof.
  intros Hwf Hx Hy Hinf Hok Hg Hlen.
  assert (S : exists out, scale_seq p lm img xf yf m = Ret out /\ wf out /\ info_of out = inf /\ shows out g).
  { unfold scale_seq. rewrite !non_neg_ok by assumption. cbn [bind]. rewrite Hinf, blank_ok by exact Hok. cbn [bind].
    unfold scale_loop_seq. cbn [info_of].
    set (im0 := Image inf _).
    destruct (write_rect p (fun x y => Some (g x y)) (fun out x y => let! px := scale_interp p lm m img xf yf x y in set_pixel p out x y px)
       0 (width inf) 0 (height inf) im0) as [out [E [W [I P]]]].
    - apply blank_wf. exact Hok.
    - intros im x y Hxx Hyy _ _. rewrite Hg by assumption. reflexivity.
    - intros x y Hxx Hyy _. split; assumption.
    - intros x y px Hxx Hyy H. injection H as <-. apply Hlen; assumption.
    - exists out. conj; auto. intros x y Hin. rewrite P.
      + destruct Hin as [A B]. rewrite I in A, B. cbn in A, B.
        replace ((0 <=? x) && (x <? width inf) && (0 <=? y) && (y <? height inf)) with true by lia. reflexivity.
      + unfold inside in *. rewrite I in Hin. exact Hin. }
  destruct S as [out [E [W [I P]]]]. exists out. conj; auto.
  intros sched Hp. rewrite <- E. apply C17_scale_seq_par; [exact Hwf| |rewrite Hinf; exact Hp].
  right. rewrite Hinf. destruct Hok as (?&?&?&?&?). split; assumption.
Qed.
Lemma scale_panic p lm (img : image f32) xf yf m x y : wf img -> f32_ltb xf f32_0 = false -> f32_ltb yf f32_0 = false ->
  info_ok (scale_info img xf yf) ->
  0 <= x < width (scale_info img xf yf) -> 0 <= y < height (scale_info img xf yf) ->
  scale_interp p lm m img xf yf x y = Panic -> scale_panics p lm img xf yf m.
Proof.
  intros Hwf Hx Hy Hok Hxx Hyy Hp. set (inf := scale_info img xf yf) in *. pose proof (wf_c _ Hwf) as HC.
  assert (S : scale_seq p lm img xf yf m = Panic).
  { unfold scale_seq. rewrite !non_neg_ok by assumption. cbn [bind]. fold inf. rewrite blank_ok by exact Hok. cbn [bind].
    unfold scale_loop_seq. cbn [info_of]. rewrite (loop_eq p inf); [|apply blank_wf; exact Hok|reflexivity|].
    - rewrite (mmap_panic _ _ (y * width inf + x)); [reflexivity| | |].
      + apply in_zrange. destruct (pos_bound (width inf) (height inf) 0 x y); lia.
      + replace ((y * width inf + x) mod width inf) with x by (rewrite Z.add_comm, Z.mod_add, Z.mod_small; lia).
        replace ((y * width inf + x) / width inf) with y by (rewrite Z.add_comm, Z.div_add, Z.div_small; lia). exact Hp.
      + intros b _. pose proof (safe_interp p lm img ltac:(lia) ltac:(lia) m xf yf (b mod width inf) (b / width inf)) as Sf.
        cbv beta. destruct (scale_interp p lm m img xf yf (b mod width inf) (b / width inf)); cbn in Sf; try contradiction.
        * left. eauto.
        * right. reflexivity.
    - intros a b _ _. apply safe_interp; lia. }
  split; [exact S|]. intros sched Hperm. rewrite <- S. apply C17_scale_seq_par; [exact Hwf| |exact Hperm].
  right. destruct Hok as (?&?&?&?&?). split; assumption.
Qed.

(** ** C22 *)
(** the source coordinate computed for output coordinate x: ceil((x+1)/f) - 1 in f32 *)
Definition nn_coord (f : f32) (x : Z) : Z :=
  f32_to_int U32 (f32_sub (f32_ceil (f32_div (f32_of_Z (x + 1)) f)) f32_1).

(** Exactly when scaling works: every computed source coordinate must be inside; then
    the result consists of input pixels.  Otherwise the call panics. *)
Theorem C22_nearest_exact p lm (img : image f32) xf yf :
  wf img -> f32_ltb xf f32_0 = false -> f32_ltb yf f32_0 = false -> info_ok (scale_info img xf yf) ->
  let w' := width (scale_info img xf yf) in
  let h' := height (scale_info img xf yf) in
  w' < u32_max -> h' < u32_max ->
  ((forall x y, 0 <= x < w' -> 0 <= y < h' -> nn_coord xf x < width (info_of img) /\ nn_coord yf y < height (info_of img)) ->
     scales_to p lm img xf yf NearestNeighbor (scale_info img xf yf)
       (fun x y => pixel_at img (nn_coord xf x) (nn_coord yf y)))
  /\ ((exists x y, 0 <= x < w' /\ 0 <= y < h' /\ (width (info_of img) <= nn_coord xf x \/ height (info_of img) <= nn_coord yf y)) ->
     scale_panics p lm img xf yf NearestNeighbor).
Proof.
  intros Hwf Hx Hy Hok w' h' Hw' Hh'. unfold u32_max in *.
  assert (Eq : forall x y, 0 <= x < w' -> 0 <= y < h' ->
    scale_interp p lm NearestNeighbor img xf yf x y = get_pixel p img (nn_coord xf x) (nn_coord yf y)).
  { intros x y Hxx Hyy. cbn [scale_interp]. unfold interpolate_nearest_neighbor.
    rewrite !iadd_ok by ity_lia. reflexivity. }
  assert (R : forall f x, 0 <= nn_coord f x <= 4294967295) by (intros; apply u32_range).
  split.
  - intros Hin. apply scale_ok; auto.
    + intros x y Hxx Hyy. rewrite Eq by assumption. apply get_pixel_ok; auto.
      destruct (Hin x y Hxx Hyy). pose proof (R xf x). pose proof (R yf y). split; lia.
    + intros x y Hxx Hyy. apply pixel_at_len; auto.
      destruct (Hin x y Hxx Hyy). pose proof (R xf x). pose proof (R yf y). split; lia.
  - intros (x & y & Hxx & Hyy & Hout). apply (scale_panic p lm img xf yf NearestNeighbor x y); auto.
    rewrite Eq by assumption. apply get_pixel_panic; auto; try (pose proof (R xf x); pose proof (R yf y); lia).
    unfold inside. lia.
Qed.

(** integer factors *)
Lemma ceil_div_int a n : 1 <= a < 16777216 -> 1 <= n <= 16777216 ->
  isZ (f32_ceil (f32_div (f32_of_Z a) (f32_of_Z n))) ((a - 1) / n + 1).
Proof.
  intros Ha Hn. assert (Hnp : (1 <= IZR n)%R) by (apply IZR_le; lia).
  set (v := (IZR a / IZR n)%R).
  assert (Hv0 : (0 < v)%R) by (apply Rdiv_lt_0_compat; [apply IZR_lt; lia|lra]).
  assert (Hva : (v <= IZR a)%R).
  { unfold v, Rdiv. rewrite <- (Rmult_1_r (IZR a)) at 2. apply Rmult_le_compat_l; [apply IZR_le; lia|].
    rewrite <- Rinv_1. apply Rinv_le_contravar; lra. }
  assert (Hf : fin (f32_div (f32_of_Z a) (f32_of_Z n)) (rnd32 v)).
  { apply div_fin; try (apply of_Z_isZ; lia); [lra|]. fold v. rewrite Rabs_pos_eq by lra.
    apply Rle_trans with (IZR a); [exact Hva|]. apply Rle_trans with (Rabs (IZR a)); [apply Rle_abs|]. apply bigZ. lia. }
  set (q := (a - 1) / n).
  pose proof (Z.div_mod (a - 1) n ltac:(lia)) as Hdm. pose proof (Z.mod_pos_bound (a - 1) n ltac:(lia)) as Hmb. fold q in Hdm.
  assert (Hq : 0 <= q <= a) by (split; [apply Z.div_pos; lia|nia]).
  assert (Hle : (v <= IZR (q + 1))%R).
  { unfold v. apply Rmult_le_reg_r with (IZR n); [lra|]. unfold Rdiv. rewrite Rmult_assoc, Rinv_l, Rmult_1_r by lra.
    rewrite <- mult_IZR. apply IZR_le. nia. }
  assert (Hge : (IZR q + / IZR n <= v)%R).
  { unfold v. apply Rmult_le_reg_r with (IZR n); [lra|]. rewrite Rmult_plus_distr_r, Rinv_l by lra.
    unfold Rdiv. rewrite Rmult_assoc, Rinv_l, Rmult_1_r by lra. rewrite <- mult_IZR, <- plus_IZR. apply IZR_le. nia. }
  assert (Hup : (rnd32 v <= IZR (q + 1))%R) by (apply rnd_le_Z; [exact Hle|lia]).
  assert (Hlo : (IZR q < rnd32 v)%R).
  { assert (Hsmall : (bpow radix2 (-126) <= Rabs v)%R).
    { rewrite Rabs_pos_eq by lra. apply Rle_trans with (bpow radix2 (-24)); [apply bpow_le; lia|].
      assert (/ IZR 16777216 <= / IZR n)%R by (apply Rinv_le_contravar; [lra|apply IZR_le; lia]).
      assert (0 <= IZR q)%R by (apply IZR_le; lia).
      change (bpow radix2 (-24)) with (/ IZR 16777216)%R. lra. }
    pose proof (rel_err v Hsmall) as Re. rewrite (Rabs_pos_eq v) in Re by lra. apply Rabs_le_inv in Re.
    assert (Hs : (bpow radix2 (-24) * v < / IZR n)%R).
    { change (bpow radix2 (-24)) with (/ IZR 16777216)%R. unfold v, Rdiv. rewrite <- Rmult_assoc.
      rewrite <- (Rmult_1_l (/ IZR n)) at 2. apply Rmult_lt_compat_r; [apply Rinv_0_lt_compat; lra|].
      assert (IZR a < IZR 16777216)%R by (apply IZR_lt; lia).
      apply Rmult_lt_reg_l with (IZR 16777216); [lra|]. rewrite <- Rmult_assoc, Rinv_r by lra. lra. }
    lra. }
  pose proof (nearby_fin (prec := 24) (emax := 128) mode_UP _ _ Hf) as E. cbn [round_mode] in E.
  replace (Zceil (rnd32 v)) with (q + 1) in E; [exact E|]. symmetry. apply Zceil_imp.
  replace (q + 1 - 1) with q by lia. split; assumption.
Qed.
Lemma nn_coord_int n x : 0 <= x -> x + 1 < 16777216 -> 1 <= n <= 16777216 -> nn_coord (f32_of_Z n) x = x / n.
Proof.
  intros Hx Hx1 Hn. unfold nn_coord.
  assert (0 <= x / n <= x) by (split; [apply Z.div_pos; lia|apply Z.div_le_upper_bound; nia]).
  apply to_int_isZ; cbn [lo hi U32]; try lia.
  replace (x / n) with (x / n + 1 - 1) at 1 by lia. apply sub_isZ; [|apply isZ_1|lia].
  pose proof (ceil_div_int (x + 1) n ltac:(lia) Hn) as C. replace (x + 1 - 1) with x in C by lia. exact C.
Qed.
Lemma scale_info_int (img : image f32) n m : 0 <= width (info_of img) -> 0 <= height (info_of img) -> 1 <= n -> 1 <= m ->
  width (info_of img) * n < 16777216 -> height (info_of img) * m < 16777216 -> n < 16777216 -> m < 16777216 ->
  scale_info img (f32_of_Z n) (f32_of_Z m)
  = Info (width (info_of img) * n) (height (info_of img) * m) (channels (info_of img)) (alpha (info_of img)).
Proof.
  intros Hw Hh Hn Hm Hwn Hhm Hn' Hm'. unfold scale_info.
  assert (E : forall a k, 0 <= a -> 1 <= k < 16777216 -> a * k < 16777216 ->
     f32_to_int U32 (f32_round (f32_mul (f32_of_Z a) (f32_of_Z k))) = a * k).
  { intros a k Ha Hk Hak. apply to_int_isZ; cbn [lo hi U32]; try nia. apply round_isZ. apply mul_isZ; try apply of_Z_isZ; nia. }
  rewrite !E by lia. reflexivity.
Qed.
Lemma pos_factor n : 0 <= n <= 16777216 -> f32_ltb (f32_of_Z n) f32_0 = false.
Proof. intros H. rewrite (ltb_isZ _ _ n 0); [lia|apply of_Z_isZ; lia|apply isZ_0]. Qed.

Theorem C22_integer_factors p lm (img : image f32) n m :
  wf img -> 1 <= n < 16777216 -> 1 <= m < 16777216 ->
  width (info_of img) * n < 16777216 -> height (info_of img) * m < 16777216 ->
  (width (info_of img) * n) * (height (info_of img) * m) * Z.max 1 (channels (info_of img)) <= u32_max ->
  scales_to p lm img (f32_of_Z n) (f32_of_Z m) NearestNeighbor
    (Info (width (info_of img) * n) (height (info_of img) * m) (channels (info_of img)) (alpha (info_of img)))
    (fun x y => pixel_at img (x / n) (y / m)).
Proof.
  intros Hwf Hn Hm Hwn Hhm Hfit. pose proof Hwf as [Hw Hh HC Hsz Hfull Hd]. unfold u32_max in *.
  set (w := width (info_of img)) in *. set (h := height (info_of img)) in *. set (c := channels (info_of img)) in *.
  assert (Ei : scale_info img (f32_of_Z n) (f32_of_Z m) = Info (w * n) (h * m) c (alpha (info_of img)))
    by (apply scale_info_int; fold w h; lia).
  assert (A1 : 0 <= w * n) by nia. assert (A2 : 0 <= h * m) by nia.
  assert (A3 : 0 <= (w * n) * (h * m)) by nia.
  assert (Hok : info_ok (scale_info img (f32_of_Z n) (f32_of_Z m))).
  { rewrite Ei. unfold info_ok. cbn [width height channels]. unfold u32_max. conj; try lia; nia. }
  destruct (C22_nearest_exact p lm img (f32_of_Z n) (f32_of_Z m) Hwf) as [H _]; auto; try (apply pos_factor; lia).
  1,2: rewrite Ei; cbn [width height]; unfold u32_max; lia.
  rewrite Ei in H. cbn [width height] in H.
  assert (B : forall k a x, 1 <= k -> 0 <= a -> 0 <= x < a * k -> 0 <= x / k < a).
  { intros k a x Hk Ha Hx. split; [apply Z.div_pos; lia|apply Z.div_lt_upper_bound; lia]. }
  destruct H as [out (E & Ep & W & I & S)].
  { intros x y Hx Hy. rewrite !nn_coord_int by lia. fold w h. pose proof (B n w x). pose proof (B m h y). lia. }
  exists out. conj; auto. intros x y Hin. rewrite (S x y Hin). destruct Hin as [Hx Hy]. rewrite I in Hx, Hy. cbn in Hx, Hy.
  rewrite !nn_coord_int by lia. reflexivity.
Qed.
(** factor 1: the image itself *)
Theorem C22_identity p lm (img : image f32) : wf img -> width (info_of img) < 16777216 -> height (info_of img) < 16777216 ->
  scale_seq p lm img f32_1 f32_1 NearestNeighbor = Ret img.
Proof.
  intros Hwf Hw Hh. pose proof Hwf as [? ? HC ? Hfull ?].
  assert (Hfit : width (info_of img) * 1 * (height (info_of img) * 1) * Z.max 1 (channels (info_of img)) <= u32_max).
  { rewrite !Z.mul_1_r. destruct (Z.max_spec 1 (channels (info_of img))) as [[_ ->]|[_ ->]]; lia. }
  destruct (C22_integer_factors p lm img 1 1 Hwf ltac:(lia) ltac:(lia) ltac:(lia) ltac:(lia) Hfit) as [out (E & _ & W & I & S)].
  change f32_1 with (f32_of_Z 1). rewrite E. f_equal. rewrite !Z.mul_1_r in I.
  apply image_ext; auto.
  - rewrite I. destruct (info_of img); reflexivity.
  - intros x y Hin. rewrite S by exact Hin. rewrite !Z.div_1_r. reflexivity.
Qed.
(** factor 1/2: fine for even sizes, a panic for every odd width or height *)
Definition f32_half : f32 := f32_dec 5 1.
Lemma half_D : isD f32_half 1 1.
Proof.
  assert (E : f32_half = f32_div (f32_of_Z 1) (f32_of_Z 2)) by (apply B2SF_inj; vm_compute; reflexivity).
  rewrite E. apply div_pow2_D; try (apply of_Z_isZ; lia); lia.
Qed.
Lemma half_pos : f32_ltb f32_half f32_0 = false.
Proof. vm_compute. reflexivity. Qed.
Lemma nn_coord_half x : 0 <= x < 8388607 -> nn_coord f32_half x = 2 * x + 1.
Proof.
  intros Hx. unfold nn_coord. apply to_int_isZ; cbn [lo hi U32]; try lia.
  replace (2 * x + 1) with (2 * x + 2 - 1) by lia. apply sub_isZ; [|apply isZ_1|lia].
  apply ceil_isZ. unfold isZ.
  assert (E : (IZR (2 * x + 2) = IZR (x + 1) / (IZR 1 * bpow radix2 (- (1))))%R).
  { change (bpow radix2 (- (1))) with (/ 2)%R. replace (2 * x + 2) with ((x + 1) * 2) by lia. rewrite mult_IZR. field. }
  rewrite <- (rnd_Z (prec := 24) (emax := 128) (2 * x + 2)) by lia. rewrite E. apply div_fin.
  - apply of_Z_isZ. lia.
  - exact half_D.
  - change (bpow radix2 (- (1))) with (/ 2)%R. lra.
  - rewrite <- E. apply bigZ. lia.
Qed.
Lemma scale_half a : 0 <= a < 16777214 -> f32_to_int U32 (f32_round (f32_mul (f32_of_Z a) f32_half)) = (a + 1) / 2.
Proof.
  intros Ha.
  assert (H : isD (f32_mul (f32_of_Z a) f32_half) a 1).
  { pose proof (mul_D (f32_of_Z a) f32_half a 1 0 1) as M. rewrite Z.mul_1_r in M. cbn [Z.add] in M. apply M; try lia.
    - apply isZ_isD. apply of_Z_isZ. lia.
    - exact half_D. }
  pose proof (nearby_fin (prec := 24) (emax := 128) mode_NA _ _ H) as E. cbn [round_mode] in E.
  assert (Eq : ZnearestA (IZR a * bpow radix2 (- (1))) = (a + 1) / 2).
  { pose proof (Z.div_mod (a + 1) 2 ltac:(lia)) as D. pose proof (Z.mod_pos_bound (a + 1) 2 ltac:(lia)) as M.
    set (q := (a + 1) / 2) in *.
    assert (Ha2 : (IZR a = 2 * IZR q + IZR ((a + 1) mod 2) - 1)%R).
    { replace (IZR a) with (IZR (2 * q + (a + 1) mod 2 - 1)) by (f_equal; lia). rewrite minus_IZR, plus_IZR, mult_IZR. reflexivity. }
    change (bpow radix2 (- (1))) with (/ 2)%R.
    assert (Hm : (a + 1) mod 2 = 0 \/ (a + 1) mod 2 = 1) by lia. destruct Hm as [Hm|Hm]; rewrite Hm in Ha2.
    - unfold ZnearestA, Znearest. replace (Zfloor (IZR a * / 2)) with (q - 1).
      + rewrite minus_IZR. rewrite Rcompare_Eq by lra.
        replace (0 <=? q - 1) with true by lia.
        apply Zceil_imp. rewrite minus_IZR. lra.
      + symmetry. apply Zfloor_imp. rewrite plus_IZR, minus_IZR. lra.
    - apply Znearest_imp. replace (IZR a * / 2 - IZR q)%R with 0%R by lra. rewrite Rabs_R0. lra. }
  rewrite Eq in E. apply to_int_isZ; cbn [lo hi U32]; try lia; [exact E|].
  split; [apply Z.div_pos; lia|]. apply Z.div_le_upper_bound; lia.
Qed.
Theorem C22_half_odd_width_refuted p lm (img : image f32) yf :
  wf img -> Z.odd (width (info_of img)) = true -> width (info_of img) < 16777214 ->
  f32_ltb yf f32_0 = false -> info_ok (scale_info img f32_half yf) ->
  0 < height (scale_info img f32_half yf) < u32_max ->
  scale_panics p lm img f32_half yf NearestNeighbor.
Proof.
  intros Hwf Hodd Hw Hyf Hok Hh. pose proof (wf_w _ Hwf) as Hw0.
  assert (Ew : width (scale_info img f32_half yf) = (width (info_of img) + 1) / 2)
    by (unfold scale_info; cbn [width]; apply scale_half; lia).
  apply Zodd_bool_iff in Hodd. apply Zodd_ex in Hodd as [k Hk]. set (w := width (info_of img)) in *.
  assert (Ek : (w + 1) / 2 = k + 1) by (rewrite Hk; replace (2 * k + 1 + 1) with ((k + 1) * 2) by lia; apply Z.div_mul; lia).
  destruct (C22_nearest_exact p lm img f32_half yf Hwf half_pos Hyf Hok) as [_ H]; try (unfold u32_max in *; lia).
  apply H. exists k, 0. rewrite Ew. conj; try lia. left. rewrite nn_coord_half by lia. fold w. lia.
Qed.
Theorem C22_half_even p lm (img : image f32) : wf img ->
  Z.even (width (info_of img)) = true -> Z.even (height (info_of img)) = true ->
  width (info_of img) < 16777214 -> height (info_of img) < 16777214 ->
  scales_to p lm img f32_half f32_half NearestNeighbor
    (Info (width (info_of img) / 2) (height (info_of img) / 2) (channels (info_of img)) (alpha (info_of img)))
    (fun x y => pixel_at img (2 * x + 1) (2 * y + 1)).
Proof.
  intros Hwf Ew Eh Hw Hh. pose proof Hwf as [Hw0 Hh0 HC Hsz Hfull _].
  set (w := width (info_of img)) in *. set (h := height (info_of img)) in *. set (c := channels (info_of img)) in *.
  apply Z.even_spec in Ew as [a Ha]. apply Z.even_spec in Eh as [b Hb].
  assert (Ea : w / 2 = a) by (rewrite Ha, Z.mul_comm; apply Z.div_mul; lia).
  assert (Eb : h / 2 = b) by (rewrite Hb, Z.mul_comm; apply Z.div_mul; lia).
  assert (Ei : scale_info img f32_half f32_half = Info (w / 2) (h / 2) c (alpha (info_of img))).
  { unfold scale_info. fold w h c. rewrite !scale_half by lia. f_equal.
    - rewrite Ha. replace (2 * a + 1) with (1 + a * 2) by lia. rewrite Z.div_add, Z.mul_comm, Z.div_mul by lia. reflexivity.
    - rewrite Hb. replace (2 * b + 1) with (1 + b * 2) by lia. rewrite Z.div_add, Z.mul_comm, Z.div_mul by lia. reflexivity. }
  rewrite Ea, Eb in *.
  assert (Hok : info_ok (scale_info img f32_half f32_half)).
  { rewrite Ei. unfold info_ok. cbn [width height channels]. unfold u32_max in *.
    assert (0 <= a * b) by nia. assert (a * b <= w * h) by nia. assert (a * b * c <= w * h * c) by nia. conj; lia. }
  destruct (C22_nearest_exact p lm img f32_half f32_half Hwf half_pos half_pos Hok) as [H _];
    try (rewrite Ei; cbn [width height]; unfold u32_max; lia).
  rewrite Ei in H. cbn [width height] in H.
  destruct H as [out (E & Ep & W & I & S)].
  { intros x y Hx Hy. rewrite !nn_coord_half by lia. fold w h. lia. }
  exists out. conj; auto. intros x y Hin. rewrite (S x y Hin). destruct Hin as [Hx Hy]. rewrite I in Hx, Hy. cbn in Hx, Hy.
  rewrite !nn_coord_half by lia. reflexivity.
Qed.
Definition ex_f32 : image f32 := Image (Info 3 2 1 false) (map f32_of_Z [1;2;3; 4;5;6]).
Definition zdata (o : outcome (image f32)) : list Z := match o with Ret out => map (f32_to_int I32) (data out) | _ => [] end.
Example C22_example :
  wfb ex_f32 = true
  /\ zdata (scale_seq Debug (Libm (fun x _ => x) (fun x => x) (fun x => x)) ex_f32 (f32_of_Z 2) (f32_of_Z 1) NearestNeighbor)
     = [1;1;2;2;3;3; 4;4;5;5;6;6]
  /\ Z.odd (width (info_of ex_f32)) = true /\ f32_ltb f32_1 f32_0 = false
  /\ width (scale_info ex_f32 f32_half f32_1) = 2 /\ height (scale_info ex_f32 f32_half f32_1) = 2.
Proof. conj; vm_compute; reflexivity. Qed.

(** ** C23 *)
Lemma mul_1_r (x : f32) : is_finite x = true -> f32_mul x f32_1 = x.
Proof.
  intros F. destruct x as [s|s| |s m e H]; try discriminate.
  - destruct f32_1_form as [H1 ->]. destruct s; reflexivity.
  - set (x := B754_finite s m e H : f32).
    assert (Hne : B2R x <> 0%R).
    { unfold x, B2R, F2R. cbn [Fnum Fexp]. apply Rmult_integral_contrapositive_currified.
      - destruct s; apply IZR_neq; discriminate.
      - apply Rgt_not_eq. apply bpow_gt_0. }
    assert (Fx : fin x (B2R x)) by (split; reflexivity).
    apply (fin_inj (f32_mul x f32_1) x (B2R x)); auto.
    pose proof (mul_fin (prec := 24) (emax := 128) x f32_1 (B2R x) 1 Fx isZ_1) as M. rewrite Rmult_1_r in M.
    rewrite (rnd_fmt _ (fmt_B2R x)) in M. 
    destruct (Rle_or_lt (Rabs (B2R x)) (bpow radix2 (128 - 1))) as [L|L]; [exact (M L)|]. clear M.
    (* large values: use the general theorem *)
    pose proof (Bmult_correct 24 128 _ _ mode_NE x f32_1) as C. replace (B2R f32_1) with 1%R in C by (symmetry; apply isZ_1).
    rewrite Rmult_1_r in C. change (round radix2 (SpecFloat.fexp 24 128) (round_mode mode_NE) (B2R x)) with (@rnd 24 128 (B2R x)) in C.
    rewrite (rnd_fmt _ (fmt_B2R x)) in C.
    rewrite Rlt_bool_true in C by apply abs_B2R_lt_emax. destruct C as [C1 [C2 _]]. split; [|exact C1].
    change (f32_mul x f32_1) with (Bmult mode_NE x f32_1). rewrite C2. reflexivity.
Qed.
Lemma sub_1_0 : f32_sub f32_1 f32_0 = f32_1.
Proof. apply B2SF_inj. vm_compute. reflexivity. Qed.
Lemma mix_same (a : f32) : is_finite a = true -> bilinear_mix a a a a f32_0 f32_0 = a.
Proof.
  intros F. unfold bilinear_mix. rewrite sub_1_0. rewrite !(mul_1_r a F).
  assert (Z0 : f32_mul (B754_zero false) f32_1 = B754_zero false) by (apply mul_1_r; reflexivity).
  assert (Zm : f32_mul (B754_zero true) f32_1 = B754_zero true) by (apply mul_1_r; reflexivity).
  destruct a as [s|s| |s m e H]; try discriminate.
  - destruct s.
    + change (f32_mul (B754_zero true) f32_0) with (B754_zero true : f32). rewrite Zm. reflexivity.
    + change (f32_mul (B754_zero false) f32_0) with (B754_zero false : f32). rewrite Z0. reflexivity.
  - set (x := B754_finite s m e H : f32).
    assert (Hz : f32_mul x f32_0 = B754_zero s) by (destruct s; reflexivity). rewrite Hz.
    destruct s.
    + change (f32_mul (B754_zero true) f32_0) with (B754_zero true : f32). rewrite Zm. reflexivity.
    + change (f32_mul (B754_zero false) f32_0) with (B754_zero false : f32). rewrite Z0. reflexivity.
Qed.

(** what interpolate_bilinear computes for in-range coordinates *)
Lemma bilinear_eq p (img : image f32) xf yf x y x1 x2 y1 y2 xw yw :
  wf img -> 0 < width (info_of img) -> 0 < height (info_of img) ->
  f32_to_int U32 (f32_floor (f32_div (f32_of_Z x) xf)) = x1 -> f32_to_int U32 (f32_floor (f32_div (f32_of_Z y) yf)) = y1 ->
  Z.min (f32_to_int U32 (f32_ceil (f32_div (f32_of_Z x) xf))) (width (info_of img) - 1) = x2 ->
  Z.min (f32_to_int U32 (f32_ceil (f32_div (f32_of_Z y) yf))) (height (info_of img) - 1) = y2 ->
  f32_sub (f32_div (f32_of_Z x) xf) (f32_of_Z x1) = xw -> f32_sub (f32_div (f32_of_Z y) yf) (f32_of_Z y1) = yw ->
  inside img x1 y1 -> inside img x2 y2 ->
  interpolate_bilinear p img xf yf x y
  = Ret (map (fun c => bilinear_mix (nth (Z.to_nat c) (pixel_at img x1 y1) f32_0) (nth (Z.to_nat c) (pixel_at img x2 y1) f32_0)
                                    (nth (Z.to_nat c) (pixel_at img x1 y2) f32_0) (nth (Z.to_nat c) (pixel_at img x2 y2) f32_0) xw yw)
             (zrange 0 (channels (info_of img)))).
Proof.
  intros Hwf Hw Hh Ex1 Ey1 Ex2 Ey2 Exw Eyw [Hx1 Hy1] [Hx2 Hy2]. unfold interpolate_bilinear.
  pose proof (wf_w _ Hwf). pose proof (wf_h _ Hwf). unfold u32_max in *.
  rewrite !isub_ok by ity_lia. cbn [bind]. rewrite Ex1, Ey1, Ex2, Ey2, Exw, Eyw.
  assert (I11 : inside img x1 y1) by (split; assumption). assert (I21 : inside img x2 y1) by (split; assumption).
  assert (I12 : inside img x1 y2) by (split; assumption). assert (I22 : inside img x2 y2) by (split; assumption).
  rewrite !(get_pixel_ok img Hwf) by assumption. cbn [bind].
  apply mmap_Ret. intros c Hc. apply in_zrange in Hc.
  rewrite !(vget_ok _ c f32_0) by (rewrite pixel_at_len by assumption; lia). reflexivity.
Qed.

Lemma sub_self_zero (x : f32) z : isZ x z -> f32_sub x x = f32_0.
Proof.
  intros [F _]. destruct x as [s|s| |s m e H]; try discriminate; [destruct s; reflexivity|].
  pose proof (Bminus_correct 24 128 _ _ mode_NE (B754_finite s m e H) (B754_finite s m e H) eq_refl eq_refl) as C.
  rewrite Rminus_diag_eq in C by reflexivity. rewrite round_0 in C by apply valid_rnd_N. rewrite Rabs_R0 in C.
  rewrite Rlt_bool_true in C by apply bpow_gt_0. destruct C as [C1 [C2 C3]]. rewrite Rcompare_Eq in C3 by reflexivity.
  unfold f32_sub. destruct (Bminus mode_NE (B754_finite s m e H) (B754_finite s m e H)) as [s'|s'| |s' m' e' H']; try discriminate.
  - cbn in C3. destruct s; cbn in C3; subst s'; reflexivity.
  - exfalso. cbn in C1. unfold F2R in C1. cbn in C1. apply Rmult_integral in C1 as [C1|C1].
    + destruct s'; apply eq_IZR in C1; discriminate.
    + pose proof (bpow_gt_0 radix2 e') as P. rewrite C1 in P. lra.
Qed.

Lemma div_1 x : 0 <= x <= 16777216 -> f32_div (f32_of_Z x) f32_1 = f32_of_Z x.
Proof.
  intros Hx. destruct (Z.eq_dec x 0) as [->|Hne].
  - destruct f32_1_form as [H1 ->]. reflexivity.
  - apply isZ_inj; try lia. unfold isZ. rewrite <- (rnd_Z (prec := 24) (emax := 128) x) by lia.
    replace (IZR x) with (IZR x / 1)%R by field. apply div_fin; [apply of_Z_isZ; lia|apply isZ_1|lra|].
    replace (IZR x / 1)%R with (IZR x) by field. apply bigZ. lia.
Qed.

Lemma pixel_at_Forall {T} (P : T -> Prop) (img : image T) x y : Forall P (data img) -> Forall P (pixel_at img x y).
Proof.
  intros H. unfold pixel_at. set (n := Z.to_nat _). set (m := Z.to_nat _).
  rewrite <- (firstn_skipn m (data img)) in H. apply Forall_app in H as [_ H].
  rewrite <- (firstn_skipn n (skipn m (data img))) in H. apply Forall_app in H as [H _]. exact H.
Qed.
(** factor 1: the image itself, for images of finite samples *)
Theorem C23_identity p lm (img : image f32) : wf img -> samples (fun s : f32 => is_finite s = true) img ->
  width (info_of img) < 16777216 -> height (info_of img) < 16777216 ->
  scale_seq p lm img f32_1 f32_1 Bilinear = Ret img.
Proof.
  intros Hwf Hfin Hw Hh. pose proof Hwf as [Hw0 Hh0 HC Hsz Hfull _].
  assert (Hi : scale_info img f32_1 f32_1 = info_of img).
  { change f32_1 with (f32_of_Z 1). rewrite (scale_info_int img 1 1) by lia. rewrite !Z.mul_1_r. destruct (info_of img); reflexivity. }
  destruct (scale_ok p lm img f32_1 f32_1 Bilinear (info_of img) (pixel_at img)) as [out (E & _ & W & I & S)]; auto.
  - apply wf_info_ok. exact Hwf.
  - intros x y Hx Hy. cbn [scale_interp].
    assert (Hin : inside img x y) by (split; assumption).
    assert (Zx : isZ (f32_of_Z x) x) by (apply of_Z_isZ; lia). assert (Zy : isZ (f32_of_Z y) y) by (apply of_Z_isZ; lia).
    assert (T : forall z, 0 <= z < 16777216 -> forall v, isZ v z -> f32_to_int U32 v = z).
    { intros z Hz v Hv. apply to_int_isZ; cbn [lo hi U32]; try lia. exact Hv. }
    rewrite (bilinear_eq p img f32_1 f32_1 x y x x y y f32_0 f32_0); auto; try lia.
    + f_equal. apply (list_ext _ _ f32_0).
      * rewrite map_length, zrange_length, pixel_at_length by assumption. lia.
      * intros i Hi'. rewrite map_length, zrange_length in Hi'.
        replace i with (Z.to_nat (Z.of_nat i)) by lia. rewrite nth_map_zrange by lia. cbn [Z.add].
        apply mix_same. assert (Hall : Forall (fun s => is_finite s = true) (pixel_at img x y)) by (apply pixel_at_Forall; exact Hfin).
        rewrite Forall_forall in Hall. apply Hall. apply nth_In. rewrite pixel_at_length by assumption. lia.
    + rewrite div_1 by lia. apply T; [lia|]. apply floor_isZ. exact Zx.
    + rewrite div_1 by lia. apply T; [lia|]. apply floor_isZ. exact Zy.
    + rewrite div_1 by lia. rewrite (T x) by (first [lia | apply ceil_isZ; exact Zx]). lia.
    + rewrite div_1 by lia. rewrite (T y) by (first [lia | apply ceil_isZ; exact Zy]). lia.
    + rewrite div_1 by lia. apply (sub_self_zero _ x Zx).
    + rewrite div_1 by lia. apply (sub_self_zero _ y Zy).
  - intros x y Hx Hy. apply pixel_at_len; auto. split; assumption.
  - rewrite E. f_equal. apply image_ext; auto.
Qed.

(** factors 2^k, 2^l: the exact value.  With i = x mod 2^k (so t = i/2^k is the distance from
    the LEFT neighbour a1), the weight of the left neighbour is t, not 1 - t. *)
Definition swapped_mix (a1 a2 a3 a4 i j K L : Z) : Z :=
  a1 * i * j + a2 * (K - i) * j + a3 * i * (L - j) + a4 * (K - i) * (L - j).
Lemma mix_exact (p1 p2 p3 p4 xw yw : f32) a1 a2 a3 a4 i j k l :
  0 <= k <= 8 -> 0 <= l <= 8 -> 0 <= i < 2 ^ k -> 0 <= j < 2 ^ l ->
  isZ p1 a1 -> isZ p2 a2 -> isZ p3 a3 -> isZ p4 a4 ->
  0 <= a1 <= 255 -> 0 <= a2 <= 255 -> 0 <= a3 <= 255 -> 0 <= a4 <= 255 ->
  isD xw i k -> isD yw j l ->
  isD (bilinear_mix p1 p2 p3 p4 xw yw) (swapped_mix a1 a2 a3 a4 i j (2 ^ k) (2 ^ l)) (k + l).
Proof.
  intros Hk Hl Hi Hj H1 H2 H3 H4 R1 R2 R3 R4 Hx Hy. unfold bilinear_mix, swapped_mix.
  assert (HK : 2 ^ k <= 256) by (change 256 with (2 ^ 8); apply Z.pow_le_mono_r; lia).
  assert (HL : 2 ^ l <= 256) by (change 256 with (2 ^ 8); apply Z.pow_le_mono_r; lia).
  set (K := 2 ^ k) in *. set (L := 2 ^ l) in *.
  assert (Ox : isD (f32_sub f32_1 xw) (K - i) k).
  { apply sub_D; try lia; [|exact Hx]. apply (isD_ext _ (1 * 2 ^ k)); [apply isZ_D; [apply isZ_1|lia]|unfold K; lia]. }
  assert (Oy : isD (f32_sub f32_1 yw) (L - j) l).
  { apply sub_D; try lia; [|exact Hy]. apply (isD_ext _ (1 * 2 ^ l)); [apply isZ_D; [apply isZ_1|lia]|unfold L; lia]. }
  assert (M : forall v a u b w c, isZ v a -> 0 <= a <= 255 -> isD u b k -> 0 <= b <= 256 -> isD w c l -> 0 <= c <= 256 ->
     isD (f32_mul (f32_mul v u) w) (a * b * c) (k + l)).
  { intros v a u b w c Hv Ha Hu Hb Hw Hc. assert (0 <= a * b <= 255 * 256) by nia. assert (0 <= a * b * c <= 255 * 256 * 256) by nia.
    apply mul_D; try lia; [|exact Hw]. replace k with (0 + k) by lia. apply mul_D; try lia. apply isZ_isD. exact Hv. exact Hu. }
  assert (B : forall a b c, 0 <= a <= 255 -> 0 <= b <= K -> 0 <= c <= L -> 0 <= a * b * c <= 255 * (b * c)).
  { intros a b c Ha Hb Hc. assert (0 <= b * c) by nia. nia. }
  pose proof (B a1 i j ltac:(lia) ltac:(lia) ltac:(lia)) as B1.
  pose proof (B a2 (K - i) j ltac:(lia) ltac:(lia) ltac:(lia)) as B2.
  pose proof (B a3 i (L - j) ltac:(lia) ltac:(lia) ltac:(lia)) as B3.
  pose proof (B a4 (K - i) (L - j) ltac:(lia) ltac:(lia) ltac:(lia)) as B4.
  assert (Sum : i * j + (K - i) * j + i * (L - j) + (K - i) * (L - j) = K * L) by lia.
  assert (HKL : K * L <= 65536) by nia.
  apply add_D; [|apply M; auto; lia|lia|lia].
  apply add_D; [|apply M; auto; lia|lia|lia].
  apply add_D; [|apply M; auto; lia|lia|lia].
  apply M; auto; lia.
Qed.

Theorem C23_power_of_two_factors p lm (img : image f32) v k l :
  wf img -> 0 <= k <= 8 -> 0 <= l <= 8 ->
  (forall x y c, 0 <= v x y c <= 255) -> int_image img v ->
  width (info_of img) * 2 ^ k < 16777216 -> height (info_of img) * 2 ^ l < 16777216 ->
  (width (info_of img) * 2 ^ k) * (height (info_of img) * 2 ^ l) * Z.max 1 (channels (info_of img)) <= u32_max ->
  exists out, scale_seq p lm img (f32_of_Z (2 ^ k)) (f32_of_Z (2 ^ l)) Bilinear = Ret out /\ wf out
    /\ info_of out = Info (width (info_of img) * 2 ^ k) (height (info_of img) * 2 ^ l) (channels (info_of img)) (alpha (info_of img))
    /\ forall x y c, inside out x y -> 0 <= c < channels (info_of img) ->
       let left := x / 2 ^ k in let right := Z.min (left + if x mod 2 ^ k =? 0 then 0 else 1) (width (info_of img) - 1) in
       let up := y / 2 ^ l in let down := Z.min (up + if y mod 2 ^ l =? 0 then 0 else 1) (height (info_of img) - 1) in
       exists s, nth_error (pixel_at out x y) (Z.to_nat c) = Some s /\
         fin s (IZR (swapped_mix (v left up c) (v right up c) (v left down c) (v right down c)
                                 (x mod 2 ^ k) (y mod 2 ^ l) (2 ^ k) (2 ^ l)) / IZR (2 ^ k * 2 ^ l)).
Proof.
  intros Hwf Hk Hl Hv Hint Hwn Hhm Hfit. pose proof Hwf as [Hw0 Hh0 HC Hsz Hfull _]. unfold u32_max in *.
  assert (HK : 1 <= 2 ^ k <= 256) by (split; [pose proof (Z.pow_pos_nonneg 2 k); lia|change 256 with (2 ^ 8); apply Z.pow_le_mono_r; lia]).
  assert (HL : 1 <= 2 ^ l <= 256) by (split; [pose proof (Z.pow_pos_nonneg 2 l); lia|change 256 with (2 ^ 8); apply Z.pow_le_mono_r; lia]).
  set (w := width (info_of img)) in *. set (h := height (info_of img)) in *. set (ch := channels (info_of img)) in *.
  set (inf := Info (w * 2 ^ k) (h * 2 ^ l) ch (alpha (info_of img))).
  assert (Ei : scale_info img (f32_of_Z (2 ^ k)) (f32_of_Z (2 ^ l)) = inf) by (apply scale_info_int; fold w h; lia).
  assert (A1 : 0 <= w * 2 ^ k) by nia. assert (A2 : 0 <= h * 2 ^ l) by nia.
  assert (A3 : 0 <= (w * 2 ^ k) * (h * 2 ^ l)) by nia.
  assert (Hok : info_ok inf).
  { unfold info_ok, inf. cbn [width height channels]. unfold u32_max. conj; try lia; nia. }
  set (left := fun x => x / 2 ^ k). set (right := fun x => Z.min (left x + if x mod 2 ^ k =? 0 then 0 else 1) (w - 1)).
  set (up := fun y => y / 2 ^ l). set (down := fun y => Z.min (up y + if y mod 2 ^ l =? 0 then 0 else 1) (h - 1)).
  set (xw := fun x => f32_sub (f32_div (f32_of_Z x) (f32_of_Z (2 ^ k))) (f32_of_Z (left x))).
  set (yw := fun y => f32_sub (f32_div (f32_of_Z y) (f32_of_Z (2 ^ l))) (f32_of_Z (up y))).
  set (g := fun x y => map (fun c => bilinear_mix (nth (Z.to_nat c) (pixel_at img (left x) (up y)) f32_0) (nth (Z.to_nat c) (pixel_at img (right x) (up y)) f32_0)
                                    (nth (Z.to_nat c) (pixel_at img (left x) (down y)) f32_0) (nth (Z.to_nat c) (pixel_at img (right x) (down y)) f32_0) (xw x) (yw y))
             (zrange 0 ch)).
  assert (Ceil : forall a e, 0 <= e -> 0 <= a -> - (- a / 2 ^ e) = a / 2 ^ e + if a mod 2 ^ e =? 0 then 0 else 1).
  { intros a e He Ha. pose proof (Z.pow_pos_nonneg 2 e ltac:(lia) He) as Hp. destruct (Z.eqb_spec (a mod 2 ^ e) 0) as [E|E].
    - rewrite Z.div_opp_l_z by lia. lia.
    - rewrite Z.div_opp_l_nz by lia. lia. }
  assert (Range : forall a e n, 0 <= e -> 0 <= a < n * 2 ^ e -> 0 <= a / 2 ^ e < n).
  { intros a e n He Ha. pose proof (Z.pow_pos_nonneg 2 e ltac:(lia) He) as Hp. split; [apply Z.div_pos; lia|apply Z.div_lt_upper_bound; lia]. }
  assert (Co : forall a e n, 0 <= e <= 8 -> 0 <= a < n * 2 ^ e -> n * 2 ^ e < 16777216 ->
     f32_to_int U32 (f32_floor (f32_div (f32_of_Z a) (f32_of_Z (2 ^ e)))) = a / 2 ^ e
     /\ f32_to_int U32 (f32_ceil (f32_div (f32_of_Z a) (f32_of_Z (2 ^ e)))) = a / 2 ^ e + (if a mod 2 ^ e =? 0 then 0 else 1)
     /\ isD (f32_sub (f32_div (f32_of_Z a) (f32_of_Z (2 ^ e))) (f32_of_Z (a / 2 ^ e))) (a mod 2 ^ e) e).
  { intros a e n He Ha Hn.
    assert (Hp : 1 <= 2 ^ e <= 256) by (split; [pose proof (Z.pow_pos_nonneg 2 e); lia|change 256 with (2 ^ 8); apply Z.pow_le_mono_r; lia]).
    assert (D : isD (f32_div (f32_of_Z a) (f32_of_Z (2 ^ e))) a e) by (apply div_pow2_D; try (apply of_Z_isZ; lia); lia).
    pose proof (Range a e n ltac:(lia) Ha) as Ra.
    assert (n <= 16777216) by nia.
    assert (n - 1 + 1 < 16777217) by lia.
    conj.
    - apply to_int_isZ; cbn [lo hi U32]; try lia. apply floor_D; [exact D|lia].
    - pose proof (ceil_D _ _ _ D ltac:(lia)) as Cd. rewrite Ceil in Cd by lia.
      apply to_int_isZ; cbn [lo hi U32]; try lia; [exact Cd|]. destruct (_ =? 0); lia.
    - apply (isD_ext _ (a - a / 2 ^ e * 2 ^ e)); [|pose proof (Z.div_mod a (2 ^ e)); lia].
      pose proof (Z.div_mod a (2 ^ e) ltac:(lia)). pose proof (Z.mod_pos_bound a (2 ^ e) ltac:(lia)).
      apply sub_D; try lia; [exact D|]. apply isZ_D; [|lia]. apply of_Z_isZ. lia. }
  assert (InX : forall x, 0 <= x < w * 2 ^ k -> 0 <= left x < w /\ 0 <= right x < w).
  { intros x Hx. pose proof (Range x k w ltac:(lia) Hx). unfold right, left in *. destruct (_ =? 0); lia. }
  assert (InY : forall y, 0 <= y < h * 2 ^ l -> 0 <= up y < h /\ 0 <= down y < h).
  { intros y Hy. pose proof (Range y l h ltac:(lia) Hy). unfold down, up in *. destruct (_ =? 0); lia. }
  destruct (scale_ok p lm img (f32_of_Z (2 ^ k)) (f32_of_Z (2 ^ l)) Bilinear inf g) as [out (E & _ & W & I & S)]; auto; try (apply pos_factor; lia).
  - intros x y Hx Hy. cbn [width height inf] in Hx, Hy. cbn [scale_interp].
    destruct (Co x k w Hk Hx Hwn) as [C1 [C2 C3]]. destruct (Co y l h Hl Hy Hhm) as [D1 [D2 D3]].
    destruct (InX x Hx). destruct (InY y Hy).
    apply bilinear_eq; auto; fold w h; try lia.
    + rewrite C2. reflexivity.
    + rewrite D2. reflexivity.
    + split; fold w h; assumption.
    + split; fold w h; assumption.
  - intros x y Hx Hy. unfold g. rewrite len_map, len_zrange by lia. cbn. lia.
  - exists out. conj; auto. intros x y c Hin Hc. cbv zeta.
    pose proof Hin as [Hx Hy]. rewrite I in Hx, Hy. cbn [width height inf] in Hx, Hy.
    rewrite (S x y Hin). unfold g. rewrite nth_error_map, nth_error_zrange by lia. cbn [option_map Z.add].
    eexists. split; [reflexivity|].
    destruct (Co x k w Hk Hx Hwn) as [C1 [C2 C3]]. destruct (Co y l h Hl Hy Hhm) as [D1 [D2 D3]].
    destruct (InX x Hx) as [IX1 IX2]. destruct (InY y Hy) as [IY1 IY2].
    assert (Px : forall a b, 0 <= a < w -> 0 <= b < h -> isZ (nth (Z.to_nat c) (pixel_at img a b) f32_0) (v a b c)).
    { intros a b Ha Hb. destruct (Hint a b c (conj Ha Hb) Hc) as [s [Es Hs]]. rewrite (nth_error_nth _ _ _ Es). exact Hs. }
    assert (R : isD (bilinear_mix (nth (Z.to_nat c) (pixel_at img (left x) (up y)) f32_0) (nth (Z.to_nat c) (pixel_at img (right x) (up y)) f32_0)
                                    (nth (Z.to_nat c) (pixel_at img (left x) (down y)) f32_0) (nth (Z.to_nat c) (pixel_at img (right x) (down y)) f32_0) (xw x) (yw y))
        (swapped_mix (v (left x) (up y) c) (v (right x) (up y) c) (v (left x) (down y) c) (v (right x) (down y) c)
                                 (x mod 2 ^ k) (y mod 2 ^ l) (2 ^ k) (2 ^ l)) (k + l)).
    { apply mix_exact; auto; first [apply Z.mod_pos_bound; lia | apply Hv | idtac]. }
    unfold isD in R. replace (IZR (2 ^ k * 2 ^ l)) with (bpow radix2 (k + l)) by (rewrite bpow_plus, mult_IZR, !IZR_pow2 by lia; reflexivity).
    rewrite bpow_opp in R. exact R.
Qed.
(** refuted: row (0, 100) enlarged 4 times shows 75 next to the 0 and 25 next to the 100 *)
Definition ex_row : image f32 := Image (Info 2 1 1 false) (map f32_of_Z [0; 100]).
Theorem C23_weights_refuted lm :
  zdata (scale_seq Debug lm ex_row (f32_of_Z 4) f32_1 Bilinear) = [0; 75; 50; 25; 100; 100; 100; 100].
Proof. vm_compute. reflexivity. Qed.
Example C23_example : wfb ex_row = true /\ Forall (fun s => is_finite s = true) (data ex_row)
  /\ int_image ex_row (fun x y c => 100 * (x mod 2)) /\ (forall x, 0 <= 100 * (x mod 2) <= 255)
  /\ swapped_mix 0 100 0 100 1 0 4 1 = 300.
Proof.
  conj; try reflexivity.
  - repeat first [apply Forall_nil | apply Forall_cons]; reflexivity.
  - intros x y c [Hx Hy] Hc. cbn in Hx, Hy, Hc. assert (y = 0) by lia. assert (c = 0) by lia. subst.
    assert (Hc' : x = 0 \/ x = 1) by lia. destruct Hc' as [-> | ->].
    + exists (f32_of_Z 0). split; [reflexivity|]. apply (of_Z_isZ 0). lia.
    + exists (f32_of_Z 100). split; [reflexivity|]. apply (of_Z_isZ 100). lia.
  - intros x. pose proof (Z.mod_pos_bound x 2). lia.
Qed.
