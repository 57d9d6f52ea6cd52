(** * C66: src/transform.rs, scale (bicubic and Lanczos) and scale_lanczos. *)
From Coq Require Import Permutation Lra.
From Flocq Require Import Core BinarySingleNaN.
From Verif.Model Require Import Transform.
From Verif.Spec Require Import ImageS FloatS SumS ConvS ResampleS.
From Verif.Proofs Require Import BaseL ImageL Safe TransformL FloatL FloatL2 DyadL.
From Verif.Props Require Import TransformP ScaleP.
Open Scope Z_scope.
Delimit Scope f32_scope with F.

(** ** the clamped coordinate *)
Lemma clamp_tap w (v : f32) : 1 <= w <= 16777216 ->
  exists xc, f32_clamp v f32_0 (f32_sub (f32_of_Z w) f32_1) = Ret xc
    /\ f32_to_int U32 xc = Z.min (w - 1) (f32_to_int U32 v).
Proof.
  intros Hw. set (mx := f32_sub (f32_of_Z w) f32_1).
  assert (Hmx : isZ mx (w - 1)) by (apply sub_isZ; [apply of_Z_isZ; lia|apply isZ_1|lia]).
  assert (H0 : isZ f32_0 0) by apply isZ_0.
  clearbody mx.
  unfold f32_clamp.
  assert (Hle : f32_leb f32_0 mx = true) by (rewrite (leb_isZ _ _ 0 (w - 1) H0 Hmx); lia).
  rewrite Hle. eexists. split; [reflexivity|]. cbv zeta.
  assert (Imx : f32_to_int U32 mx = w - 1) by (apply to_int_isZ; cbn [lo hi U32]; try lia; exact Hmx).
  assert (I0 : f32_to_int U32 f32_0 = 0) by (apply to_int_isZ; cbn [lo hi U32]; try lia; exact H0).
  assert (Hfin : forall a, fin v a -> f32_to_int U32 (let x1 := if f32_ltb v f32_0 then f32_0 else v in if f32_gtb x1 mx then mx else x1)
     = Z.min (w - 1) (f32_to_int U32 v)).
  { intros a Ha. cbv zeta.
    assert (Iv : f32_to_int U32 v = clampZ U32 (Ztrunc a)) by (apply (to_int_fin U32 v a); [cbn; lia|exact Ha]).
    rewrite Iv. unfold clampZ. cbn [lo hi U32].
    assert (L : f32_ltb v f32_0 = Rlt_bool a 0) by (apply (ltb_fin v f32_0 a 0 Ha); exact H0).
    rewrite L. destruct (Rlt_bool_spec a 0) as [Hn|Hn].
    - assert (G : f32_gtb f32_0 mx = false).
      { change (f32_gtb f32_0 mx) with (f32_ltb mx f32_0). rewrite (ltb_isZ _ _ (w - 1) 0 Hmx H0). lia. }
      rewrite G, I0. rewrite Ztrunc_ceil by lra. assert (Zceil a <= 0) by (apply Zceil_glb; cbn; lra). lia.
    - assert (G : f32_gtb v mx = Rlt_bool (IZR (w - 1)) a) by (apply (ltb_fin mx v _ _ Hmx Ha)).
      rewrite G. rewrite Ztrunc_floor by exact Hn.
      assert (0 <= Zfloor a) by (apply Zfloor_lub; exact Hn).
      destruct (Rlt_bool_spec (IZR (w - 1)) a) as [Hg|Hg].
      + rewrite Imx. assert (w - 1 <= Zfloor a) by (apply Zfloor_lub; lra). lia.
      + rewrite Iv. unfold clampZ. cbn [lo hi U32]. rewrite Ztrunc_floor by exact Hn.
        assert (Zfloor a <= w - 1).
        { apply le_IZR. pose proof (Zfloor_lb a). lra. } lia. }
  destruct v as [s|s| |s m e B].
  - apply (Hfin 0%R). split; reflexivity.
  - destruct s.
    + change (f32_ltb (B754_infinity true) f32_0) with true. cbv iota.
      assert (G : f32_gtb f32_0 mx = false).
      { change (f32_gtb f32_0 mx) with (f32_ltb mx f32_0). rewrite (ltb_isZ _ _ (w - 1) 0 Hmx H0). lia. }
      rewrite G, I0. change (f32_to_int U32 (B754_infinity true)) with 0. lia.
    + change (f32_ltb (B754_infinity false) f32_0) with false. cbv iota.
      assert (G : f32_gtb (B754_infinity false) mx = true).
      { destruct Hmx as [F _]. destruct mx as [[]|?| |[] ? ? ?]; try discriminate F; reflexivity. }
      rewrite G, Imx. change (f32_to_int U32 (B754_infinity false)) with 4294967295. lia.
  - change (f32_ltb B754_nan f32_0) with false. cbv iota.
    assert (G : f32_gtb B754_nan mx = false).
    { destruct mx as [[]|[]| |[] ? ? ?]; reflexivity. }
    rewrite G. change (f32_to_int U32 B754_nan) with 0. lia.
  - eapply Hfin. split; reflexivity.
Qed.

Lemma tap_inside bound pos k : 1 <= bound -> 0 <= tap bound pos k < bound.
Proof. intros H. unfold tap. pose proof (u32_range (f32_add pos (f32_of_Z k))). lia. Qed.

(** ** one pixel *)
Lemma chan_loop (p_in : list f32) (r : f32) ch (g : Z -> f32) : 0 <= ch -> len p_in = ch ->
  mfold (fun p_out c => let! v := vget p_in c in let! o := vget p_out c in vset p_out c (f32_add o (f32_mul v r)))
    (zrange 0 ch) (map g (zrange 0 ch))
  = Ret (map (fun c => f32_add (g c) (f32_mul (nth (Z.to_nat c) p_in f32_0) r)) (zrange 0 ch)).
Proof.
  intros Hch Hl.
  set (new := fun c => f32_add (g c) (f32_mul (nth (Z.to_nat c) p_in f32_0) r)).
  destruct (mfold_zrange_inv (fun k acc => acc = map (fun c => if c <? k then new c else g c) (zrange 0 ch))
    (fun p_out c => let! v := vget p_in c in let! o := vget p_out c in vset p_out c (f32_add o (f32_mul v r)))
    0 ch (map g (zrange 0 ch))) as [out [E Hout]].
  - exact Hch.
  - apply map_ext_in. intros c Hc. apply in_zrange in Hc. replace (c <? 0) with false by lia. reflexivity.
  - intros k acc Hk ->. rewrite (vget_ok p_in k f32_0) by lia. cbn [bind].
    rewrite (vget_ok _ k f32_0) by (rewrite len_map, len_zrange; lia). cbn [bind].
    rewrite nth_map_zrange by lia. replace (0 + k <? k) with false by lia.
    rewrite vset_ok by (rewrite len_map, len_zrange; lia). eexists. split; [reflexivity|].
    apply (list_ext _ _ f32_0).
    + rewrite upd_length, !map_length, !zrange_length. reflexivity.
    + intros i Hi. rewrite upd_length, map_length, zrange_length in Hi.
      rewrite nth_upd by (rewrite map_length, zrange_length; lia).
      rewrite <- (Nat2Z.id i) at 2 3. rewrite !nth_map_zrange by lia. rewrite !Z.add_0_l.
      destruct (Nat.eq_dec i (Z.to_nat k)) as [->|Hne].
      * rewrite Nat.eqb_refl. rewrite Z2Nat.id by lia. replace (k <? k + 1) with true by lia. reflexivity.
      * replace (i =? Z.to_nat k)%nat with false by (symmetry; apply Nat.eqb_neq; exact Hne).
        destruct (Z.of_nat i <? k) eqn:E1; destruct (Z.of_nat i <? k + 1) eqn:E2; try reflexivity; lia.
  - rewrite E, Hout. f_equal. apply map_ext_in. intros c Hc. apply in_zrange in Hc. replace (c <? ch) with true by lia. reflexivity.
Qed.

Lemma resample_ok p (img : image f32) rng (px py : f32) (weight : Z -> Z -> f32) : wf img ->
  1 <= width (info_of img) <= 16777216 -> 1 <= height (info_of img) <= 16777216 ->
  resample p img rng px py weight
  = Ret (map (fun c => window_sum rng (fun m n =>
        f32_mul (nth (Z.to_nat c) (pixel_at img (tap (width (info_of img)) px m) (tap (height (info_of img)) py n)) f32_0)
                (weight m n))) (zrange 0 (channels (info_of img)))).
Proof.
  intros Hwf Hw Hh. pose proof (wf_c _ Hwf) as Hc.
  set (ch := channels (info_of img)) in *.
  set (tx := tap (width (info_of img)) px). set (ty := tap (height (info_of img)) py).
  set (term := fun c m n => f32_mul (nth (Z.to_nat c) (pixel_at img (tx m) (ty n)) f32_0) (weight m n)).
  unfold resample. fold ch.
  assert (inner : forall m l (g : Z -> f32),
    mfold (fun p_out n =>
        let! yc := f32_clamp (f32_add py (f32_of_Z n)) f32_0 (f32_sub (f32_of_Z (height (info_of img))) f32_1) in
        let y_clamp := f32_to_int U32 yc in
        let! p_in := get_pixel_unchecked p img (tx m) y_clamp in
        let r := weight m n in
        mfold (fun p_out c =>
          let! v := vget p_in c in
          let! o := vget p_out c in
          vset p_out c (f32_add o (f32_mul v r))) (zrange 0 ch) p_out) l (map g (zrange 0 ch))
    = Ret (map (fun c => fold_left (fun acc n => f32_add acc (term c m n)) l (g c)) (zrange 0 ch))).
  { intros m l. induction l as [|n l IH]; intros g; [reflexivity|].
    cbn [mfold]. destruct (clamp_tap (height (info_of img)) (f32_add py (f32_of_Z n)) Hh) as [yc [E1 E2]].
    rewrite E1. cbn [bind]. cbv zeta. rewrite E2.
    change (Z.min (height (info_of img) - 1) (f32_to_int U32 (f32_add py (f32_of_Z n)))) with (ty n).
    assert (Hin : inside img (tx m) (ty n)) by (split; apply tap_inside; lia).
    rewrite get_pixel_unchecked_ok by assumption. cbn [bind].
    rewrite chan_loop by (try apply pixel_at_len; try assumption; lia). cbn [bind].
    rewrite IH. reflexivity. }
  assert (outer : forall l (g : Z -> f32),
    mfold (fun p_out m =>
      let! xc := f32_clamp (f32_add px (f32_of_Z m)) f32_0 (f32_sub (f32_of_Z (width (info_of img))) f32_1) in
      let x_clamp := f32_to_int U32 xc in
      mfold (fun p_out n =>
        let! yc := f32_clamp (f32_add py (f32_of_Z n)) f32_0 (f32_sub (f32_of_Z (height (info_of img))) f32_1) in
        let y_clamp := f32_to_int U32 yc in
        let! p_in := get_pixel_unchecked p img x_clamp y_clamp in
        let r := weight m n in
        mfold (fun p_out c =>
          let! v := vget p_in c in
          let! o := vget p_out c in
          vset p_out c (f32_add o (f32_mul v r))) (zrange 0 ch) p_out) rng p_out) l (map g (zrange 0 ch))
    = Ret (map (fun c => fold_left (fun acc mn => f32_add acc (term c (fst mn) (snd mn))) (list_prod l rng) (g c)) (zrange 0 ch))).
  { intros l. induction l as [|m l IH]; intros g; [reflexivity|].
    cbn [mfold list_prod]. destruct (clamp_tap (width (info_of img)) (f32_add px (f32_of_Z m)) Hw) as [xc [E1 E2]].
    rewrite E1. cbn [bind]. cbv zeta. rewrite E2.
    change (Z.min (width (info_of img) - 1) (f32_to_int U32 (f32_add px (f32_of_Z m)))) with (tx m).
    rewrite inner. cbn [bind]. rewrite IH. f_equal. apply map_ext. intros c. rewrite fold_left_app. f_equal.
    clear. generalize (g c). induction rng as [|n r IH]; intros a; [reflexivity|]. cbn. apply IH. }
  replace (repeat f32_0 (Z.to_nat ch)) with (map (fun _ : Z => f32_0) (zrange 0 ch)).
  - rewrite outer. reflexivity.
  - replace (Z.to_nat ch) with (length (zrange 0 ch)) by (rewrite zrange_length; lia).
    clear. induction (zrange 0 ch) as [|a l IH]; [reflexivity|]. cbn. f_equal. exact IH.
Qed.

(** the kernels of the code are the specified ones *)
Lemma cubic_is_b_spline lm x : cubic_weighting_fn lm x = b_spline (powf lm) x.
Proof. reflexivity. Qed.
Lemma lanczos_is lm x a : lanczos_kernel lm x a = lanczos (sinf lm) a x.
Proof. reflexivity. Qed.

Lemma len_resampled img xf yf win wx wy x y : 0 <= channels (info_of img) ->
  len (resampled img xf yf win wx wy x y) = channels (info_of img).
Proof. intros H. unfold resampled. rewrite len_map, len_zrange; lia. Qed.

(** an image without columns (rows) scales to one without columns (rows) *)
Lemma scale_zero (f : f32) : f32_to_int U32 (f32_round (f32_mul (f32_of_Z 0) f)) = 0.
Proof. destruct f as [[]|[]| |[] m e B]; reflexivity. Qed.

Theorem C66_bicubic p lm (img : image f32) xf yf : wf img ->
  width (info_of img) <= 16777216 -> height (info_of img) <= 16777216 ->
  f32_ltb xf f32_0 = false -> f32_ltb yf f32_0 = false -> info_ok (scaled (info_of img) xf yf) ->
  scales_to p lm img xf yf Bicubic (scaled (info_of img) xf yf)
    (resampled img xf yf [-1; 0; 1; 2]
       (fun d m => b_spline (powf lm) (#m - d)%F) (fun d n => b_spline (powf lm) (d - #n)%F)).
Proof.
  intros Hwf Hw Hh Hx Hy Hok. pose proof (wf_w _ Hwf). pose proof (wf_h _ Hwf). pose proof (wf_c _ Hwf).
  apply scale_ok; auto; [|intros; apply len_resampled; lia].
  intros x y Hxx Hyy. cbn [scale_interp]. unfold interpolate_bicubic. cbv zeta.
  assert (1 <= width (info_of img)).
  { destruct (Z.eq_dec (width (info_of img)) 0) as [E|]; [|lia]. exfalso. cbn [scaled width] in Hxx. rewrite E, scale_zero in Hxx. lia. }
  assert (1 <= height (info_of img)).
  { destruct (Z.eq_dec (height (info_of img)) 0) as [E|]; [|lia]. exfalso. cbn [scaled height] in Hyy. rewrite E, scale_zero in Hyy. lia. }
  rewrite resample_ok by (auto; lia). reflexivity.
Qed.

Definition lanczos_weight lm (sz : Z) (d : f32) (k : Z) : f32 := lanczos (sinf lm) (#sz)%F (d - #k)%F.

Lemma lanczos_ok p lm (img : image f32) xf yf sz x y : wf img ->
  1 <= width (info_of img) <= 16777216 -> 1 <= height (info_of img) <= 16777216 -> 0 <= sz < 2147483647 ->
  interpolate_lanczos p lm img xf yf sz x y
  = Ret (resampled img xf yf (zrange (1 - sz) (sz + 1)) (lanczos_weight lm sz) (lanczos_weight lm sz) x y).
Proof.
  intros Hwf Hw Hh Hsz. unfold interpolate_lanczos. cbv zeta.
  rewrite (cast_id I32 sz) by ity_lia. rewrite isub_ok by ity_lia. cbn [bind]. rewrite iadd_ok by ity_lia. cbn [bind].
  rewrite resample_ok by auto. reflexivity.
Qed.

Theorem C66_lanczos p lm (img : image f32) xf yf : wf img ->
  width (info_of img) <= 16777216 -> height (info_of img) <= 16777216 ->
  f32_ltb xf f32_0 = false -> f32_ltb yf f32_0 = false -> info_ok (scaled (info_of img) xf yf) ->
  scales_to p lm img xf yf Lanczos (scaled (info_of img) xf yf)
    (resampled img xf yf [-2; -1; 0; 1; 2; 3] (lanczos_weight lm 3) (lanczos_weight lm 3)).
Proof.
  intros Hwf Hw Hh Hx Hy Hok. pose proof (wf_w _ Hwf). pose proof (wf_h _ Hwf). pose proof (wf_c _ Hwf).
  apply scale_ok; auto; [|intros; apply len_resampled; lia].
  intros x y Hxx Hyy. cbn [scale_interp].
  assert (1 <= width (info_of img)).
  { destruct (Z.eq_dec (width (info_of img)) 0) as [E|]; [|lia]. exfalso. cbn [scaled width] in Hxx. rewrite E, scale_zero in Hxx. lia. }
  assert (1 <= height (info_of img)).
  { destruct (Z.eq_dec (height (info_of img)) 0) as [E|]; [|lia]. exfalso. cbn [scaled height] in Hyy. rewrite E, scale_zero in Hyy. lia. }
  rewrite lanczos_ok by (auto; lia). reflexivity.
Qed.

(** ** scale_lanczos *)
Definition scales_lanczos_to p lm (img : image f32) (xf yf : f32) (sz : Z) (inf : info) (g : Z -> Z -> list f32) : Prop :=
  exists out, scale_lanczos_seq p lm img xf yf sz = Ret out
    /\ (forall sched, Permutation sched (zrange 0 (width inf * height inf)) -> scale_lanczos_par p lm sched img xf yf sz = Ret out)
    /\ wf out /\ info_of out = inf /\ shows out g.

Lemma scale_lanczos_ok p lm (img : image f32) xf yf sz inf g : wf img -> f32_ltb xf f32_0 = false -> f32_ltb yf f32_0 = false ->
  0 <= sz -> scaled (info_of img) xf yf = inf -> info_ok inf ->
  (forall x y, 0 <= x < width inf -> 0 <= y < height inf -> interpolate_lanczos p lm img xf yf sz x y = Ret (g x y)) ->
  (forall x y, 0 <= x < width inf -> 0 <= y < height inf -> len (g x y) = channels inf) ->
  scales_lanczos_to p lm img xf yf sz inf g.
Proof.
  intros Hwf Hx Hy Hsz Hinf Hok Hg Hlen.
  change (scaled (info_of img) xf yf) with (scale_info img xf yf) in Hinf.
  assert (Hnn : check_non_neg (num_int U32) sz = Ret tt).
  { unfold check_non_neg. cbn. replace (sz <? 0) with false by lia. reflexivity. }
  assert (S : exists out, scale_lanczos_seq p lm img xf yf sz = Ret out /\ wf out /\ info_of out = inf /\ shows out g).
  { unfold scale_lanczos_seq. rewrite !non_neg_ok by assumption. rewrite Hnn. cbn [bind]. rewrite Hinf, blank_ok by exact Hok. cbn [bind].
    unfold scale_loop_seq. cbn [info_of].
    set (im0 := Image inf _).
    destruct (write_rect p (fun x y => Some (g x y)) (fun out x y => let! px := interpolate_lanczos p lm img xf yf sz x y in set_pixel p out x y px)
       0 (width inf) 0 (height inf) im0) as [out [E [W [I P]]]].
    - apply blank_wf. exact Hok.
    - intros im x y Hxx Hyy _ _. rewrite Hg by assumption. reflexivity.
    - intros x y Hxx Hyy _. split; assumption.
    - intros x y px Hxx Hyy H. injection H as <-. apply Hlen; assumption.
    - exists out. conj; auto. intros x y Hin. rewrite P.
      + destruct Hin as [A B]. rewrite I in A, B. cbn in A, B.
        replace ((0 <=? x) && (x <? width inf) && (0 <=? y) && (y <? height inf)) with true by lia. reflexivity.
      + unfold inside in *. rewrite I in Hin. exact Hin. }
  destruct S as [out [E [W [I P]]]]. exists out. conj; auto.
  intros sched Hp. rewrite <- E. apply C17_scale_lanczos_seq_par; [exact Hwf| |rewrite Hinf; exact Hp].
  right. rewrite Hinf. destruct Hok as (?&?&?&?&?). split; assumption.
Qed.

Theorem C66_scale_lanczos p lm (img : image f32) xf yf sz : wf img ->
  width (info_of img) <= 16777216 -> height (info_of img) <= 16777216 ->
  f32_ltb xf f32_0 = false -> f32_ltb yf f32_0 = false -> info_ok (scaled (info_of img) xf yf) ->
  0 <= sz < 2147483647 ->
  scales_lanczos_to p lm img xf yf sz (scaled (info_of img) xf yf)
    (resampled img xf yf (zrange (1 - sz) (sz + 1)) (lanczos_weight lm sz) (lanczos_weight lm sz)).
Proof.
  intros Hwf Hw Hh Hx Hy Hok Hsz. pose proof (wf_w _ Hwf). pose proof (wf_h _ Hwf). pose proof (wf_c _ Hwf).
  apply scale_lanczos_ok; auto; try lia; [|intros; apply len_resampled; lia].
  intros x y Hxx Hyy.
  assert (1 <= width (info_of img)).
  { destruct (Z.eq_dec (width (info_of img)) 0) as [E|]; [|lia]. exfalso. cbn [scaled width] in Hxx. rewrite E, scale_zero in Hxx. lia. }
  assert (1 <= height (info_of img)).
  { destruct (Z.eq_dec (height (info_of img)) 0) as [E|]; [|lia]. exfalso. cbn [scaled height] in Hyy. rewrite E, scale_zero in Hyy. lia. }
  apply lanczos_ok; auto; lia.
Qed.

(** size 0, and sizes above 2^31 + 1: the size becomes a negative i32, the window is empty and every
    sample of the result is zero *)
Theorem C66_lanczos_empty_window p lm (img : image f32) xf yf sz : wf img ->
  width (info_of img) <= 16777216 -> height (info_of img) <= 16777216 ->
  f32_ltb xf f32_0 = false -> f32_ltb yf f32_0 = false -> info_ok (scaled (info_of img) xf yf) ->
  sz = 0 \/ 2147483649 < sz <= u32_max ->
  scales_lanczos_to p lm img xf yf sz (scaled (info_of img) xf yf)
    (fun _ _ => map (fun _ => f32_0) (zrange 0 (channels (info_of img)))).
Proof.
  intros Hwf Hw Hh Hx Hy Hok Hsz. unfold u32_max in *. pose proof (wf_w _ Hwf). pose proof (wf_h _ Hwf). pose proof (wf_c _ Hwf).
  apply scale_lanczos_ok; auto; try lia; [|intros; rewrite len_map, len_zrange; cbn [scaled channels]; lia].
  intros x y Hxx Hyy.
  assert (1 <= width (info_of img)).
  { destruct (Z.eq_dec (width (info_of img)) 0) as [E|]; [|lia]. exfalso. cbn [scaled width] in Hxx. rewrite E, scale_zero in Hxx. lia. }
  assert (1 <= height (info_of img)).
  { destruct (Z.eq_dec (height (info_of img)) 0) as [E|]; [|lia]. exfalso. cbn [scaled height] in Hyy. rewrite E, scale_zero in Hyy. lia. }
  destruct Hsz as [->|Hsz]; [rewrite lanczos_ok by (auto; lia); reflexivity|].
  unfold interpolate_lanczos. cbv zeta.
  assert (Ec : cast I32 sz = sz - 4294967296).
  { unfold cast. cbn [lo hi I32]. Z.div_mod_to_equations. lia. }
  rewrite Ec. rewrite isub_ok by ity_lia. cbn [bind]. rewrite iadd_ok by ity_lia. cbn [bind].
  rewrite resample_ok by (auto; lia). rewrite zrange_nil by lia. reflexivity.
Qed.

(** the three sizes whose window bounds overflow panic in debug builds *)
Theorem C66_lanczos_size_overflow lm (img : image f32) xf yf sz : wf img ->
  f32_ltb xf f32_0 = false -> f32_ltb yf f32_0 = false -> info_ok (scaled (info_of img) xf yf) ->
  0 < width (scaled (info_of img) xf yf) -> 0 < height (scaled (info_of img) xf yf) ->
  2147483647 <= sz <= 2147483649 ->
  scale_lanczos_seq Debug lm img xf yf sz = Panic.
Proof.
  intros Hwf Hx Hy Hok Hw Hh Hsz.
  unfold scale_lanczos_seq. rewrite !non_neg_ok by assumption.
  assert (Hnn : check_non_neg (num_int U32) sz = Ret tt).
  { unfold check_non_neg. cbn. replace (sz <? 0) with false by lia. reflexivity. }
  rewrite Hnn. cbn [bind].
  change (scale_info img xf yf) with (scaled (info_of img) xf yf).
  rewrite blank_ok by exact Hok. cbn [bind]. unfold scale_loop_seq. cbn [info_of].
  rewrite (zrange_cons 0 (height _)) by exact Hh. cbn [mfold].
  rewrite (zrange_cons 0 (width _)) by exact Hw. cbn [mfold].
  assert (E : interpolate_lanczos Debug lm img xf yf sz 0 0 = Panic).
  { unfold interpolate_lanczos. cbv zeta. assert (sz = 2147483647 \/ sz = 2147483648 \/ sz = 2147483649) as [->|[->| ->]] by lia; reflexivity. }
  rewrite E. reflexivity.
Qed.
