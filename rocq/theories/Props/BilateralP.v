(** * C59: bilateral_filter *)
From Verif.Proofs Require Import BilateralL DyadL.
From Verif.Props Require Import ImageP ToneP.
From Verif.Spec Require Import ConvS.
Open Scope Z_scope.

(** an 8-bit image with three colour channels that the filter is meant for; [b]: which build *)
Definition bilateral_input (b : build) (img : image Z) : Prop :=
  wf img /\ samples is_u8 img /\ colors (info_of img) = 3 /\ 0 < width (info_of img) * height (info_of img)
  /\ small (info_of img) /\ scheduled b (info_of img).

(** negative parameters are errors *)
Theorem C59_negative p lm b n (img : image Z) range spatial :
  f32_ltb range f32_0 = true \/ f32_ltb spatial f32_0 = true ->
  bilateral_filter p lm b n img range spatial = Fail InvalidArgError.
Proof.
  intros H. unfold bilateral_filter. destruct (f32_ltb range f32_0) eqn:E.
  - rewrite check_neg_err by exact E. reflexivity.
  - rewrite check_neg by exact E. rewrite bind_Ret. destruct H as [H|H]; [discriminate|].
    rewrite check_neg_err by exact H. reflexivity.
Qed.

(** both builds, the middle part: a map over the pixels *)
Lemma bil_mid p lm b n (img : image Z) (lab : image f32) range mat sz : wf img -> scheduled b (info_of img) ->
  wf lab -> info_of lab = info_of img ->
  (forall x y, inside lab x y -> safe (fun px : list f32 => len px = channels (info_of lab)) (bilateral_direct_pixel p lm lab range mat sz x y)) ->
  (match b with
      | Seq =>
          let! output := blank p num_f32 (info_of lab) in
          mfold (fun output y => mfold (fun output x =>
              let! p_out := bilateral_direct_pixel p lm lab range mat sz x y in
              set_pixel p output x y p_out) (zrange 0 (width (info_of img))) output)
            (zrange 0 (height (info_of img))) output
      | Par sched =>
          let! npx := size p (info_of img) in
          let! d := par_collect (sched n) npx (fun i =>
              let! '(x, y) := get_2d_coords p i (width (info_of img)) in
              bilateral_direct_pixel p lm lab range mat sz x y) in
          from_vec_of_vec p (width (info_of img)) (height (info_of img)) (channels (info_of img)) (alpha (info_of img)) d
      end)
  = let! d := mmap (fun i => bilateral_direct_pixel p lm lab range mat sz (i mod width (info_of img)) (i / width (info_of img)))
                   (zrange 0 (width (info_of img) * height (info_of img))) in
    Ret (Image (info_of img) (concat d)).
Proof.
  intros Hwf Hsch Hwl Hi Hsafe. pose proof (wf_info_ok _ Hwf) as Hok.
  assert (Hs : forall x y, 0 <= x < width (info_of img) -> 0 <= y < height (info_of img) ->
     safe (fun px : list f32 => len px = channels (info_of img)) (bilateral_direct_pixel p lm lab range mat sz x y)).
  { intros x y Hx Hy. rewrite <- Hi. apply Hsafe. unfold inside. rewrite Hi. auto. }
  rewrite Hi. set (inf := info_of img) in *. clearbody inf.
  destruct b as [|sched].
  - rewrite (blank_ok p num_f32 inf Hok), bind_Ret. pose proof (blank_wf num_f32 inf Hok) as Hw.
    apply (loop_eq p inf (fun x y => bilateral_direct_pixel p lm lab range mat sz x y) _ Hw eq_refl Hs).
  - assert (Hsize : size p inf = Ret (width inf * height inf)).
    { destruct Hok as [? [? [? [? ?]]]]. unfold size. unfold u32_max in *. assert (0 <= width inf * height inf) by nia. apply imul_ok. ity_lia. }
    rewrite Hsize, bind_Ret.
    rewrite (par_loop_eq p (sched n) inf (fun x y => bilateral_direct_pixel p lm lab range mat sz x y) Hok (Hsch n) Hs).
    apply bind_ext. intros d _. unfold from_vec_of_vec.
    unfold size in Hsize. rewrite Hsize, bind_Ret. destruct Hok as [? [? [? [? ?]]]]. unfold u32_max in *.
    assert (0 <= width inf * height inf) by nia. assert (0 <= width inf * height inf * channels inf) by nia.
    rewrite imul_ok by ity_lia. cbn [bind]. f_equal. destruct inf as [w h c a]. cbn. f_equal.
    assert (forall (d : list (list f32)) acc, fold_left (fun acc v => acc ++ v) d acc = acc ++ concat d) as G.
    { induction d0 as [|v d0 IH]; intros acc; cbn; [rewrite app_nil_r; reflexivity|]. rewrite IH, app_assoc. reflexivity. }
    apply G.
Qed.

(** for odd windows the call succeeds: convert to CIELAB, replace every sample of every channel (alpha
    included) by the weighted mean of its window, convert back *)
Theorem C59_bilateral p lm b n (img : image Z) range spatial :
  bilateral_input b img -> f32_ltb range f32_0 = false -> f32_ltb spatial f32_0 = false ->
  Z.odd (window spatial) = true -> window spatial <= 65535 ->
  exists lab mid out, srgb_to_lab_f32 p lm img D65 = Ret lab
    /\ info_of lab = info_of img /\ info_of mid = info_of img /\ wf mid
    /\ (forall x y c, inside img x y -> 0 <= c < channels (info_of img) ->
          value mid x y c = bilateral_mean lm range spatial lab x y c)
    /\ lab_to_srgb_f32 p lm mid D65 = Ret out
    /\ bilateral_filter p lm b n img range spatial = Ret out /\ info_of out = info_of img.
Proof.
  intros (Hwf & Hu & Hc & Hne & Hsm & Hsch) Hr Hs Ho Hw.
  assert (Hw0 : 0 <= window spatial) by apply (float_to_int_range U32 (f32_add (f32_mul spatial (F32 4)) (F32 1)) ltac:(cbn; lia)).
  destruct (conv_srgb_lab p lm D65 img Hwf Hu Hc Hne) as [lab [El [Rl Il]]].
  assert (Wl : wf lab) by apply Rl. pose proof (wf_c _ Hwf) as Hch. pose proof (wf_info_ok _ Hwf) as Hok.
  destruct (C31_spatial_mat p lm (window spatial) spatial Hw0 ltac:(nia) Ho Hs) as [mat [Em [Lm Nm]]].
  set (G := fun x y => map (bilateral_mean lm range spatial lab x y) (zrange 0 (channels (info_of img)))).
  assert (HG : forall x y, len (G x y) = channels (info_of img)) by (intros; unfold G; rewrite len_map, len_zrange; lia).
  assert (Hpx : forall x y, inside lab x y -> bilateral_direct_pixel p lm lab range mat (window spatial) x y = Ret (G x y)).
  { intros x y Hin. unfold G. rewrite <- Il. apply bil_pixel_ok; auto. rewrite Il. exact Hsm. }
  set (mid := of_fun (info_of img) G).
  assert (Wm : wf mid) by (apply of_fun_wf; auto).
  destruct (conv_lab_srgb p lm D65 mid Wm (samples_any mid) Hc Hne) as [out [Eo [Ro Io]]].
  exists lab, mid, out. conj; auto.
  - intros x y c Hin Hcc. unfold value at 1. pose proof Hin as [Hx Hy]. unfold mid. rewrite pixel_at_of_fun by auto.
    unfold G. rewrite nth_map_zrange by lia. rewrite Z.add_0_l. reflexivity.
  - unfold bilateral_filter. rewrite !check_neg by assumption. rewrite !bind_Ret. change f32_1 with (F32 1).
    fold (window spatial). rewrite Em, bind_Ret, El, bind_Ret.
    rewrite (bil_mid p lm b n img lab range mat (window spatial)); auto.
    + rewrite (mmap_Ret _ (fun i => G (i mod width (info_of img)) (i / width (info_of img)))); [exact Eo|].
      intros i Hi. apply in_zrange in Hi. destruct Hok as [? [? [? [? ?]]]].
      assert (0 < width (info_of img)) by nia.
      destruct (pos_surj (width (info_of img)) (height (info_of img)) i) as [Hx [Hy _]]; try lia.
      apply Hpx. unfold inside. rewrite Il. auto.
    + intros x y Hin. rewrite Hpx by exact Hin. cbn [safe]. rewrite Il. apply HG.
Qed.

(** even windows panic *)
Theorem C59_even_window p lm b n (img : image Z) range spatial :
  f32_ltb range f32_0 = false -> f32_ltb spatial f32_0 = false ->
  Z.odd (window spatial) = false -> window spatial <= 65535 ->
  bilateral_filter p lm b n img range spatial = Panic.
Proof.
  intros Hr Hs Ho Hw. unfold bilateral_filter. rewrite !check_neg by assumption. rewrite !bind_Ret. change f32_1 with (F32 1).
  fold (window spatial).
  assert (Hw0 : 0 <= window spatial) by apply (float_to_int_range U32 (f32_add (f32_mul spatial (F32 4)) (F32 1)) ltac:(cbn; lia)).
  destruct (C31_even_size p lm (window spatial) spatial Hw0 ltac:(nia) Ho) as [->|[E _]]; [reflexivity|congruence].
Qed.
(** windows whose area does not fit in u32 panic in debug builds *)
Theorem C59_huge_window lm b n (img : image Z) range spatial :
  f32_ltb range f32_0 = false -> f32_ltb spatial f32_0 = false -> 65535 < window spatial ->
  bilateral_filter Debug lm b n img range spatial = Panic.
Proof.
  intros Hr Hs Hw. unfold bilateral_filter. rewrite !check_neg by assumption. rewrite !bind_Ret. change f32_1 with (F32 1).
  fold (window spatial).
  assert (Hw0 : 0 <= window spatial <= 4294967295) by apply (float_to_int_range U32 (f32_add (f32_mul spatial (F32 4)) (F32 1)) ltac:(cbn; lia)).
  unfold generate_spatial_mat. rewrite idiv_ok by ity_lia. rewrite bind_Ret.
  unfold imul. rewrite arith_debug_panic; [reflexivity|]. cbn [lo hi U32]. nia.
Qed.

(** the window for a given [spatial]: k + 1 when 4 * spatial lies in [k, k + 1/2] *)
Theorem C59_window k (spatial : f32) : is_finite spatial = true -> 0 <= k < 4194304 ->
  (IZR k <= 4 * B2R spatial <= IZR k + / 2)%R -> window spatial = k + 1.
Proof.
  intros Hf Hk [H1 H2]. unfold window.
  assert (B : forall r, (0 <= r <= IZR (k + 2))%R -> (Rabs r <= bpow radix2 (128 - 1))%R).
  { intros r Hr. rewrite Rabs_pos_eq by lra. eapply Rle_trans; [apply Hr|]. apply Rle_trans with (IZR (2 ^ 24)).
    - apply IZR_le. lia.
    - rewrite IZR_pow2 by lia. apply bpow_le. lia. }
  assert (K0 : (0 <= IZR k)%R) by (apply IZR_le; lia).
  assert (K2 : (IZR (k + 2) = IZR k + 2)%R) by (rewrite plus_IZR; reflexivity).
  assert (Half : forall z, 0 <= z <= 8388608 -> (IZR (2 * z + 1) * bpow radix2 (- 1) = IZR z + / 2)%R).
  { intros z _. rewrite plus_IZR, mult_IZR. change (bpow radix2 (- 1)) with (/ 2)%R. lra. }
  assert (M : fin (f32_mul spatial (F32 4)) (rnd32 (4 * B2R spatial))).
  { rewrite Rmult_comm. apply mul_fin; [split; auto|apply of_Z_isZ; lia|]. apply B. lra. }
  assert (L : (IZR k <= rnd32 (4 * B2R spatial) <= IZR k + / 2)%R).
  { split; [apply rnd_ge_Z; [exact H1|lia]|]. rewrite <- Half by lia. apply rnd_le_fmt.
    - rewrite Half by lia. exact H2.
    - apply (fmt_D _ 1); lia. }
  assert (A : fin (f32_add (f32_mul spatial (F32 4)) (F32 1)) (rnd32 (rnd32 (4 * B2R spatial) + 1))).
  { apply add_fin; [exact M|apply (of_Z_isZ 1); lia|]. apply B. lra. }
  assert (L2 : (IZR (k + 1) <= rnd32 (rnd32 (4 * B2R spatial) + 1) <= IZR (k + 1) + / 2)%R).
  { split; [apply rnd_ge_Z; [rewrite plus_IZR; lra|lia]|]. rewrite <- Half by lia. apply rnd_le_fmt.
    - rewrite Half by lia. rewrite plus_IZR. lra.
    - apply (fmt_D _ 1); lia. }
  unfold f32_to_int. rewrite (to_int_fin U32 _ _ ltac:(cbn; lia) A).
  rewrite Ztrunc_floor by (apply Rle_trans with (2 := proj1 L2); apply IZR_le; lia).
  rewrite (Zfloor_imp (k + 1)) by (split; [apply L2|rewrite (plus_IZR (k + 1) 1); lra]).
  unfold clampZ. cbn [lo hi U32]. lia.
Qed.

(** for the fractions k/4: odd k panic, even k do not *)
Theorem C59_quarters p lm b n (img : image Z) range spatial k :
  bilateral_input b img -> f32_ltb range f32_0 = false -> f32_ltb spatial f32_0 = false ->
  is_finite spatial = true -> B2R spatial = (IZR k / 4)%R -> 0 <= k < 65535 ->
  if Z.odd k then bilateral_filter p lm b n img range spatial = Panic
  else exists out, bilateral_filter p lm b n img range spatial = Ret out /\ info_of out = info_of img.
Proof.
  intros Hin Hr Hs Hf Hv Hk.
  assert (Ew : window spatial = k + 1).
  { apply C59_window; auto; [lia|]. rewrite Hv. split; lra. }
  assert (Eo : Z.odd (window spatial) = negb (Z.odd k)) by (rewrite Ew, Z.odd_add; destruct (Z.odd k); reflexivity).
  destruct (Z.odd k).
  - apply C59_even_window; auto. lia.
  - destruct (C59_bilateral p lm b n img range spatial) as (lab & mid & out & _ & _ & _ & _ & _ & _ & E & I); auto; [lia|].
    exists out. auto.
Qed.

(** ** degenerate parameters give a black image *)
Definition black (img out : image Z) : Prop :=
  info_of out = info_of img /\ forall x y, inside img x y ->
    pixel_at out x y = repeat 0 (Z.to_nat (channels (info_of img))).

Lemma zero_weight (g v : f32) :
  f32_div (f32_add f32_0 (f32_mul (f32_mul f32_0 g) v)) (f32_add f32_0 (f32_mul f32_0 g)) = f32_nan.
Proof. destruct g as [[]|[]| |[] m e H], v as [[]|[]| |[] m' e' H']; reflexivity. Qed.

Lemma add_nan_l (x : f32) : f32_add f32_nan x = f32_nan. Proof. destruct x; reflexivity. Qed.
Lemma add_nan_r (x : f32) : f32_add x f32_nan = f32_nan. Proof. destruct x as [[]|[]| |[] ? ? ?]; reflexivity. Qed.
Lemma mul_nan_r (x : f32) : f32_mul x f32_nan = f32_nan. Proof. destruct x as [[]|[]| |[] ? ? ?]; reflexivity. Qed.
Lemma div_nan_r (x : f32) : f32_div x f32_nan = f32_nan. Proof. destruct x as [[]|[]| |[] ? ? ?]; reflexivity. Qed.

Lemma nan_black lm : (forall y, powf lm f32_nan y = f32_nan) ->
  lab_to_srgb (powf lm) white_d65 [f32_nan; f32_nan; f32_nan] = [0; 0; 0] /\ alpha_back f32_nan = 0.
Proof.
  intros Hp. split; [|reflexivity]. unfold lab_to_srgb, xyz_to_srgb.
  assert (E : lab_to_xyz (powf lm) white_d65 [f32_nan; f32_nan; f32_nan] = [f32_nan; f32_nan; f32_nan]) by reflexivity.
  rewrite E. assert (E2 : xyz_to_lin [f32_nan; f32_nan; f32_nan] = [f32_nan; f32_nan; f32_nan]) by reflexivity.
  rewrite E2. cbn [map]. unfold srgb_encode. change (f32_leb f32_nan (f32_dec 31308 7)) with false. cbv iota.
  rewrite Hp, mul_nan_r. reflexivity.
Qed.

Lemma all_nan_black p lm b n (img : image Z) range spatial : (forall y, powf lm f32_nan y = f32_nan) ->
  bilateral_input b img -> f32_ltb range f32_0 = false -> f32_ltb spatial f32_0 = false ->
  Z.odd (window spatial) = true -> window spatial <= 65535 ->
  (forall lab x y c, bilateral_mean lm range spatial lab x y c = f32_nan) ->
  exists out, bilateral_filter p lm b n img range spatial = Ret out /\ black img out.
Proof.
  intros Hp Hin Hr Hs Ho Hw Hnan.
  destruct (C59_bilateral p lm b n img range spatial Hin Hr Hs Ho Hw) as (lab & mid & out & _ & _ & Im & Wm & V & Eo & E & I).
  exists out. split; [exact E|]. split; [exact I|]. intros x y Hxy.
  destruct Hin as (Hwf & Hu & Hc & Hne & _ & _). pose proof (wf_c _ Hwf).
  assert (Em : pixel_at mid x y = repeat f32_nan (Z.to_nat (channels (info_of img)))).
  { assert (Hxm : inside mid x y) by (unfold inside; rewrite Im; exact Hxy).
    pose proof (pixel_at_len mid Wm x y Hxm) as L. rewrite Im in L.
    apply (list_ext _ _ f32_0); [rewrite repeat_length; unfold len in L; lia|].
    intros i Hi. specialize (V x y (Z.of_nat i) Hxy ltac:(unfold len in L; lia)). unfold value in V. rewrite Nat2Z.id in V.
    rewrite V, Hnan. symmetry. apply nth_repeat'. unfold len in L. lia. }
  destruct (conv_lab_srgb p lm D65 mid Wm (samples_any mid)) as [out' [Eo' [R _]]]; try (rewrite Im; assumption).
  rewrite Eo in Eo'. injection Eo' as <-. destruct R as [_ [_ R]].
  assert (Hxm : inside mid x y) by (unfold inside; rewrite Im; exact Hxy).
  specialize (R x y Hxm). rewrite Im in R. change (white_of D65) with white_d65 in R. destruct (nan_black lm Hp) as [B1 B2]. unfold colors in Hc.
  destruct (alpha (info_of img)).
  - replace (channels (info_of img)) with 4 in * by lia. change (repeat f32_nan (Z.to_nat 4)) with ([f32_nan; f32_nan; f32_nan] ++ [f32_nan]) in Em.
    rewrite (R _ _ Em), B1, B2. reflexivity.
  - replace (channels (info_of img)) with 3 in * by lia. rewrite R, Em. exact B1.
Qed.

(** spatial < 1/8 (window of side 1, whose only weight is 0): 0/0 everywhere.
    The only fact used about the mathematical library is that a power of NaN is NaN. *)
Theorem C59_spatial_zero_black p lm b n (img : image Z) range spatial : (forall y, powf lm f32_nan y = f32_nan) ->
  bilateral_input b img -> f32_ltb range f32_0 = false ->
  is_finite spatial = true -> (0 <= B2R spatial <= / 8)%R ->
  exists out, bilateral_filter p lm b n img range spatial = Ret out /\ black img out.
Proof.
  intros Hp Hin Hr Hf Hs.
  assert (Ew : window spatial = 1) by (apply (C59_window 0); auto; [lia|lra]).
  apply all_nan_black; auto; try (rewrite Ew; reflexivity || lia).
  - unfold f32_ltb. rewrite (ltb_fin spatial f32_0 (B2R spatial) 0); [|split; auto|split; reflexivity].
    apply Rlt_bool_false. lra.
  - intros lab x y c. unfold bilateral_mean. rewrite Ew. apply zero_weight.
Qed.

(** range = 0: the range weight is not a number *)
Lemma gauss_zero lm (z x : f32) : f32_eqb z f32_0 = true ->
  powf lm f32_e f32_nan = f32_nan -> (exists s, powf lm f32_e (B754_infinity true) = B754_zero s) ->
  gauss lm z x = f32_nan.
Proof.
  intros Hz H1 [s H2]. destruct z as [sz|[]| |[] m e Hb]; try discriminate. unfold gauss.
  assert (Z0 : f32_mul (B754_zero sz) (B754_zero sz) = f32_0) by (destruct sz; reflexivity). rewrite Z0.
  assert (I0 : f32_div (F32 1) (f32_mul (f32_mul (F32 2) f32_pi) f32_0) = B754_infinity false) by reflexivity. rewrite I0.
  change (f32_mul (F32 2) f32_0) with f32_0.
  assert (Q : f32_div (f32_neg (f32_mul x x)) f32_0 = f32_nan \/ f32_div (f32_neg (f32_mul x x)) f32_0 = B754_infinity true).
  { assert (P : f32_mul x x = f32_nan \/ (exists s, f32_mul x x = s /\ Bsign s = false)).
    { destruct x as [sx|sx| |sx m e Hb]; auto; right; eexists; (split; [reflexivity|]).
      - destruct sx; reflexivity.
      - destruct sx; reflexivity.
      - pose proof (Bmult_correct 24 128 _ _ mode_NE (B754_finite sx m e Hb) (B754_finite sx m e Hb)) as C.
        destruct (Rlt_bool _ _) in C.
        + destruct C as [_ [Fc Sc]]. unfold f32_mul. rewrite Sc; [destruct sx; reflexivity|].
          destruct (Bmult mode_NE _ _); try reflexivity. discriminate Fc.
        + unfold f32_mul. destruct (Bmult mode_NE _ _) as [s0|s0| |s0 m0 e0 Hb0]; cbn in C; destruct sx; cbn in C |- *; congruence. }
    destruct P as [->|[r [-> Hs]]]; [left; reflexivity|]. clear -Hs. destruct r as [[]|[]| |[] m e Hb]; cbn [Bsign] in Hs; try discriminate Hs.
    - left; reflexivity.
    - right; reflexivity.
    - left; reflexivity.
    - right; reflexivity. }
  destruct Q as [->| ->]; [rewrite H1|rewrite H2; destruct s]; reflexivity.
Qed.

Lemma nan_sum (l : list f32) : l <> [] -> Forall (fun w => w = f32_nan) l -> fold_left f32_add l f32_0 = f32_nan.
Proof.
  destruct l as [|w l]; [congruence|]. intros _ H. inversion H as [|? ? -> Hl]; subst. cbn [fold_left]. rewrite add_nan_r.
  clear H. induction l as [|w l IH]; [reflexivity|]. inversion Hl; subst. cbn [fold_left]. rewrite add_nan_r. auto.
Qed.
Theorem C59_range_zero_black p lm b n (img : image Z) range spatial :
  (forall y, powf lm f32_nan y = f32_nan) -> powf lm f32_e f32_nan = f32_nan ->
  (exists s, powf lm f32_e (B754_infinity true) = B754_zero s) ->
  bilateral_input b img -> f32_eqb range f32_0 = true -> f32_ltb spatial f32_0 = false ->
  Z.odd (window spatial) = true -> window spatial <= 65535 ->
  exists out, bilateral_filter p lm b n img range spatial = Ret out /\ black img out.
Proof.
  intros Hp H1 H2 Hin Hr Hs Ho Hw. apply all_nan_black; auto.
  - destruct range as [[]|[]| |[] m e Hb]; try discriminate; reflexivity.
  - intros lab x y c. unfold bilateral_mean. cbv zeta. rewrite nan_sum; [apply div_nan_r| |].
    + assert (0 <= window spatial) by apply (float_to_int_range U32 (f32_add (f32_mul spatial (F32 4)) (F32 1)) ltac:(cbn; lia)).
      rewrite offsets_flat by auto. rewrite !map_map. intros E. apply map_eq_nil in E.
      assert (window spatial <> 0) by (intros E0; rewrite E0 in Ho; discriminate).
      rewrite zrange_cons in E by nia. discriminate.
    + apply Forall_forall. intros w Hin'. rewrite map_map in Hin'. apply in_map_iff in Hin' as [[dx dy] [<- _]].
      cbn [fst]. unfold bweight. rewrite gauss_zero by auto. apply mul_nan_r.
Qed.

(** ** the two builds agree, panics and errors included *)
Lemma safe_bil_pixel p lm (lab : image f32) range mat sz x y : 0 <= channels (info_of lab) <= 255 -> f32_ltb range f32_0 = false ->
  safe (fun px : list f32 => len px = channels (info_of lab)) (bilateral_direct_pixel p lm lab range mat sz x y).
Proof.
  intros Hc Hr. unfold bilateral_direct_pixel. eapply safe_bind; [apply safe_nb_2d; exact Hc|]. intros s _.
  eapply safe_bind; [apply safe_get_pixel; lia|]. intros px Hl.
  eapply safe_weaken; [apply (safe_mmap (fun _ => True))|].
  - intros c _. eapply safe_bind; [apply safe_vget|]. intros ch _. unfold bilateral_channel.
    eapply safe_bind; [apply safe_arith|]. intros sq _. apply (safe_bind (fun _ => True)); [|intros [? ?] _; exact I].
    apply safe_mfold; auto. intros [a t] i _ _. eapply safe_bind; [apply safe_vget|]. intros q _.
    eapply safe_bind; [apply safe_vget|]. intros v _. rewrite gaussian_fn_ok by exact Hr. cbn [unwrap]. rewrite bind_Ret.
    eapply safe_bind; [apply safe_vget|]. intros m _. exact I.
  - intros r [L _]. rewrite <- Hl. unfold len. rewrite L, zrange_length. unfold len. lia.
Qed.
Theorem C17_bilateral_filter_seq_par p lm sched n (img : image Z) range spatial :
  wf img -> samples is_u8 img -> colors (info_of img) = 3 -> 0 < width (info_of img) * height (info_of img) ->
  scheduled (Par sched) (info_of img) ->
  bilateral_filter p lm (Par sched) n img range spatial = bilateral_filter p lm Seq n img range spatial.
Proof.
  intros Hwf Hu Hc Hne Hsch. unfold bilateral_filter. destruct (f32_ltb range f32_0) eqn:Er.
  { rewrite check_neg_err by exact Er. reflexivity. }
  apply bind_ext. intros _ _. apply bind_ext. intros _ _. apply bind_ext. intros mat _.
  destruct (conv_srgb_lab p lm D65 img Hwf Hu Hc Hne) as [lab [El [Rl Il]]]. rewrite El, !bind_Ret.
  assert (Wl : wf lab) by apply Rl. pose proof (wf_c _ Wl).
  assert (S : forall x y, inside lab x y -> safe (fun px : list f32 => len px = channels (info_of lab))
     (bilateral_direct_pixel p lm lab range mat (f32_to_int U32 (f32_add (f32_mul spatial (F32 4)) f32_1)) x y)).
  { intros x y _. apply safe_bil_pixel; auto. }
  f_equal.
  pose proof (bil_mid p lm (Par sched) n img lab range mat _ Hwf Hsch Wl Il S) as A.
  pose proof (bil_mid p lm Seq n img lab range mat _ Hwf I Wl Il S) as B. cbv iota in A, B. rewrite A, B. reflexivity.
Qed.

(** ** a change outside the window is not seen *)
Theorem C59_local p lm b n (img img' : image Z) range spatial x y out out' :
  bilateral_input b img -> bilateral_input b img' -> info_of img = info_of img' ->
  f32_ltb range f32_0 = false -> f32_ltb spatial f32_0 = false -> Z.odd (window spatial) = true -> window spatial <= 65535 ->
  bilateral_filter p lm b n img range spatial = Ret out -> bilateral_filter p lm b n img' range spatial = Ret out' ->
  inside img x y ->
  (forall x' y', inside img x' y' -> Z.abs (x' - x) <= window spatial / 2 -> Z.abs (y' - y) <= window spatial / 2 ->
     pixel_at img x' y' = pixel_at img' x' y') ->
  pixel_at out x y = pixel_at out' x y.
Proof.
  intros Hin Hin' Hi Hr Hs Ho Hw E E' Hxy Heq.
  assert (Hw0 : 0 <= window spatial) by apply (float_to_int_range U32 (f32_add (f32_mul spatial (F32 4)) (F32 1)) ltac:(cbn; lia)).
  destruct (C59_bilateral p lm b n img range spatial Hin Hr Hs Ho Hw) as (lab & mid & o & El & Il & Im & Wm & V & Eo & Ef & I).
  destruct (C59_bilateral p lm b n img' range spatial Hin' Hr Hs Ho Hw) as (lab' & mid' & o' & El' & Il' & Im' & Wm' & V' & Eo' & Ef' & I').
  rewrite E in Ef. injection Ef as <-. rewrite E' in Ef'. injection Ef' as <-.
  destruct Hin as (Hwf & Hu & Hc & Hne & _ & _). destruct Hin' as (Hwf' & Hu' & Hc' & Hne' & _ & _).
  (* the images in CIELAB agree on the window *)
  destruct (conv_srgb_lab p lm D65 img Hwf Hu Hc Hne) as [l1 [E1 [R1 _]]]. rewrite El in E1. injection E1 as <-.
  destruct (conv_srgb_lab p lm D65 img' Hwf' Hu' Hc' Hne') as [l2 [E2 [R2 _]]]. rewrite El' in E2. injection E2 as <-.
  assert (EqL : forall x' y', inside img x' y' -> pixel_at img x' y' = pixel_at img' x' y' -> pixel_at lab x' y' = pixel_at lab' x' y').
  { intros x' y' H' Ep. destruct R1 as [_ [_ R1]], R2 as [_ [_ R2]]. specialize (R1 x' y' H').
    assert (H2 : inside img' x' y') by (unfold inside in *; rewrite <- Hi; exact H'). specialize (R2 x' y' H2).
    rewrite <- Hi in R2. destruct (alpha (info_of img)) eqn:Ea.
    - pose proof (pixel_at_len img Hwf x' y' H') as L. unfold colors in Hc. rewrite Ea in Hc.
      destruct (pixel_at img x' y') as [|r [|g [|bl [|a [|? ?]]]]] eqn:Epx; unfold len in L; cbn in L; try lia.
      rewrite (R1 [r; g; bl] a eq_refl), (R2 [r; g; bl] a) by (rewrite <- Ep; reflexivity). reflexivity.
    - rewrite R1, R2, Ep. reflexivity. }
  assert (EqM : pixel_at mid x y = pixel_at mid' x y).
  { assert (Hxm : inside mid x y) by (unfold inside; rewrite Im; exact Hxy).
    assert (Hxm' : inside mid' x y) by (unfold inside; rewrite Im', <- Hi; exact Hxy).
    assert (Hx' : inside img' x y) by (unfold inside; rewrite <- Hi; exact Hxy).
    pose proof (pixel_at_len mid Wm x y Hxm) as L. pose proof (pixel_at_len mid' Wm' x y Hxm') as L'.
    rewrite Im in L. rewrite Im', <- Hi in L'.
    apply (list_ext _ _ f32_0); [unfold len in *; lia|]. intros i Hlt.
    specialize (V x y (Z.of_nat i) Hxy ltac:(unfold len in *; lia)).
    specialize (V' x y (Z.of_nat i) Hx' ltac:(rewrite <- Hi; unfold len in *; lia)).
    unfold value in V, V'. rewrite Nat2Z.id in V, V'. rewrite V, V'. clear V V'.
    assert (En : window spatial = 2 * (window spatial / 2) + 1).
    { rewrite (Z.div_mod (window spatial) 2) at 1 by lia. rewrite Zmod_odd, Ho. lia. }
    assert (Hval : value lab x y (Z.of_nat i) = value lab' x y (Z.of_nat i)).
    { unfold value. rewrite (EqL x y Hxy); [reflexivity|]. apply Heq; auto; rewrite Z.sub_diag; cbn; lia. }
    unfold bilateral_mean. cbv zeta. rewrite Hval.
    assert (Q : forall dx dy, In (dx, dy) (offsets (window spatial)) ->
       neighbour lab x y (Z.of_nat i) dx dy = neighbour lab' x y (Z.of_nat i) dx dy).
    { intros dx dy Hd. unfold offsets in Hd. apply in_flat_map in Hd as [dy' [Hdy Hd]]. apply in_map_iff in Hd as [dx' [Ed Hdx]].
      injection Ed as -> ->. apply in_zrange in Hdy, Hdx. unfold neighbour, value. rewrite Il, Il', <- Hi.
      destruct Hxy as [Hx Hy]. rewrite EqL; [reflexivity| |apply Heq].
      - split; apply padded_range; assumption.
      - split; apply padded_range; assumption.
      - unfold padded. destruct (_ && _); lia.
      - unfold padded. destruct (_ && _); lia. }
    assert (Mx : forall l, (forall dx dy, In (dx, dy) l -> neighbour lab x y (Z.of_nat i) dx dy = neighbour lab' x y (Z.of_nat i) dx dy) ->
      map (fun '(dx, dy) => (bweight lm range spatial dx dy (value lab' x y (Z.of_nat i)) (neighbour lab x y (Z.of_nat i) dx dy), neighbour lab x y (Z.of_nat i) dx dy)) l
      = map (fun '(dx, dy) => (bweight lm range spatial dx dy (value lab' x y (Z.of_nat i)) (neighbour lab' x y (Z.of_nat i) dx dy), neighbour lab' x y (Z.of_nat i) dx dy)) l).
    { intros l Hl. apply map_ext_in. intros [dx dy] Hd. rewrite (Hl dx dy Hd). reflexivity. }
    rewrite (Mx _ Q). reflexivity. }
  assert (S1 : colors (info_of mid) = 3) by (rewrite Im; exact Hc). assert (S2 : colors (info_of mid') = 3) by (rewrite Im'; exact Hc').
  destruct (conv_lab_srgb p lm D65 mid Wm (samples_any mid) S1 ltac:(rewrite Im; exact Hne)) as [o1 [Eo1 [[_ [_ Q1]] _]]]. rewrite Eo in Eo1. injection Eo1 as <-.
  destruct (conv_lab_srgb p lm D65 mid' Wm' (samples_any mid') S2 ltac:(rewrite Im'; exact Hne')) as [o2 [Eo2 [[_ [_ Q2]] _]]]. rewrite Eo' in Eo2. injection Eo2 as <-.
  assert (Hxm : inside mid x y) by (unfold inside; rewrite Im; exact Hxy).
  assert (Hxm' : inside mid' x y) by (unfold inside; rewrite Im', <- Hi; exact Hxy).
  specialize (Q1 x y Hxm). specialize (Q2 x y Hxm'). rewrite Im in Q1. rewrite Im', <- Hi in Q2.
  destruct (alpha (info_of img)) eqn:Ea.
  - pose proof (pixel_at_len mid Wm x y Hxm) as L. unfold colors in S1. rewrite Im, Ea in S1. rewrite Im in L.
    destruct (pixel_at mid x y) as [|r [|g [|bl [|a [|? ?]]]]] eqn:Epx; unfold len in L; cbn in L; try lia.
    rewrite (Q1 [r; g; bl] a eq_refl), (Q2 [r; g; bl] a) by (rewrite <- EqM; reflexivity). reflexivity.
  - rewrite Q1, Q2, EqM. reflexivity.
Qed.

(** ** refutation of the documented claim and examples *)
Definition quarter : f32 := f32_div (F32 1) (F32 4).
Lemma ex_bilateral_input : bilateral_input Seq ex_rgba.
Proof. unfold bilateral_input. repeat match goal with |- _ /\ _ => split end; [exact ex_rgba_wf|exact ToneP.ex_rgba_u8|reflexivity|cbn; lia|split; cbn; lia|exact I]. Qed.
Theorem C59_nonnegative_refuted p lm : ~ (forall (img : image Z) range spatial, bilateral_input Seq img ->
  f32_ltb range f32_0 = false -> f32_ltb spatial f32_0 = false -> is_finite range = true -> is_finite spatial = true ->
  exists out, bilateral_filter p lm Seq 0 img range spatial = Ret out).
Proof.
  intros H. destruct (H ex_rgba f32_1 quarter ex_bilateral_input eq_refl eq_refl eq_refl eq_refl) as [out E].
  rewrite C59_even_window in E; try reflexivity; [discriminate|]. apply Z.leb_le. reflexivity.
Qed.
Example C59_example : bilateral_input Seq ex_rgba /\ window (f32_div (F32 1) (F32 2)) = 3 /\ window quarter = 2 /\ window f32_0 = 1
  /\ match bilateral_filter Debug ex_lm Seq 0 ex_rgba (F32 2) (f32_div (F32 1) (F32 2)) with Ret out => info_of out = info_of ex_rgba | _ => False end
  /\ (forall y, powf ex_lm f32_nan y = f32_nan)
  /\ match bilateral_filter Debug ex_lm Seq 0 ex_rgba (F32 2) f32_0 with Ret out => forallb (Z.eqb 0) (data out) = true | _ => False end.
Proof.
  split; [exact ex_bilateral_input|]. split; [vm_compute; reflexivity|]. split; [vm_compute; reflexivity|].
  split; [vm_compute; reflexivity|]. split; [vm_compute; reflexivity|]. split; [intros y; reflexivity|]. vm_compute; reflexivity.
Qed.
(** a library that meets the hypotheses of C59_range_zero_black *)
Example C59_example_lm : exists lm, (forall y, powf lm f32_nan y = f32_nan) /\ powf lm f32_e f32_nan = f32_nan
  /\ exists s, powf lm f32_e (B754_infinity true) = B754_zero s.
Proof.
  exists (Libm (fun x y => match y with B754_infinity true => match x with B754_nan => f32_nan | _ => f32_0 end | B754_nan => f32_nan | _ => x end) (fun x => x) (fun x => x)).
  cbn [powf]. split; [|split; [reflexivity|exists false; reflexivity]]. intros [?|[]| |? ? ? ?]; reflexivity.
Qed.
