(** Lemmas for src/transform.rs. *)
From Verif.Model Require Export Transform.
From Verif.Proofs Require Export Safe ImageOps ImageProps.
Open Scope Z_scope.

Lemma safe_dec {A B} (Q : B -> Prop) (f : A -> outcome B) l :
  (forall k, In k l -> safe Q (f k)) ->
  (exists k, In k l /\ f k = Panic) \/ (forall k, In k l -> exists r, f k = Ret r /\ Q r).
Proof.
  induction l as [|a l IH]; intros Hl; [right; intros k []|].
  pose proof (Hl a (or_introl eq_refl)) as Ha.
  destruct (IH (fun k Hk => Hl k (or_intror Hk))) as [[k [Hk E]]|Hr].
  - left. exists k. split; [right; exact Hk|exact E].
  - destruct (f a) eqn:E; cbn in Ha; try contradiction.
    + right. intros k [->|Hk]; eauto.
    + left. exists a. split; [left; reflexivity|exact E].
Qed.

(** the sequential double loop against the collected vector of pixels *)
Lemma loop_eq p {T} (inf : info) (interp : Z -> Z -> outcome (list T)) (out0 : image T) :
  wf out0 -> info_of out0 = inf ->
  (forall x y, 0 <= x < width inf -> 0 <= y < height inf ->
     safe (fun px => len px = channels inf) (interp x y)) ->
  mfold (fun out y => mfold (fun out x => let! px := interp x y in set_pixel p out x y px)
      (zrange 0 (width inf)) out) (zrange 0 (height inf)) out0
  = (let! d := mmap (fun i => interp (i mod width inf) (i / width inf)) (zrange 0 (width inf * height inf)) in
     Ret (Image inf (concat d))).
Proof.
  intros Hwf Hinf Hsafe.
  pose proof (wf_info_ok out0 Hwf) as Hok. rewrite Hinf in Hok.
  destruct (safe_dec (fun px => len px = channels inf) (fun c => interp (fst c) (snd c))
     (coords 0 (width inf) 0 (height inf))) as [[[x y] [Hin E]]|Hret].
  { intros [x y] Hin. apply in_coords in Hin. apply Hsafe; cbn; lia. }
  - (* a panic somewhere *)
    apply in_coords in Hin. cbn in E.
    transitivity (@Panic (image T)).
    + rewrite mfold_nest.
      apply (mfold_panic (fun im => wf im /\ info_of im = inf) _ _ _ (x, y)); auto.
      * apply in_coords. lia.
      * intros im [x1 y1] [Hw1 Hi1] Hin1. apply in_coords in Hin1. cbn.
        pose proof (Hsafe x1 y1 ltac:(lia) ltac:(lia)) as Hs.
        destruct (interp x1 y1) as [px| | |]; cbn in Hs; try contradiction; cbn [bind]; [|right; reflexivity].
        left. rewrite set_pixel_ok; auto; [|split; rewrite Hi1; lia|rewrite Hi1; exact Hs].
        eexists. split; [reflexivity|]. split; [|exact Hi1].
        apply put_wf; auto; [|rewrite Hi1; exact Hs]. rewrite Hi1.
        destruct Hok as [? [? [? ?]]].
        destruct (pos_bound (width inf) (height inf) (channels inf) x1 y1); lia.
      * intros im _. cbn. rewrite E. reflexivity.
    + symmetry. rewrite (mmap_panic _ _ (y * width inf + x)); [reflexivity| | |].
      * apply in_zrange. destruct (pos_bound (width inf) (height inf) 0 x y); lia.
      * destruct (pos_div (width inf) x y) as [-> ->]; [lia|]. exact E.
      * intros i Hi. apply in_zrange in Hi.
        assert (0 < width inf) by nia. destruct (pos_surj (width inf) (height inf) i) as [? [? _]]; try lia.
        pose proof (Hsafe (i mod width inf) (i / width inf) ltac:(lia) ltac:(lia)) as Hs.
        cbv beta. destruct (interp (i mod width inf) (i / width inf)); cbn in Hs; try contradiction; eauto.
  - set (G := fun x y => match interp x y with Ret px => px | _ => [] end).
    assert (HG : forall x y, 0 <= x < width inf -> 0 <= y < height inf ->
       interp x y = Ret (G x y) /\ len (G x y) = channels inf).
    { intros x y Hx Hy. destruct (Hret (x, y)) as [r [E Hr]]; [apply in_coords; lia|]. cbn in E.
      unfold G. rewrite E. auto. }
    destruct (write_rect p (fun x y => Some (G x y))
       (fun im x y => let! px := interp x y in set_pixel p im x y px)
       0 (width inf) 0 (height inf) out0) as [out [E [Hw [Hi Hp]]]]; auto.
    + intros im x y Hx Hy _ _. destruct (HG x y Hx Hy) as [-> _]. reflexivity.
    + intros x y Hx Hy _. split; rewrite Hinf; lia.
    + intros x y px Hx Hy EG. injection EG as <-. rewrite Hinf. apply HG; assumption.
    + rewrite E. rewrite (mmap_Ret _ (fun i => G (i mod width inf) (i / width inf))).
      * cbn [bind]. f_equal. change (out = of_fun inf G).
        apply image_ext; auto.
        -- apply of_fun_wf; auto. intros; apply HG; assumption.
        -- rewrite Hi. exact Hinf.
        -- intros x y [Hx Hy]. rewrite Hi, Hinf in Hx. rewrite Hi, Hinf in Hy. rewrite Hp by (split; rewrite Hinf; lia).
           replace ((0 <=? x) && (x <? width inf) && (0 <=? y) && (y <? height inf)) with true by lia.
           rewrite pixel_at_of_fun; auto. intros; apply HG; assumption.
      * intros i Hi0. apply in_zrange in Hi0. destruct Hok as [? [? _]].
        assert (0 < width inf) by nia. destruct (pos_surj (width inf) (height inf) i) as [? [? _]]; try lia.
        apply HG; lia.
Qed.

Lemma par_loop_eq p {T} sched (inf : info) (interp : Z -> Z -> outcome (list T)) :
  info_ok inf ->
  Permutation sched (zrange 0 (width inf * height inf)) ->
  (forall x y, 0 <= x < width inf -> 0 <= y < height inf ->
     safe (fun px => len px = channels inf) (interp x y)) ->
  par_collect sched (width inf * height inf) (fun i =>
        let! '(x, y) := get_2d_coords p i (width inf) in interp x y)
  = mmap (fun i => interp (i mod width inf) (i / width inf)) (zrange 0 (width inf * height inf)).
Proof.
  intros Hok Hperm Hsafe. destruct Hok as [? [? [? [? ?]]]].
  assert (Hk : forall k, 0 <= k < width inf * height inf ->
     (let! '(x, y) := get_2d_coords p k (width inf) in interp x y) = interp (k mod width inf) (k / width inf)
     /\ 0 <= k mod width inf < width inf /\ 0 <= k / width inf < height inf).
  { intros k Hk. assert (0 < width inf) by nia.
    rewrite get_2d_coords_ok by (unfold u32_max in *; lia). split; [reflexivity|].
    destruct (pos_surj (width inf) (height inf) k) as [? [? _]]; lia. }
  rewrite par_collect_eq; auto.
  - apply mmap_ext. intros k Hin. apply in_zrange in Hin. apply Hk. exact Hin.
  - intros k Hin. destruct (Hk k Hin) as [-> [? ?]]. eapply safe_weaken; [apply Hsafe; assumption|auto].
Qed.

(** the rectangle-copy loops *)
Lemma copy_rect p {T} (src out0 : image T) x0 x1 y0 y1 (sx sy : Z -> Z -> Z) body :
  wf src -> wf out0 -> channels (info_of src) = channels (info_of out0) ->
  (forall im x y, x0 <= x < x1 -> y0 <= y < y1 ->
     body im x y = (let! px := get_pixel p src (sx x y) (sy x y) in set_pixel p im x y px)) ->
  (forall x y, x0 <= x < x1 -> y0 <= y < y1 -> inside out0 x y /\ inside src (sx x y) (sy x y)) ->
  exists out, mfold (fun im y => mfold (fun im x => body im x y) (zrange x0 x1) im) (zrange y0 y1) out0 = Ret out
    /\ wf out /\ info_of out = info_of out0
    /\ forall x y, inside out0 x y -> pixel_at out x y
       = if (x0 <=? x) && (x <? x1) && (y0 <=? y) && (y <? y1)
         then pixel_at src (sx x y) (sy x y) else pixel_at out0 x y.
Proof.
  intros Hws Hwo HC Hbody Hin.
  apply (write_rect p (fun x y => Some (pixel_at src (sx x y) (sy x y)))); auto.
  - intros im x y Hx Hy _ _. rewrite Hbody by assumption. destruct (Hin x y Hx Hy).
    rewrite get_pixel_ok by assumption. reflexivity.
  - intros x y Hx Hy _. apply Hin; assumption.
  - intros x y px Hx Hy E. injection E as <-. rewrite <- HC. apply pixel_at_len; auto. apply Hin; assumption.
Qed.

(** ** crop *)
Lemma crop_check_cases p {T} (img : image T) x y w h :
  x + w <= u32_max -> y + h <= u32_max -> 0 <= x + w -> 0 <= y + h ->
  crop_check p img x y w h
  = if (x + w <? width (info_of img)) && (y + h <? height (info_of img)) then Ret tt else Fail InvalidArgError.
Proof.
  intros. unfold u32_max in *. unfold crop_check. ari.
  destruct (width (info_of img) <=? x + w) eqn:E1.
  - replace (x + w <? width (info_of img)) with false by lia. reflexivity.
  - replace (x + w <? width (info_of img)) with true by lia.
    destruct (height (info_of img) <=? y + h) eqn:E2; cbn [bind andb].
    + replace (y + h <? height (info_of img)) with false by lia. reflexivity.
    + replace (y + h <? height (info_of img)) with true by lia. reflexivity.
Qed.

Lemma crop_info_ok {T} (img : image T) x y w h : wf img -> 0 <= x -> 0 <= y -> 0 <= w -> 0 <= h ->
  x + w < width (info_of img) -> y + h < height (info_of img) ->
  info_ok (Info w h (channels (info_of img)) (alpha (info_of img))).
Proof.
  intros [? ? ? ? ? ?] Hx Hy Hw Hh Hxw Hyh. unfold info_ok. cbn.
  assert (w * h <= width (info_of img) * height (info_of img)) by nia.
  assert (w * h * channels (info_of img) <= width (info_of img) * height (info_of img) * channels (info_of img)) by nia.
  lia.
Qed.

Lemma crop_seq_ok p {T} (N : number T) (img : image T) x y w h :
  wf img -> 0 <= x -> 0 <= y -> 0 <= w -> 0 <= h ->
  x + w < width (info_of img) -> y + h < height (info_of img) ->
  exists out, crop_seq p N img x y w h = Ret out /\ wf out
    /\ info_of out = Info w h (channels (info_of img)) (alpha (info_of img))
    /\ forall i j, inside out i j -> pixel_at out i j = pixel_at img (x + i) (y + j).
Proof.
  intros Hwf Hx Hy Hw Hh Hxw Hyh.
  pose proof (crop_info_ok img x y w h Hwf Hx Hy Hw Hh Hxw Hyh) as Hok.
  pose proof Hwf as [? ? ? ? ? ?]. unfold crop_seq. rewrite crop_check_cases by lia.
  replace ((x + w <? width (info_of img)) && (y + h <? height (info_of img))) with true by lia. cbn [bind].
  rewrite blank_ok by exact Hok. cbn [bind width height channels].
  set (b := Image (Info w h (channels (info_of img)) (alpha (info_of img)))
     (repeat (n_zero N) (Z.to_nat (w * h * channels (info_of img))))).
  assert (Hwb : wf b) by (apply (blank_wf N _ Hok)).
  destruct (copy_rect p img b 0 w 0 h (fun i _ => i + x) (fun _ j => j + y)
    (fun im i j => let! ix := iadd p U32 i x in let! jy := iadd p U32 j y in
        let! px := get_pixel p img ix jy in set_pixel p im i j px)) as [out [E [Hwo [Hi Hp]]]]; auto.
  - intros im i j Hi Hj. unfold u32_max in *. ari. reflexivity.
  - intros i j Hi Hj. split; split; cbn; lia.
  - exists out. conj; auto. intros i j Hin. rewrite Hp.
    + destruct Hin as [Hi1 Hj1]. rewrite Hi in Hi1, Hj1. cbn in Hi1, Hj1.
      replace ((0 <=? i) && (i <? w) && (0 <=? j) && (j <? h)) with true by lia. f_equal; lia.
    + unfold inside in *. rewrite Hi in Hin. exact Hin.
Qed.

Lemma crop_par_eq p {T} (N : number T) sched (img : image T) x y w h :
  wf img -> 0 <= x -> 0 <= y -> 0 <= w -> 0 <= h ->
  p = Debug \/ (x + w <= u32_max /\ y + h <= u32_max) ->
  Permutation sched (zrange 0 (w * h)) ->
  crop_par p sched img x y w h = crop_seq p N img x y w h.
Proof.
  intros Hwf Hx Hy Hw Hh Hno Hperm. unfold crop_par, crop_seq. apply bind_ext. intros u Hc.
  assert (x + w < width (info_of img) /\ y + h < height (info_of img)) as [Hxw Hyh].
  { destruct (Z_le_gt_dec (x + w) u32_max); destruct (Z_le_gt_dec (y + h) u32_max).
    - rewrite crop_check_cases in Hc by lia.
      destruct ((x + w <? width (info_of img)) && (y + h <? height (info_of img))) eqn:E; [lia|discriminate].
    - destruct Hno as [->|?]; [|lia]. exfalso. unfold crop_check, u32_max in *.
      rewrite iadd_ok in Hc by ity_lia. cbn [bind] in Hc.
      destruct (_ <=? x + w); [discriminate|]. unfold iadd in Hc. rewrite arith_debug_panic in Hc by ity_lia. discriminate.
    - destruct Hno as [->|?]; [|lia]. exfalso. unfold crop_check, u32_max in *.
      unfold iadd in Hc. rewrite arith_debug_panic in Hc by ity_lia. discriminate.
    - destruct Hno as [->|?]; [|lia]. exfalso. unfold crop_check, u32_max in *.
      unfold iadd in Hc. rewrite arith_debug_panic in Hc by ity_lia. discriminate. }
  pose proof (crop_info_ok img x y w h Hwf Hx Hy Hw Hh Hxw Hyh) as Hok.
  pose proof Hwf as [? ? ? ? ? ?]. pose proof Hok as [? [? [? [? ?]]]]. cbn in *.
  set (inf := Info w h (channels (info_of img)) (alpha (info_of img))) in *.
  assert (0 <= w * h) by nia.
  unfold u32_max in *.
  rewrite imul_ok by ity_lia. cbn [bind].
  set (interp := fun a b => let! ax := iadd p U32 a x in let! by_ := iadd p U32 b y in get_pixel p img ax by_).
  assert (Hsafe : forall a b, 0 <= a < width inf -> 0 <= b < height inf ->
     safe (fun px => len px = channels inf) (interp a b)).
  { intros a b Ha Hb. unfold interp. cbn in Ha, Hb. ari. apply safe_get_pixel; lia. }
  pose proof (par_loop_eq p sched inf interp Hok Hperm Hsafe) as Hpar. cbn [width height inf] in Hpar.
  unfold interp in Hpar at 1. rewrite Hpar. clear Hpar.
  rewrite blank_ok by exact Hok. cbn [bind].
  pose proof (loop_eq p inf interp _ (blank_wf N inf Hok) eq_refl Hsafe) as Hseq.
  cbn [width height channels inf] in Hseq |- *.
  assert (Hb : forall (out : image T) i j, (let! ix := iadd p U32 i x in let! jy := iadd p U32 j y in
        let! px := get_pixel p img ix jy in set_pixel p out i j px)
        = (let! px := interp i j in set_pixel p out i j px)).
  { intros out i j. unfold interp. rewrite bind_assoc. apply bind_ext. intros ? _. rewrite bind_assoc. reflexivity. }
  transitivity (let! d := mmap (fun i => interp (i mod w) (i / w)) (zrange 0 (w * h)) in Ret (Image inf (concat d))).
  - apply bind_ext. intros d _. unfold from_vec_of_slice.
    assert (0 <= w * h * channels (info_of img)) by nia. ari.
    change (fold_left (fun acc v => acc ++ v) d []) with ([] ++ fold_left (fun acc v => acc ++ v) d []).
    cbn [app]. do 2 f_equal.
    assert (Hf : forall (l : list (list T)) acc, fold_left (fun acc v => acc ++ v) l acc = acc ++ concat l).
    { induction l as [|v l IH]; intros acc; cbn; [rewrite app_nil_r; reflexivity|]. rewrite IH, app_assoc. reflexivity. }
    rewrite Hf. reflexivity.
  - rewrite <- Hseq. apply mfold_ext. intros im j _. apply mfold_ext. intros im' i _. symmetry. apply Hb.
Qed.

(** ** scale *)
Lemma scale_loop_eq p sched (interp : Z -> Z -> outcome (list f32)) (inf : info) :
  0 <= width inf <= u32_max -> 0 <= height inf <= u32_max -> 0 <= channels inf <= 255 ->
  p = Debug \/ (width inf * height inf <= u32_max /\ width inf * height inf * channels inf <= u32_max) ->
  Permutation sched (zrange 0 (width inf * height inf)) ->
  (forall x y, 0 <= x < width inf -> 0 <= y < height inf ->
     safe (fun px => len px = channels inf) (interp x y)) ->
  scale_loop_par p sched interp inf = (let! output := blank p num_f32 inf in scale_loop_seq p interp output).
Proof.
  intros Hw Hh Hc Hno Hperm Hsafe. unfold scale_loop_par.
  destruct (Z_le_gt_dec (width inf * height inf) u32_max) as [Hs|Hs].
  2: { destruct Hno as [->|?]; [|lia]. unfold size, blank, full_size, imul, u32_max in *.
       rewrite !arith_debug_panic by ity_lia. reflexivity. }
  assert (0 <= width inf * height inf) by nia.
  unfold size. unfold u32_max in *. rewrite imul_ok by ity_lia. cbn [bind].
  destruct (Z_le_gt_dec (width inf * height inf * channels inf) u32_max) as [Hf|Hf].
  - unfold u32_max in *.
    assert (Hok : info_ok inf) by (unfold info_ok, u32_max; lia).
    rewrite (par_loop_eq p sched inf interp Hok Hperm Hsafe).
    rewrite blank_ok by exact Hok. cbn [bind]. unfold scale_loop_seq. cbn [info_of].
    rewrite (loop_eq p inf interp _ (blank_wf num_f32 inf Hok) eq_refl Hsafe).
    apply bind_ext. intros d _. unfold from_vec_of_vec.
    assert (0 <= width inf * height inf * channels inf) by nia. ari.
    assert (Hfl : forall (l : list (list f32)) acc, fold_left (fun acc v => acc ++ v) l acc = acc ++ concat l).
    { induction l as [|v l IH]; intros acc; cbn; [rewrite app_nil_r; reflexivity|]. rewrite IH, app_assoc. reflexivity. }
    rewrite Hfl. destruct inf. reflexivity.
  - destruct Hno as [->|?]; [|unfold u32_max in *; lia].
    transitivity (@Panic (image f32)).
    + rewrite par_collect_eq; auto.
      * assert (Hsm : safe (fun _ => True) (mmap (fun i => let! '(x, y) := get_2d_coords Debug i (width inf) in interp x y)
                  (zrange 0 (width inf * height inf)))).
        { eapply safe_weaken; [apply (safe_mmap (fun _ => True))|auto]. intros k Hk. apply in_zrange in Hk.
          assert (0 < width inf) by nia. rewrite get_2d_coords_ok by (unfold u32_max; lia). cbn [bind].
          destruct (pos_surj (width inf) (height inf) k) as [? [? _]]; try lia.
          eapply safe_weaken; [apply Hsafe; lia|auto]. }
        destruct (mmap _ _); cbn in Hsm; try contradiction; cbn [bind]; [|reflexivity].
        unfold from_vec_of_vec. rewrite imul_ok by (unfold u32_max in *; ity_lia). cbn [bind].
        unfold imul. rewrite arith_debug_panic by (unfold u32_max in *; ity_lia). reflexivity.
      * intros k Hk. assert (0 < width inf) by nia. rewrite get_2d_coords_ok by (unfold u32_max; lia). cbn [bind].
        destruct (pos_surj (width inf) (height inf) k) as [? [? _]]; try lia.
        eapply safe_weaken; [apply Hsafe; lia|auto].
    + unfold blank, full_size. rewrite imul_ok by (unfold u32_max in *; ity_lia). cbn [bind].
      unfold imul. rewrite arith_debug_panic by (unfold u32_max in *; ity_lia). reflexivity.
Qed.

Lemma float_to_int_range {prec emax} t (x : binary_float prec emax) : lo t <= 0 <= hi t ->
  lo t <= float_to_int t x <= hi t.
Proof.
  intros H. unfold float_to_int. destruct x as [s|s| |s m e He]; try destruct s; try lia.
  all: cbv zeta; destruct (_ <? lo t) eqn:E1; try lia; destruct (hi t <? _) eqn:E2; lia.
Qed.
Lemma u32_range x : 0 <= f32_to_int U32 x <= 4294967295.
Proof. apply (float_to_int_range U32 x). cbn; lia. Qed.

Section SafeInterp.
  Context (p : profile) (lm : libm) (input : image f32).
  Context (HC1 : channels (info_of input) <= 255) (HC0 : 0 <= channels (info_of input)).
  Notation C := (channels (info_of input)).

  Lemma safe_nearest xf yf x y :
    safe (fun px => len px = C) (interpolate_nearest_neighbor p input xf yf x y).
  Proof.
    unfold interpolate_nearest_neighbor. eapply safe_bind; [apply safe_arith|]. intros a _.
    eapply safe_bind; [apply safe_arith|]. intros b _. apply safe_get_pixel; assumption.
  Qed.

  Lemma safe_bilinear xf yf x y : safe (fun px => len px = C) (interpolate_bilinear p input xf yf x y).
  Proof.
    unfold interpolate_bilinear. eapply safe_bind; [apply safe_arith|]. intros a _.
    eapply safe_bind; [apply safe_arith|]. intros b _.
    do 4 (eapply safe_bind; [apply safe_get_pixel; assumption|]; intros ? ?).
    eapply safe_weaken; [apply (safe_mmap (fun _ => True))|].
    - intros c _. do 4 (eapply safe_bind; [apply safe_vget|]; intros ? ?). exact I.
    - cbv beta. intros l [Hl _]. unfold len. rewrite Hl, zrange_length. lia.
  Qed.

  Lemma safe_clamp x a b : safe (fun _ => True) (f32_clamp x a b).
  Proof. unfold f32_clamp. destruct (f32_leb a b); exact I. Qed.

  Lemma safe_resample rng x y w : safe (fun px => len px = C) (resample p input rng x y w).
  Proof.
    unfold resample. apply (safe_mfold (fun px => len px = C)).
    - rewrite len_repeat. lia.
    - intros s m Hs _. eapply safe_bind; [apply safe_clamp|]. intros xc _.
      apply (safe_mfold (fun px => len px = C)); [exact Hs|]. intros s1 n Hs1 _.
      eapply safe_bind; [apply safe_clamp|]. intros yc _.
      eapply safe_bind; [apply safe_get_pixel_unchecked; assumption|]. intros px _.
      apply (safe_mfold (fun px => len px = C)); [exact Hs1|]. intros s2 c Hs2 _.
      eapply safe_bind; [apply safe_vget|]. intros v _.
      eapply safe_bind; [apply safe_vget|]. intros o _.
      eapply safe_weaken; [apply safe_vset|]. cbv beta. unfold len in *. intros; lia.
  Qed.

  Lemma safe_lanczos xf yf sz x y : safe (fun px => len px = C) (interpolate_lanczos p lm input xf yf sz x y).
  Proof.
    unfold interpolate_lanczos. eapply safe_bind; [apply safe_arith|]. intros a _.
    eapply safe_bind; [apply safe_arith|]. intros b _. apply safe_resample.
  Qed.

  Lemma safe_interp m xf yf x y : safe (fun px => len px = C) (scale_interp p lm m input xf yf x y).
  Proof.
    destruct m; cbn [scale_interp].
    - apply safe_nearest.
    - apply safe_bilinear.
    - apply safe_resample.
    - apply safe_lanczos.
  Qed.
End SafeInterp.
