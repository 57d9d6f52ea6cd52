(** * C14-C21: src/transform.rs (float scaling, rotation and shear: TransformF.v). *)
From Verif.Proofs Require Import BaseL ImageL ImageOps ImageProps Safe TransformL.
Open Scope Z_scope.

Definition ex_gray : image Z := Image (Info 4 3 1 false) [1;2;3;4; 5;6;7;8; 9;10;11;12].
Example ex_gray_wf : wf ex_gray. Proof. apply wfb_wf. reflexivity. Qed.

(** ** C14 *)
Theorem C14_crop p {T} (N : number T) (img : image T) x y w h :
  wf img -> 0 <= x -> 0 <= y -> 0 <= w -> 0 <= h -> x + w <= u32_max -> y + h <= u32_max ->
  (x + w < width (info_of img) /\ y + h < height (info_of img) ->
     exists out, crop_seq p N img x y w h = Ret out /\ wf out
       /\ info_of out = Info w h (channels (info_of img)) (alpha (info_of img))
       /\ forall i j, 0 <= i < w -> 0 <= j < h ->
            get_pixel p out i j = get_pixel p img (x + i) (y + j))
  /\ (~ (x + w < width (info_of img) /\ y + h < height (info_of img)) ->
     crop_seq p N img x y w h = Fail InvalidArgError).
Proof.
  intros Hwf Hx Hy Hw Hh Hfx Hfy. split.
  - intros [Hxw Hyh].
    destruct (crop_seq_ok p N img x y w h Hwf Hx Hy Hw Hh Hxw Hyh) as [out [E [Hwo [Hi Hp]]]].
    exists out. conj; auto. intros i j Hii Hjj.
    assert (Hin : inside out i j) by (unfold inside; rewrite Hi; cbn; lia).
    rewrite !get_pixel_ok; auto; [|split; lia]. rewrite Hp by exact Hin. reflexivity.
  - intros Hn. unfold crop_seq. rewrite crop_check_cases by lia.
    replace ((x + w <? width (info_of img)) && (y + h <? height (info_of img))) with false by lia. reflexivity.
Qed.

(** the rayon build does the same, for every schedule *)
Theorem C14_crop_rayon p {T} (N : number T) sched (img : image T) x y w h :
  wf img -> 0 <= x -> 0 <= y -> 0 <= w -> 0 <= h -> x + w <= u32_max -> y + h <= u32_max ->
  Permutation sched (zrange 0 (w * h)) ->
  (x + w < width (info_of img) /\ y + h < height (info_of img) ->
     exists out, crop_par p sched img x y w h = Ret out /\ wf out
       /\ info_of out = Info w h (channels (info_of img)) (alpha (info_of img))
       /\ forall i j, 0 <= i < w -> 0 <= j < h ->
            get_pixel p out i j = get_pixel p img (x + i) (y + j))
  /\ (~ (x + w < width (info_of img) /\ y + h < height (info_of img)) ->
     crop_par p sched img x y w h = Fail InvalidArgError).
Proof.
  intros Hwf Hx Hy Hw Hh Hfx Hfy Hperm. rewrite (crop_par_eq p N) by auto. apply C14_crop; assumption.
Qed.

Example C14_example : wf ex_gray /\ 1 + 2 < width (info_of ex_gray) /\ 0 + 2 < height (info_of ex_gray)
  /\ exists out, crop_seq Debug num_u8 ex_gray 1 0 2 2 = Ret out /\ data out = [2;3;6;7].
Proof. conj; try apply ex_gray_wf; cbn; try lia. eexists. split; reflexivity. Qed.
Example C14_rayon_example : Permutation [3;0;2;1] (zrange 0 (2 * 2))
  /\ crop_par Debug [3;0;2;1] ex_gray 1 0 2 2 = Ret (Image (Info 2 2 1 false) [2;3;6;7]).
Proof.
  split; [|reflexivity]. change (zrange 0 (2 * 2)) with [0;1;2;3].
  apply (NoDup_Permutation_bis).
  - repeat constructor; cbn; intuition lia.
  - cbn. lia.
  - intros a Ha. cbn in *. intuition lia.
Qed.

(** ** C15: refuted: every rectangle that reaches the right or the bottom edge is rejected,
    in particular the whole image *)
Theorem C15_crop_rejects_edges p {T} (N : number T) (img : image T) x y w h :
  wf img -> 0 <= x -> 0 <= y -> 0 <= w -> 0 <= h ->
  x + w <= width (info_of img) -> y + h <= height (info_of img) ->
  x + w = width (info_of img) \/ y + h = height (info_of img) ->
  crop_seq p N img x y w h = Fail InvalidArgError.
Proof.
  intros Hwf Hx Hy Hw Hh Hxw Hyh He. pose proof Hwf as [? ? ? ? ? ?].
  apply C14_crop; auto; lia.
Qed.
Theorem C15_crop_all_inside_refuted p {T} (N : number T) (img : image T) : wf img ->
  crop_seq p N img 0 0 (width (info_of img)) (height (info_of img)) = Fail InvalidArgError.
Proof.
  intros Hwf. pose proof Hwf as [? ? ? ? ? ?]. apply C15_crop_rejects_edges; auto; lia.
Qed.
Example C15_example : wf ex_gray
  /\ crop_seq Debug num_u8 ex_gray 2 0 2 1 = Fail InvalidArgError /\ 2 + 2 = width (info_of ex_gray).
Proof. conj; try apply ex_gray_wf; reflexivity. Qed.

(** ** C16 *)
Theorem C16_crop_overflow_debug {T} (N : number T) (img : image T) x y w h :
  wf img -> 0 <= x <= u32_max -> 0 <= y <= u32_max -> 0 <= w <= u32_max -> 0 <= h <= u32_max ->
  x + w > u32_max \/ y + h > u32_max ->
  crop_seq Debug N img x y w h = Panic
  \/ (crop_seq Debug N img x y w h = Fail InvalidArgError /\ width (info_of img) <= x + w).
Proof.
  intros Hwf Hx Hy Hw Hh Ho. unfold crop_seq, crop_check, u32_max in *.
  destruct (Z_le_gt_dec (x + w) 4294967295) as [Hle|Hgt].
  - rewrite iadd_ok by ity_lia. cbn [bind].
    destruct (width (info_of img) <=? x + w) eqn:E; [right; cbn; split; [reflexivity|lia]|].
    left. unfold iadd. rewrite arith_debug_panic by ity_lia. reflexivity.
  - left. unfold iadd. rewrite arith_debug_panic by ity_lia. reflexivity.
Qed.

Lemma wrap_u32 a : 4294967295 < a <= 2 * 4294967295 -> iadd Release U32 a 0 = Ret (a - 4294967296).
Proof.
  intros H. unfold iadd. destruct (arith_cases Release U32 (a + 0)) as [[? ->]|[_ ->]]; [ity_lia|].
  f_equal. unfold cast. cbn [lo hi U32].
  replace (a + 0 - 0) with ((a - 4294967296) + 1 * (4294967295 - 0 + 1)) by lia.
  rewrite Z.mod_add by lia. rewrite Z.mod_small by lia. lia.
Qed.

Lemma safe_blank p {T} (N : number T) i : safe (fun im => info_of im = i) (blank p N i).
Proof.
  unfold blank, full_size. apply (safe_bind (fun _ => True)).
  - eapply safe_bind; [apply safe_arith|]. intros a _. eapply safe_weaken; [apply safe_arith|auto].
  - intros fs _. reflexivity.
Qed.

Theorem C16_crop_overflow_release {T} (N : number T) (img : image T) x y w h :
  wf img -> 0 <= x <= u32_max -> 0 <= y <= u32_max -> 0 <= w <= u32_max -> 0 <= h <= u32_max ->
  x + w > u32_max \/ y + h > u32_max ->
  crop_seq Release N img x y w h = Panic
  \/ crop_seq Release N img x y w h = Fail InvalidArgError
  \/ (exists out, crop_seq Release N img x y w h = Ret out /\ w * h = 0).
Proof.
  intros Hwf Hx Hy Hw Hh Ho. pose proof Hwf as [? ? HC ? ? ?].
  assert (Hchk : crop_check Release img x y w h = Ret tt \/ crop_check Release img x y w h = Fail InvalidArgError).
  { unfold crop_check. assert (forall a b, exists r, iadd Release U32 a b = Ret r) as Ha.
    { intros a b. unfold iadd. destruct (arith_cases Release U32 (a + b)) as [[_ ->]|[_ ->]]; eauto. }
    destruct (Ha x w) as [r ->]. cbn [bind]. destruct (_ <=? r); [right; reflexivity|].
    destruct (Ha y h) as [r' ->]. cbn [bind]. destruct (_ <=? r'); auto. }
  unfold crop_seq. destruct Hchk as [->| ->]; [|right; left; reflexivity]. cbn [bind].
  pose proof (safe_blank Release N (Info w h (channels (info_of img)) (alpha (info_of img)))) as Hb.
  destruct (blank Release N _) as [b| | |]; cbn in Hb; try contradiction; [|left; reflexivity]. cbn [bind].
  set (body := fun out j => mfold (fun (out : image T) i =>
        let! ix := iadd Release U32 i x in let! jy := iadd Release U32 j y in
        let! px := get_pixel Release img ix jy in set_pixel Release out i j px) (zrange 0 w) out).
  assert (Hcell : forall (out : image T) i j, safe (fun _ => True) (let! ix := iadd Release U32 i x in let! jy := iadd Release U32 j y in
        let! px := get_pixel Release img ix jy in set_pixel Release out i j px)).
  { intros out i j. eapply safe_bind; [apply safe_arith|]. intros ix _. eapply safe_bind; [apply safe_arith|]. intros jy _.
    eapply safe_bind; [apply safe_get_pixel; lia|]. intros px _. eapply safe_weaken; [apply safe_set_pixel|auto]. }
  assert (Hrow : forall out j, safe (fun _ => True) (body out j)).
  { intros out j. unfold body. apply safe_mfold; auto. }
  destruct (Z.eq_dec (w * h) 0) as [Hz|Hnz].
  { assert (safe (fun _ => True) (mfold body (zrange 0 h) b)) as Hs by (apply safe_mfold; auto).
    fold body. destruct (mfold body (zrange 0 h) b); cbn in Hs; try contradiction; eauto. }
  left. assert (0 < w /\ 0 < h) as [Hw0 Hh0] by nia.
  (* the bad cell *)
  set (i0 := if width (info_of img) <=? x then 0 else width (info_of img) - x).
  set (j0 := if height (info_of img) <=? y then 0 else height (info_of img) - y).
  assert (Hbadx : x + w > u32_max -> 0 <= i0 < w /\ width (info_of img) <= i0 + x <= u32_max).
  { unfold i0, u32_max in *. destruct (Z.leb_spec (width (info_of img)) x); intros; lia. }
  assert (Hbady : y + h > u32_max -> 0 <= j0 < h /\ height (info_of img) <= j0 + y <= u32_max).
  { unfold j0, u32_max in *. destruct (Z.leb_spec (height (info_of img)) y); intros; lia. }
  assert (Hcases : forall A (m : outcome A), safe (fun _ => True) m -> (exists a, m = Ret a /\ True) \/ m = Panic).
  { intros A m Hm. destruct m; cbn in Hm; try contradiction; eauto. }
  assert (Hgp : forall ix jy, 0 <= ix -> 0 <= jy -> width (info_of img) <= ix \/ height (info_of img) <= jy ->
     get_pixel Release img ix jy = Panic).
  { intros ix jy Hix Hjy Hor. apply get_pixel_panic; auto. unfold inside. lia. }
  assert (Hadd : forall a b, exists r, iadd Release U32 a b = Ret r /\ 0 <= r).
  { intros a c. unfold iadd. destruct (arith_cases Release U32 (a + c)) as [[Hr ->]|[_ ->]].
    - eexists. split; [reflexivity|]. cbn in Hr. lia.
    - eexists. split; [reflexivity|]. pose proof (cast_range U32 (a + c)) as Hc. cbn in Hc. lia. }
  unfold u32_max in *.
  destruct Ho as [Ho|Ho].
  - destruct (Hbadx Ho) as [Hi0 Hix].
    apply (mfold_panic (fun _ => True) body _ _ 0); auto.
    + apply in_zrange. lia.
    + intros s _. unfold body. apply (mfold_panic (fun _ => True) _ _ _ i0); auto.
      * apply in_zrange. lia.
      * intros s' _. rewrite iadd_ok by ity_lia. cbn [bind]. destruct (Hadd 0 y) as [r [-> Hr]]. cbn [bind].
        rewrite Hgp by lia. reflexivity.
  - destruct (Hbady Ho) as [Hj0 Hjy].
    apply (mfold_panic (fun _ => True) body _ _ j0); auto.
    + apply in_zrange. lia.
    + intros s _. unfold body. apply (mfold_panic (fun _ => True) _ _ _ 0); auto.
      * apply in_zrange. lia.
      * intros s' _. destruct (Hadd 0 x) as [r [-> Hr]]. cbn [bind]. rewrite iadd_ok by ity_lia. cbn [bind].
        rewrite Hgp by lia. reflexivity.
Qed.

(** the rayon build is worse: it can return Ok with an image of 2^31 x 2 claimed pixels and no data *)
Theorem C16_crop_rayon_overflow_bogus :
  crop_par Release [] ex_gray 2147483648 0 2147483648 2
  = Ret (Image (Info 2147483648 2 1 false) [])
  /\ Permutation [] (zrange 0 (cast U32 (2147483648 * 2))).
Proof. split; [reflexivity|]. change (zrange 0 (cast U32 (2147483648 * 2))) with (@nil Z). constructor. Qed.

Example C16_example : wf ex_gray /\ 4294967295 + 3 > u32_max
  /\ crop_seq Debug num_u8 ex_gray 4294967295 0 3 1 = Panic
  /\ crop_seq Release num_u8 ex_gray 4294967295 0 3 1 = Panic
  /\ crop_seq Release num_u8 ex_gray 4294967295 0 3 0 = Ret (Image (Info 3 0 1 false) []).
Proof. conj; try apply ex_gray_wf; unfold u32_max; try lia; reflexivity. Qed.

(** ** C17 (crop and scaling; the filters are in FilterP.v) *)
Theorem C17_crop_seq_par p {T} (N : number T) sched (img : image T) x y w h :
  wf img -> 0 <= x -> 0 <= y -> 0 <= w -> 0 <= h ->
  p = Debug \/ (x + w <= u32_max /\ y + h <= u32_max) ->
  Permutation sched (zrange 0 (w * h)) ->
  crop_par p sched img x y w h = crop_seq p N img x y w h.
Proof. apply crop_par_eq. Qed.

(** the output size fits in 32 bits *)
Definition fits (i : info) : Prop :=
  width i * height i <= u32_max /\ width i * height i * channels i <= u32_max.

Theorem C17_scale_seq_par p lm sched (img : image f32) xf yf m :
  wf img -> p = Debug \/ fits (scale_info img xf yf) ->
  Permutation sched (zrange 0 (width (scale_info img xf yf) * height (scale_info img xf yf))) ->
  scale_par p lm sched img xf yf m = scale_seq p lm img xf yf m.
Proof.
  intros Hwf Hno Hperm. unfold scale_par, scale_seq. apply bind_ext. intros _ _. apply bind_ext. intros _ _.
  pose proof (wf_c _ Hwf).
  apply scale_loop_eq; auto; cbn [width height channels scale_info]; unfold u32_max; try apply u32_range; try lia.
  intros x y _ _. apply safe_interp; lia.
Qed.

Theorem C17_scale_lanczos_seq_par p lm sched (img : image f32) xf yf sz :
  wf img -> p = Debug \/ fits (scale_info img xf yf) ->
  Permutation sched (zrange 0 (width (scale_info img xf yf) * height (scale_info img xf yf))) ->
  scale_lanczos_par p lm sched img xf yf sz = scale_lanczos_seq p lm img xf yf sz.
Proof.
  intros Hwf Hno Hperm. unfold scale_lanczos_par, scale_lanczos_seq.
  apply bind_ext. intros _ _. apply bind_ext. intros _ _. apply bind_ext. intros _ _.
  pose proof (wf_c _ Hwf).
  apply scale_loop_eq; auto; cbn [width height channels scale_info]; unfold u32_max; try apply u32_range; try lia.
  intros x y _ _. apply safe_lanczos; lia.
Qed.

(** without the size condition the two builds differ in release: an output that does not fit *)
Definition ex_f : image f32 := Image (Info 2 1 1 false) [f32_of_Z 0; f32_of_Z 100].
Example ex_f_wf : wf ex_f. Proof. apply wfb_wf. reflexivity. Qed.
Example C17_scale_example :
  wf ex_f /\ fits (scale_info ex_f (f32_of_Z 2) (f32_of_Z 1))
  /\ width (scale_info ex_f (f32_of_Z 2) (f32_of_Z 1)) = 4 /\ height (scale_info ex_f (f32_of_Z 2) (f32_of_Z 1)) = 1.
Proof. conj; try apply ex_f_wf; unfold fits; vm_compute; try split; congruence. Qed.

(** ** C18 *)
Theorem C18_overlay p {T} (back front : image T) x y :
  wf back -> wf front -> 0 <= x -> 0 <= y ->
  x + width (info_of front) <= u32_max -> y + height (info_of front) <= u32_max ->
  channels (info_of back) = channels (info_of front) ->
  exists out, overlay p back front x y = Ret out /\ wf out /\ info_of out = info_of back
    /\ forall i j, inside back i j -> pixel_at out i j
       = if (x <=? i) && (i <? x + width (info_of front)) && (y <=? j) && (j <? y + height (info_of front))
         then pixel_at front (i - x) (j - y) else pixel_at back i j.
Proof.
  intros Hb Hf Hx Hy Hox Hoy HC. unfold overlay, check_equal_Z. rewrite HC, Z.eqb_refl. cbn [bind].
  pose proof Hb as [? ? ? ? ? ?]. pose proof Hf as [? ? ? ? ? ?]. unfold u32_max in *. ari.
  set (w := Z.min (x + width (info_of front)) (width (info_of back))).
  set (h := Z.min (y + height (info_of front)) (height (info_of back))).
  destruct (copy_rect p front back x w y h (fun i _ => i - x) (fun _ j => j - y)
    (fun im i j => let! ix := isub p U32 i x in let! jy := isub p U32 j y in
        let! px := get_pixel p front ix jy in set_pixel p im i j px)) as [out [E [Hwo [Hi Hp]]]]; auto.
  - intros im i j Hi Hj. unfold w, h in *. ari. reflexivity.
  - intros i j Hi Hj. unfold inside, w, h in *. lia.
  - exists out. conj; auto. intros i j Hin. rewrite Hp by exact Hin. unfold inside in Hin.
    replace ((x <=? i) && (i <? w) && (y <=? j) && (j <? h))
      with ((x <=? i) && (i <? x + width (info_of front)) && (y <=? j) && (j <? y + height (info_of front)))
      by (unfold w, h; lia). reflexivity.
Qed.
Theorem C18_overlay_channels p {T} (back front : image T) x y :
  channels (info_of back) <> channels (info_of front) -> overlay p back front x y = Fail InvalidArgError.
Proof. intros H. unfold overlay, check_equal_Z. replace (_ =? _) with false by lia. reflexivity. Qed.
(** the corner computation can overflow: panic in debug *)
Theorem C18_overlay_overflow {T} (back front : image T) x y :
  channels (info_of back) = channels (info_of front) -> x + width (info_of front) > u32_max ->
  overlay Debug back front x y = Panic.
Proof.
  intros HC H. unfold overlay, check_equal_Z, u32_max in *. rewrite HC, Z.eqb_refl. cbn [bind].
  unfold iadd at 1. rewrite arith_debug_panic by ity_lia. reflexivity.
Qed.
Example C18_example : exists out,
  overlay Debug ex_gray (Image (Info 2 2 1 false) [91;92;93;94]) 3 1 = Ret out
  /\ data out = [1;2;3;4; 5;6;7;91; 9;10;11;93].
Proof. eexists. split; reflexivity. Qed.

(** ** C19: refuted: no call ever succeeds *)
Theorem C19_superimpose_always_fails p (back front : image f32) x y al :
  superimpose p back front x y al = Fail InvalidArgError.
Proof.
  unfold superimpose, check_equal_Z. destruct (_ =? _); [|reflexivity]. cbn [bind].
  unfold check_in_range. cbn [n_ltb num_f32].
  replace (f32_ltb f32_0 f32_1) with true by (vm_compute; reflexivity). reflexivity.
Qed.
Example C19_example : wf ex_f /\ superimpose Debug ex_f ex_f 0 0 (f32_dec 5 1) = Fail InvalidArgError.
Proof. split; [apply ex_f_wf|apply C19_superimpose_always_fails]. Qed.

(** ** C20 *)
Theorem C20_translate p {T} (N : number T) (img : image T) x y :
  wf img -> 0 <= x -> 0 <= y ->
  exists out, translate p N img x y = Ret out /\ wf out /\ info_of out = info_of img
    /\ forall i j, inside img i j -> pixel_at out i j
       = if (x <=? i) && (y <=? j) then pixel_at img (i - x) (j - y)
         else repeat (n_zero N) (Z.to_nat (channels (info_of img))).
Proof.
  intros Hwf Hx Hy. pose proof Hwf as [? ? ? ? ? ?]. unfold translate.
  assert (Hok : info_ok (info_of img)) by (apply wf_info_ok; exact Hwf).
  rewrite blank_ok by exact Hok. cbn [bind].
  set (b := Image (info_of img) (repeat (n_zero N)
     (Z.to_nat (width (info_of img) * height (info_of img) * channels (info_of img))))).
  assert (Hwb : wf b) by (apply (blank_wf N _ Hok)).
  destruct (copy_rect p img b x (width (info_of img)) y (height (info_of img)) (fun i _ => i - x) (fun _ j => j - y)
    (fun im i j => let! ix := isub p U32 i x in let! jy := isub p U32 j y in
        let! px := get_pixel p img ix jy in set_pixel p im i j px)) as [out [E [Hwo [Hi Hp]]]]; auto.
  - intros im i j Hi Hj. unfold u32_max in *. ari. reflexivity.
  - intros i j Hi Hj. unfold inside; cbn; lia.
  - exists out. conj; auto. intros i j Hin. rewrite Hp by exact Hin. pose proof Hin as [Hi1 Hj1].
    replace ((x <=? i) && (i <? width (info_of img)) && (y <=? j) && (j <? height (info_of img)))
      with ((x <=? i) && (y <=? j)) by lia.
    unfold b. rewrite pixel_at_blank by assumption. reflexivity.
Qed.
Corollary C20_translate_far p {T} (N : number T) (img : image T) x y :
  wf img -> 0 <= x -> 0 <= y -> width (info_of img) <= x \/ height (info_of img) <= y ->
  translate p N img x y = blank p N (info_of img).
Proof.
  intros Hwf Hx Hy Hf. destruct (C20_translate p N img x y Hwf Hx Hy) as [out [E [Hw [Hi Hp]]]].
  assert (Hok : info_ok (info_of img)) by (apply wf_info_ok; exact Hwf).
  rewrite E, blank_ok by exact Hok. f_equal. apply image_ext; auto; [apply (blank_wf N _ Hok)|].
  intros i j Hin. assert (Hin' : inside img i j) by (unfold inside in *; rewrite Hi in Hin; exact Hin).
  rewrite Hp by exact Hin'. destruct Hin' as [? ?].
  replace ((x <=? i) && (y <=? j)) with false by lia. rewrite pixel_at_blank by assumption. reflexivity.
Qed.
Corollary C20_translate_zero p {T} (N : number T) (img : image T) : wf img -> translate p N img 0 0 = Ret img.
Proof.
  intros Hwf. destruct (C20_translate p N img 0 0 Hwf) as [out [E [Hw [Hi Hp]]]]; try lia.
  rewrite E. f_equal. apply image_ext; auto. intros i j Hin.
  assert (Hin' : inside img i j) by (unfold inside in *; rewrite Hi in Hin; exact Hin).
  rewrite Hp by exact Hin'. destruct Hin' as [? ?].
  replace ((0 <=? i) && (0 <=? j)) with true by lia. f_equal; lia.
Qed.
Example C20_example : exists out, translate Debug num_u8 ex_gray 1 2 = Ret out
  /\ data out = [0;0;0;0; 0;0;0;0; 0;1;2;3].
Proof. eexists. split; reflexivity. Qed.

(** ** C21 *)
Theorem C21_reflect p {T} (N : number T) (img : image T) axis : wf img ->
  exists out, reflect_image p N img axis = Ret out /\ wf out /\ info_of out = info_of img
    /\ forall x y, inside img x y -> pixel_at out x y
       = match axis with
         | Vertical => pixel_at img (width (info_of img) - 1 - x) y
         | Horizontal => pixel_at img x (height (info_of img) - 1 - y)
         end.
Proof.
  intros Hwf. pose proof Hwf as [? ? ? ? ? ?]. unfold reflect_image.
  assert (Hok : info_ok (info_of img)) by (apply wf_info_ok; exact Hwf).
  rewrite blank_ok by exact Hok. cbn [bind].
  set (b := Image (info_of img) (repeat (n_zero N)
     (Z.to_nat (width (info_of img) * height (info_of img) * channels (info_of img))))).
  assert (Hwb : wf b) by (apply (blank_wf N _ Hok)).
  destruct axis.
  - destruct (copy_rect p img b 0 (width (info_of img)) 0 (height (info_of img))
      (fun i _ => width (info_of img) - i - 1) (fun _ j => j)
      (fun im i j => let! a := isub p U32 (width (info_of img)) i in let! b := isub p U32 a 1 in
        let! px := get_pixel p img b j in set_pixel p im i j px)) as [out [E [Hwo [Hi Hp]]]]; auto.
    + intros im i j Hi Hj. unfold u32_max in *. ari. reflexivity.
    + intros i j Hi Hj. unfold inside; cbn; lia.
    + exists out. conj; auto. intros i j Hin. rewrite Hp by exact Hin. destruct Hin.
      replace (_ && _) with true by lia. f_equal; lia.
  - destruct (copy_rect p img b 0 (width (info_of img)) 0 (height (info_of img))
      (fun i _ => i) (fun _ j => height (info_of img) - j - 1)
      (fun im i j => let! a := isub p U32 (height (info_of img)) j in let! b := isub p U32 a 1 in
        let! px := get_pixel p img i b in set_pixel p im i j px)) as [out [E [Hwo [Hi Hp]]]]; auto.
    + intros im i j Hi Hj. unfold u32_max in *. ari. reflexivity.
    + intros i j Hi Hj. unfold inside; cbn; lia.
    + exists out. conj; auto. intros i j Hin. rewrite Hp by exact Hin. destruct Hin.
      replace (_ && _) with true by lia. f_equal; lia.
Qed.

Theorem C21_involution p {T} (N : number T) (img : image T) axis : wf img ->
  (let! a := reflect_image p N img axis in reflect_image p N a axis) = Ret img.
Proof.
  intros Hwf. destruct (C21_reflect p N img axis Hwf) as [o1 [E1 [Hw1 [Hi1 Hp1]]]]. rewrite E1. cbn [bind].
  destruct (C21_reflect p N o1 axis Hw1) as [o2 [E2 [Hw2 [Hi2 Hp2]]]]. rewrite E2. f_equal.
  apply image_ext; auto; [congruence|]. intros x y [Hx Hy]. rewrite Hi2 in Hx, Hy.
  rewrite Hp2 by (split; assumption). rewrite Hi1 in *. destruct axis.
  - rewrite Hp1 by (split; lia). f_equal; lia.
  - rewrite Hp1 by (split; lia). f_equal; lia.
Qed.

Theorem C21_commute p {T} (N : number T) (img : image T) : wf img ->
  (let! a := reflect_image p N img Vertical in reflect_image p N a Horizontal)
  = (let! a := reflect_image p N img Horizontal in reflect_image p N a Vertical).
Proof.
  intros Hwf. destruct (C21_reflect p N img Vertical Hwf) as [o1 [E1 [Hw1 [Hi1 Hp1]]]]. rewrite E1. cbn [bind].
  destruct (C21_reflect p N img Horizontal Hwf) as [o3 [E3 [Hw3 [Hi3 Hp3]]]]. rewrite E3. cbn [bind].
  destruct (C21_reflect p N o1 Horizontal Hw1) as [o2 [E2 [Hw2 [Hi2 Hp2]]]]. rewrite E2.
  destruct (C21_reflect p N o3 Vertical Hw3) as [o4 [E4 [Hw4 [Hi4 Hp4]]]]. rewrite E4. f_equal.
  apply image_ext; auto; [congruence|]. intros x y [Hx Hy].
  rewrite Hi2, Hi1 in Hx. rewrite Hi2, Hi1 in Hy.
  rewrite Hp2 by (unfold inside; rewrite Hi1; lia). rewrite Hp4 by (unfold inside; rewrite Hi3; lia).
  rewrite Hi1, Hi3. rewrite Hp1, Hp3 by (unfold inside; lia). reflexivity.
Qed.
Example C21_example : wf ex_gray /\
  match reflect_image Debug num_u8 ex_gray Vertical with Ret out => data out | _ => [] end
  = [4;3;2;1; 8;7;6;5; 12;11;10;9].
Proof. split; [apply ex_gray_wf|]. vm_compute. reflexivity. Qed.
