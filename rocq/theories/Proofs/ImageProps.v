(** Proofs for the properties of src/image. *)
From Verif.Spec Require Export ImageOpsS.
From Verif.Model Require Export Util.
From Verif.Proofs Require Export ImageOps.
Open Scope Z_scope.

(** ** get_2d_coords *)
Lemma get_2d_coords_ok p k w : 0 < w -> 0 <= k <= u32_max -> get_2d_coords p k w = Ret (k mod w, k / w).
Proof.
  intros Hw Hk. unfold get_2d_coords, u32_max in *.
  rewrite irem_ok by ity_lia. cbn [bind].
  pose proof (Z.mod_pos_bound k w Hw). pose proof (Z.div_mod k w).
  assert (0 <= k / w) by (apply Z.div_pos; lia).
  assert (k mod w <= k) by (apply Z.mod_le; lia).
  ari. rewrite idiv_ok by ity_lia. cbn [bind]. do 2 f_equal.
  replace (k - k mod w) with (k / w * w) by lia. apply Z.div_mul. lia.
Qed.

(** ** iteration *)
Section Iter.
  Context (p : profile) {T : Type} (img : image T) (Hwf : wf img).
  Notation W := (width (info_of img)).
  Notation Ht := (height (info_of img)).
  Context (HW : 0 < W) (HH : 0 < Ht).

  (** the state after k successful calls *)
  Definition iter_at (k : Z) : pixel_iter :=
    if k =? 0 then PixelIter 0 0 (W - 1) (Ht - 1)
    else PixelIter ((k - 1) mod W + 1) ((k - 1) / W) (W - 1) (Ht - 1).

  Lemma iter_new_ok : iter_new p img = Ret (iter_at 0).
  Proof.
    pose proof (wf_w _ Hwf). pose proof (wf_h _ Hwf). unfold u32_max in *.
    unfold iter_new. ari. reflexivity.
  Qed.

  Lemma iter_next_in k : 0 <= k < W * Ht ->
    iter_next p img (iter_at k)
    = Ret (Some (k mod W, k / W, pixel_at img (k mod W) (k / W)), iter_at (k + 1)).
  Proof.
    intros Hk. pose proof Hwf as [? ? ? ? ? ?]. unfold u32_max in *.
    destruct (pos_surj W Ht k) as [Hm [Hd Hkk]]; try lia.
    assert (Hpx : get_pixel p img (k mod W) (k / W) = Ret (pixel_at img (k mod W) (k / W)))
      by (apply get_pixel_ok; [assumption|split; lia]).
    assert (Hnext : iter_at (k + 1) = PixelIter (k mod W + 1) (k / W) (W - 1) (Ht - 1)).
    { unfold iter_at. replace (k + 1 =? 0) with false by lia. replace (k + 1 - 1) with k by lia. reflexivity. }
    unfold iter_at at 1. destruct (Z.eqb_spec k 0) as [->|Hk0].
    - unfold iter_next. cbn [it_x it_y it_xmax it_ymax].
      replace (W - 1 <? 0) with false by lia.
      rewrite Z.mod_0_l, Z.div_0_l in * by lia. ari. rewrite Hpx. cbn [bind]. rewrite Hnext. reflexivity.
    - unfold iter_next. cbn [it_x it_y it_xmax it_ymax].
      pose proof (Z.div_mod (k - 1) W) as Hdm. pose proof (Z.mod_pos_bound (k - 1) W HW) as Hb.
      assert (0 <= (k - 1) / W) by (apply Z.div_pos; lia).
      destruct (W - 1 <? (k - 1) mod W + 1) eqn:E.
      + assert (Hr : (k - 1) mod W = W - 1) by lia.
        assert (Hk' : k = ((k - 1) / W + 1) * W + 0) by nia.
        destruct (pos_div W 0 ((k - 1) / W + 1)) as [E1 E2]; [lia|].
        rewrite <- Hk' in E1, E2.
        replace (Ht - 1 <=? (k - 1) / W) with false by lia.
        ari. rewrite <- E2 at 1. rewrite <- E1 at 1. rewrite Hpx. cbn [bind].
        rewrite Hnext, E1, E2. reflexivity.
      + assert (Hk' : k = (k - 1) / W * W + ((k - 1) mod W + 1)) by nia.
        destruct (pos_div W ((k - 1) mod W + 1) ((k - 1) / W)) as [E1 E2]; [lia|].
        rewrite <- Hk' in E1, E2. rewrite <- E1, <- E2. ari.
        rewrite Hpx. cbn [bind]. rewrite Hnext. reflexivity.
  Qed.

  Lemma iter_next_end : iter_next p img (iter_at (W * Ht)) = Ret (None, iter_at (W * Ht)).
  Proof.
    unfold iter_at. replace (W * Ht =? 0) with false by nia.
    replace (W * Ht - 1) with ((Ht - 1) * W + (W - 1)) by lia.
    destruct (pos_div W (W - 1) (Ht - 1)) as [-> ->]; [lia|].
    unfold iter_next. cbn [it_x it_y it_xmax it_ymax].
    replace (W - 1 <? W - 1 + 1) with true by lia. rewrite Z.leb_refl. reflexivity.
  Qed.

  Lemma call_next_from n k : 0 <= k <= W * Ht ->
    call_next p img (iter_at k) n
    = Ret (map (fun j => kth_item img (Z.to_nat k + j)) (seq 0 n), iter_at (Z.min (W * Ht) (k + Z.of_nat n))).
  Proof.
    revert k. induction n as [|n IH]; intros k Hk.
    - cbn. do 3 f_equal. lia.
    - cbn [call_next seq map].
      assert (Hi0 : kth_item img (Z.to_nat k + 0)
              = if k <? W * Ht then Some (k mod W, k / W, pixel_at img (k mod W) (k / W)) else None).
      { unfold kth_item. replace (Z.of_nat (Z.to_nat k + 0)) with k by lia. reflexivity. }
      rewrite Hi0. rewrite <- seq_shift, map_map.
      destruct (Z.ltb_spec k (W * Ht)) as [Hlt|Hge].
      + rewrite iter_next_in by lia. cbn [bind]. rewrite IH by lia. cbn [bind].
        replace (k + 1 + Z.of_nat n) with (k + Z.of_nat (S n)) by lia.
        replace (map (fun j => kth_item img (Z.to_nat (k + 1) + j)) (seq 0 n))
          with (map (fun x => kth_item img (Z.to_nat k + S x)) (seq 0 n)); [reflexivity|].
        apply map_ext. intros j. f_equal. lia.
      + replace k with (W * Ht) by lia. rewrite iter_next_end. cbn [bind]. rewrite IH by lia. cbn [bind].
        replace (Z.min (W * Ht) (W * Ht + Z.of_nat n)) with (Z.min (W * Ht) (W * Ht + Z.of_nat (S n))) by lia.
        replace (map (fun j => kth_item img (Z.to_nat (W * Ht) + j)) (seq 0 n))
          with (map (fun x => kth_item img (Z.to_nat (W * Ht) + S x)) (seq 0 n)); [reflexivity|].
        apply map_ext. intros j. unfold kth_item.
        assert (Hn : forall n0 j', 0 <= n0 -> (Z.of_nat (Z.to_nat n0 + j') <? n0) = false).
        { clear. intros n0 j' Hn0. apply Z.ltb_ge. rewrite Nat2Z.inj_add, Z2Nat.id by exact Hn0.
          pose proof (Nat2Z.is_nonneg j'). lia. }
        assert (H0 : 0 <= W * Ht) by lia. rewrite !Hn by exact H0. reflexivity.
  Qed.

  Lemma iter_size_hint_at k : 0 <= k -> iter_size_hint p (iter_at k) = Ret (W * Ht, Some (W * Ht)).
  Proof.
    intros Hk. pose proof Hwf as [? ? ? ? ? ?]. unfold u32_max in *.
    assert (it_xmax (iter_at k) = W - 1 /\ it_ymax (iter_at k) = Ht - 1) as [Ex Ey]
      by (unfold iter_at; destruct (k =? 0); split; reflexivity).
    unfold iter_size_hint. rewrite Ex, Ey. ari. do 2 f_equal; [nia|]. f_equal. nia.
  Qed.
End Iter.

Lemma iter_empty_panics {T} (img : image T) : wf img ->
  width (info_of img) = 0 \/ height (info_of img) = 0 ->
  iter_new Debug img = Panic
  /\ forall it, iter_new Release img = Ret it -> iter_next Release img it = Panic.
Proof.
  intros Hwf Hz. pose proof Hwf as [? ? ? ? ? ?]. unfold u32_max in *. split.
  - unfold iter_new. unfold isub. destruct Hz as [E|E]; rewrite E.
    + rewrite arith_debug_panic by ity_lia. reflexivity.
    + destruct (arith Debug U32 (width (info_of img) - 1)) eqn:Ea; try reflexivity.
      * exfalso. clear - Ea. unfold arith in Ea. destruct (in_ity _ _) in Ea; discriminate.
      * unfold arith in Ea; destruct (in_ity _ _) in Ea; discriminate.
  - intros it Hit. unfold iter_new in Hit.
    apply bind_inv in Hit as [xm [Hxm Hit]]. apply bind_inv in Hit as [ym [Hym Hit]]. injection Hit as <-.
    assert (Hxm0 : 0 <= xm).
    { unfold isub in Hxm. destruct (arith_cases Release U32 (width (info_of img) - 1)) as [[Hr E]|[Hr E]];
        rewrite E in Hxm; injection Hxm as <-; [cbn in Hr; lia|].
      pose proof (cast_range U32 (width (info_of img) - 1)) as Hc. cbn in Hc. lia. }
    unfold iter_next. cbn [it_x it_y it_xmax it_ymax].
    replace (xm <? 0) with false by lia.
    change (iadd Release U32 0 1) with (@Ret Z 1). cbn [bind].
    rewrite get_pixel_panic; [reflexivity|lia|lia|]. unfold inside. lia.
Qed.

(** ** get_subimage *)
Lemma get_subimage_ok p {T} (img : image T) x y w h :
  wf img -> inside img x y -> 0 <= w -> 0 <= h ->
  x + w <= width (info_of img) -> y + h <= height (info_of img) ->
  get_subimage p img x y w h
  = Ret (SubImage (Info w h (channels (info_of img)) (alpha (info_of img)))
      (map (fun k => pixel_at img (x + k / h) (y + k mod h)) (zrange 0 (w * h)))).
Proof.
  intros Hwf [Hx Hy] Hw Hh Hxw Hyh. pose proof Hwf as [? ? ? ? ? ?]. unfold u32_max in *.
  unfold get_subimage, check_xy.
  replace (width (info_of img) <=? x) with false by lia.
  replace (height (info_of img) <=? y) with false by lia. cbn [bind].
  rewrite iadd_ok by ity_lia. cbn [bind].
  assert (Hinner : forall acc i, x <= i < x + w ->
    (let! ye := iadd p U32 y h in
     mfold (fun acc j => let! px := get_pixel p img i j in Ret (acc ++ [px])) (zrange y ye) acc)
    = Ret (acc ++ map (fun j => pixel_at img i j) (zrange y (y + h)))).
  { intros acc i Hi. rewrite iadd_ok by ity_lia. cbn [bind]. rewrite mfold_push.
    rewrite (mmap_Ret _ (fun j => pixel_at img i j)); [reflexivity|].
    intros j Hj. apply in_zrange in Hj. apply get_pixel_ok; [assumption|split; lia]. }
  destruct (mfold_zrange_inv
    (fun k acc => acc = map (fun n => pixel_at img (x + n / h) (y + n mod h)) (zrange 0 ((k - x) * h)))
    (fun acc i => let! ye := iadd p U32 y h in
       mfold (fun acc j => let! px := get_pixel p img i j in Ret (acc ++ [px])) (zrange y ye) acc)
    x (x + w) []) as [out [E Hout]].
  - lia.
  - replace ((x - x) * h) with 0 by lia. reflexivity.
  - intros k acc Hk ->. rewrite Hinner by lia. eexists. split; [reflexivity|].
    rewrite (zrange_app 0 ((k - x) * h) ((k + 1 - x) * h)) by nia. rewrite map_app. f_equal.
    rewrite (zrange_shift y (y + h)), (zrange_shift ((k - x) * h)). rewrite !map_map.
    replace (y + h - y) with h by lia. replace ((k + 1 - x) * h - (k - x) * h) with h by lia.
    apply map_ext_in. intros j Hj. apply in_zrange in Hj.
    destruct (pos_div h j (k - x)) as [-> ->]; [lia|]. f_equal; lia.
  - rewrite E. cbn [bind]. rewrite Hout. replace ((x + w - x) * h) with (w * h) by lia. reflexivity.
Qed.

Lemma sub_get_pixel_ok p {T} (inf : info) (l : list (list T)) i j d :
  width inf * height inf <= u32_max -> len l = width inf * height inf ->
  0 <= i < width inf -> 0 <= j < height inf ->
  sub_get_pixel p (SubImage inf l) i j = Ret (nth (Z.to_nat (j * width inf + i)) l d).
Proof.
  intros Hfit Hl Hi Hj. unfold sub_get_pixel, check_xy, u32_max in *. cbn [sub_info].
  replace (width inf <=? i) with false by lia. replace (height inf <=? j) with false by lia. cbn [bind].
  destruct (pos_bound (width inf) (height inf) 1 i j) as [? [? [? ?]]]; try lia.
  ari. unfold sub_index. cbn [sub_data]. apply vget_ok. lia.
Qed.

Lemma get_subimage_panics p {T} (img : image T) x y w h :
  wf img -> 0 <= x -> 0 <= y -> 0 < w -> 0 < h ->
  x + w <= u32_max -> y + h <= u32_max ->
  ~ (x + w <= width (info_of img) /\ y + h <= height (info_of img)) ->
  get_subimage p img x y w h = Panic.
Proof.
  intros Hwf Hx Hy Hw Hh Hfx Hfy Hn. pose proof Hwf as [? ? ? ? ? ?]. unfold u32_max in *.
  unfold get_subimage, check_xy.
  destruct (width (info_of img) <=? x) eqn:E1; [reflexivity|].
  destruct (height (info_of img) <=? y) eqn:E2; [reflexivity|]. cbn [bind].
  rewrite iadd_ok by ity_lia. cbn [bind].
  set (body := fun acc i => let! ye := iadd p U32 y h in
    mfold (fun acc j => let! px := get_pixel p img i j in Ret (acc ++ [px])) (zrange y ye) acc).
  assert (Hstep : forall acc i, x <= i -> (exists acc', body acc i = Ret acc' /\ True) \/ body acc i = Panic).
  { intros acc i Hi. unfold body. rewrite iadd_ok by ity_lia. cbn [bind]. rewrite mfold_push.
    destruct (Z_lt_le_dec i (width (info_of img))) as [Hiw|Hiw].
    - destruct (Z_le_gt_dec (y + h) (height (info_of img))) as [Hyh|Hyh].
      + left. rewrite (mmap_Ret _ (fun j => pixel_at img i j)); [cbn [bind]; eauto|].
        intros j Hj. apply in_zrange in Hj. apply get_pixel_ok; [assumption|split; lia].
      + right. rewrite (mmap_panic _ _ (height (info_of img))); [reflexivity| | |].
        * apply in_zrange. lia.
        * apply get_pixel_panic; try lia. unfold inside; lia.
        * intros j Hj. apply in_zrange in Hj.
          destruct (Z_lt_le_dec j (height (info_of img))).
          -- left. eexists. apply get_pixel_ok; [assumption|split; lia].
          -- right. apply get_pixel_panic; try lia. unfold inside; lia.
    - right. rewrite (mmap_panic _ _ y); [reflexivity| | |].
      + apply in_zrange; lia.
      + apply get_pixel_panic; try lia. unfold inside; lia.
      + intros j Hj. apply in_zrange in Hj. right. apply get_pixel_panic; try lia. unfold inside; lia. }
  assert (Hbad : forall acc i, x <= i ->
     ~ (i < width (info_of img) /\ y + h <= height (info_of img)) -> body acc i = Panic).
  { intros acc i Hi Hb. unfold body. rewrite iadd_ok by ity_lia. cbn [bind]. rewrite mfold_push.
    rewrite (mmap_panic _ _ (if width (info_of img) <=? i then y else height (info_of img)));
      [reflexivity| | |].
    - apply in_zrange. destruct (width (info_of img) <=? i) eqn:E; lia.
    - apply get_pixel_panic; unfold inside; destruct (width (info_of img) <=? i) eqn:E; lia.
    - intros j Hj. apply in_zrange in Hj.
      destruct (Z_lt_le_dec j (height (info_of img))); destruct (Z_lt_le_dec i (width (info_of img)));
        try (right; apply get_pixel_panic; unfold inside; lia).
      left. eexists. apply get_pixel_ok; [assumption|split; lia]. }
  fold body.
  erewrite (mfold_panic (fun _ => True) body _ _
     (if y + h <=? height (info_of img) then width (info_of img) else x)); auto.
  - apply in_zrange. destruct (y + h <=? height (info_of img)) eqn:E; lia.
  - intros s b _ Hb. apply in_zrange in Hb. destruct (Hstep s b) as [[s' [E _]]|E]; [lia|left; eauto|right; exact E].
  - intros s _. apply Hbad; destruct (y + h <=? height (info_of img)) eqn:E; lia.
Qed.

(** ** neighbourhoods *)
Definition nb_spec (c sz i bound : Z) : Z :=
  let cur := c - sz / 2 + i in if (cur <? 0) || (bound <=? cur) then c else cur.

Lemma nb_coord_ok p c sz i bound :
  0 <= c < bound -> bound <= 2 ^ 30 -> 0 <= i < sz -> sz <= 2 ^ 30 ->
  nb_coord p c sz i bound = Ret (nb_spec c sz i bound).
Proof.
  intros Hc Hb Hi Hs. unfold nb_coord.
  assert (H30 : 2 ^ 30 = 1073741824) by reflexivity. rewrite H30 in *.
  rewrite !cast_id by ity_lia. rewrite idiv_ok by ity_lia. cbn [bind].
  assert (0 <= sz / 2 <= sz) by (split; [apply Z.div_pos; lia|apply Z.div_le_upper_bound; lia]).
  ari. unfold nb_spec. cbv zeta.
  destruct ((c - sz / 2 + i <? 0) || (bound <=? c - sz / 2 + i)) eqn:E; rewrite cast_id by ity_lia; reflexivity.
Qed.

Lemma nb_spec_range c sz i bound : 0 <= c < bound -> 0 <= nb_spec c sz i bound < bound.
Proof. intros H. unfold nb_spec. cbv zeta. destruct ((_ <? 0) || _) eqn:E; lia. Qed.

Lemma nb_spec_small c sz i bound : 0 <= c < bound -> 0 <= i < sz -> sz <= 3 ->
  nb_spec c sz i bound = clamp_coord bound (c - sz / 2 + i).
Proof.
  intros Hc Hi Hs. unfold nb_spec, clamp_coord. cbv zeta.
  assert (sz = 1 \/ sz = 2 \/ sz = 3) as [->|[->| ->]] by lia.
  - change (1 / 2) with 0. destruct ((_ <? 0) || _) eqn:E; lia.
  - change (2 / 2) with 1. destruct ((_ <? 0) || _) eqn:E; lia.
  - change (3 / 2) with 1. destruct ((_ <? 0) || _) eqn:E; lia.
Qed.

Section Nb.
  Context (p : profile) {T : Type} (img : image T) (Hwf : wf img).
  Notation W := (width (info_of img)).
  Notation Ht := (height (info_of img)).
  Context (HW : W <= 2 ^ 30) (HH : Ht <= 2 ^ 30).

  Lemma nb_1d_ok x y sz (v : bool) : inside img x y -> 0 <= sz <= 2 ^ 30 ->
    get_neighborhood_1d p img x y sz v
    = Ret (SubImage (if v then Info 1 sz (channels (info_of img)) (alpha (info_of img))
                     else Info sz 1 (channels (info_of img)) (alpha (info_of img)))
        (map (fun i => if v then pixel_at img x (nb_spec y sz i Ht)
                       else pixel_at img (nb_spec x sz i W) y) (zrange 0 sz))).
  Proof.
    intros [Hx Hy] Hs. unfold get_neighborhood_1d, check_xy.
    replace (W <=? x) with false by lia. replace (Ht <=? y) with false by lia. cbn [bind].
    destruct v.
    - rewrite (mmap_Ret _ (fun i => pixel_at img x (nb_spec y sz i Ht))); [reflexivity|].
      intros i Hi. apply in_zrange in Hi. rewrite nb_coord_ok by lia. cbn [bind].
      apply get_pixel_ok; [assumption|]. split; [lia|]. apply nb_spec_range. lia.
    - rewrite (mmap_Ret _ (fun i => pixel_at img (nb_spec x sz i W) y)); [reflexivity|].
      intros i Hi. apply in_zrange in Hi. rewrite nb_coord_ok by lia. cbn [bind].
      apply get_pixel_ok; [assumption|]. split; [|lia]. apply nb_spec_range. lia.
  Qed.

  Lemma nb_2d_ok x y sz : inside img x y -> 0 <= sz <= 2 ^ 30 ->
    get_neighborhood_2d p img x y sz
    = Ret (SubImage (Info sz sz (channels (info_of img)) (alpha (info_of img)))
        (map (fun k => pixel_at img (nb_spec x sz (k mod sz) W) (nb_spec y sz (k / sz) Ht)) (zrange 0 (sz * sz)))).
  Proof.
    intros [Hx Hy] Hs. unfold get_neighborhood_2d, check_xy.
    replace (W <=? x) with false by lia. replace (Ht <=? y) with false by lia. cbn [bind].
    rewrite (mmap_Ret _ (fun i => map (fun j => pixel_at img (nb_spec x sz j W) (nb_spec y sz i Ht)) (zrange 0 sz))).
    - cbn [bind]. do 2 f_equal.
      assert (Hg : forall n, 0 <= n -> concat (map (fun i => map (fun j =>
                 pixel_at img (nb_spec x sz j W) (nb_spec y sz i Ht)) (zrange 0 sz)) (zrange 0 n))
               = map (fun k => pixel_at img (nb_spec x sz (k mod sz) W) (nb_spec y sz (k / sz) Ht)) (zrange 0 (n * sz))).
      { intros n Hn. apply (zrange_ind (fun n => concat (map (fun i => map (fun j =>
                 pixel_at img (nb_spec x sz j W) (nb_spec y sz i Ht)) (zrange 0 sz)) (zrange 0 n))
               = map (fun k => pixel_at img (nb_spec x sz (k mod sz) W) (nb_spec y sz (k / sz) Ht)) (zrange 0 (n * sz))) 0 n Hn).
        - reflexivity.
        - intros k Hk IH. rewrite zrange_snoc by lia. rewrite map_app, concat_app, IH.
          rewrite (zrange_app 0 (k * sz) ((k + 1) * sz)) by nia. rewrite map_app. f_equal.
          cbn [map concat]. rewrite app_nil_r.
          rewrite (zrange_shift (k * sz)). rewrite map_map.
          replace ((k + 1) * sz - k * sz) with sz by lia.
          apply map_ext_in. intros j Hj. apply in_zrange in Hj.
          destruct (pos_div sz j k) as [-> ->]; [lia|]. reflexivity. }
      apply Hg. lia.
    - intros i Hi. apply in_zrange in Hi. apply mmap_Ret. intros j Hj. apply in_zrange in Hj.
      rewrite !nb_coord_ok by lia. cbn [bind].
      apply get_pixel_ok; [assumption|]. split; apply nb_spec_range; lia.
  Qed.
End Nb.

(** ** histories *)
Lemma nth_error_pixel {T} (img : image T) x y c (d : T) : wf img -> inside img x y -> 0 <= c < channels (info_of img) ->
  nth_error (pixel_at img x y) (Z.to_nat c)
  = Some (nth (Z.to_nat ((y * width (info_of img) + x) * channels (info_of img) + c)) (data img) d).
Proof.
  intros Hwf Hin Hc. pose proof Hin as [Hx Hy].
  rewrite (nth_error_nth' _ d) by (rewrite pixel_at_length by assumption; lia).
  f_equal. unfold pixel_at. rewrite nth_firstn by lia. rewrite nth_skipn. f_equal.
  destruct (pos_bound (width (info_of img)) (height (info_of img)) (channels (info_of img)) x y) as [? [? [? ?]]]; lia.
Qed.

Lemma pixel_nil {T} (img : image T) x y c : wf img -> inside img x y -> channels (info_of img) <= c ->
  nth_error (pixel_at img x y) (Z.to_nat c) = None.
Proof.
  intros Hwf Hin Hc. apply nth_error_None. rewrite pixel_at_length by assumption. pose proof (wf_c _ Hwf). lia.
Qed.

Lemma set_pixel_indexed_panic p {T} (img : image T) i px :
  wf img -> 0 < channels (info_of img) -> 0 <= i < 2 ^ 55 ->
  ~ (i < width (info_of img) * height (info_of img) /\ len px = channels (info_of img)) ->
  set_pixel_indexed p img i px = Panic.
Proof.
  intros Hwf HC Hi Hn. pose proof Hwf as [? ? ? ? ? Hd]. unfold u32_max in *.
  change (2 ^ 55) with 36028797018963968 in Hi.
  unfold set_pixel_indexed, check_channels.
  destruct (channels (info_of img) =? cast U8 (len px)) eqn:E; [cbn [bind]|reflexivity].
  ari. rewrite vcopy_panic; [reflexivity|].
  intros [H1 [H2 H3]]. apply Hn. split; [|lia]. rewrite Hd in H2. nia.
Qed.

Lemma run_op_step p {T} (img : image T) (o : op T) :
  wf img -> 0 < channels (info_of img) -> op_typed o -> op_legal (info_of img) o ->
  exists out, run_op p img o = Ret out /\ wf out /\ info_of out = info_of img
    /\ forall x y c, inside img x y -> 0 <= c ->
       cells_of out x y c = op_effect (info_of img) (cells_of img) o x y c.
Proof.
  intros Hwf HC Ht Hl. destruct o as [x y px|i px|f|f k]; cbn [run_op op_typed op_legal op_effect] in *.
  - destruct Hl as [Hx [Hy Hp]]. assert (Hin : inside img x y) by (split; lia).
    rewrite set_pixel_ok by assumption. eexists. split; [reflexivity|]. conj.
    + destruct Hin. apply put_wf; auto. pose proof (wf_c _ Hwf).
      destruct (pos_bound (width (info_of img)) (height (info_of img)) (channels (info_of img)) x y); lia.
    + reflexivity.
    + intros x' y' c Hin' Hc. unfold cells_of. rewrite pixel_at_put by assumption.
      destruct ((x' =? x) && (y' =? y)); reflexivity.
  - destruct Hl as [Hi Hp]. rewrite set_pixel_indexed_ok by (auto; lia). eexists. split; [reflexivity|]. conj.
    + apply put_wf; auto. lia.
    + reflexivity.
    + intros x' y' c [Hx' Hy'] Hc. unfold cells_of. rewrite !pixel_at_i. cbn [info_of put].
      pose proof (wf_c _ Hwf).
      destruct (pos_bound (width (info_of img)) (height (info_of img)) (channels (info_of img)) x' y'); try lia.
      destruct (Z.eqb_spec (y' * width (info_of img) + x') i) as [E|E].
      * rewrite E. rewrite put_same; auto. lia.
      * rewrite put_other; auto; lia.
  - rewrite apply_channels_eq, map_channels_pure by exact Hwf. eexists. split; [reflexivity|]. conj.
    + apply map_data_wf. exact Hwf.
    + reflexivity.
    + intros x y c Hin Hc. unfold cells_of. rewrite pixel_at_map. rewrite nth_error_map. reflexivity.
  - destruct (data img) as [|d0 d'] eqn:Ed.
    + (* no samples: nothing changes *)
      assert (Hz : width (info_of img) * height (info_of img) = 0).
      { pose proof (wf_data _ Hwf) as Hd. rewrite Ed in Hd. cbn in Hd. nia. }
      exists img. conj; auto.
      * unfold edit_channel. rewrite full_size_ok by exact Hwf. cbn [bind]. unfold zrange_step.
        replace (channels (info_of img) <=? 0) with false by lia. cbn [bind]. rewrite Hz, Z.mul_0_l.
        destruct (zrange_step_pos k 0 (channels (info_of img))) as [|i is] eqn:Es.
        -- cbn. destruct img; reflexivity.
        -- exfalso. assert (In i (zrange_step_pos k 0 (channels (info_of img)))) as Hi by (rewrite Es; left; reflexivity).
           apply in_zrange_step in Hi; lia.
      * intros x y c [Hx Hy] Hc. nia.
    + destruct (edit_channel_ok p f k img d0 Hwf HC Ht) as [out [E [Hw [Hi Hn]]]].
      exists out. conj; auto. intros x y c Hin Hc. unfold cells_of.
      assert (Hin' : inside out x y) by (unfold inside; rewrite Hi; exact Hin).
      destruct (Z_lt_le_dec c (channels (info_of img))) as [Hlt|Hge].
      * rewrite (nth_error_pixel out x y c d0) by (auto; rewrite Hi; lia).
        rewrite (nth_error_pixel img x y c d0) by (auto; lia). rewrite Hi.
        set (n := (y * width (info_of img) + x) * channels (info_of img) + c).
        assert (Hnr : 0 <= n < len (data img)).
        { rewrite (wf_data _ Hwf). destruct Hin. unfold n.
          destruct (pos_bound (width (info_of img)) (height (info_of img)) (channels (info_of img)) x y)
            as [? [? [? ?]]]; lia. }
        rewrite Hn by (unfold len in Hnr; lia).
        replace (Z.of_nat (Z.to_nat n)) with n by lia. cbv zeta. fold n.
        destruct ((k <=? n) && ((n - k) mod channels (info_of img) =? 0)); reflexivity.
      * rewrite !pixel_nil by (auto; rewrite ?Hi; lia). cbn [option_map].
        destruct ((k <=? _) && _); reflexivity.
Qed.

Lemma run_op_illegal p {T} (img : image T) (o : op T) :
  wf img -> 0 < channels (info_of img) -> op_typed o -> ~ op_legal (info_of img) o -> run_op p img o = Panic.
Proof.
  intros Hwf HC Ht Hl. destruct o as [x y px|i px|f|f k]; cbn [run_op op_typed op_legal] in *; try tauto.
  - apply set_pixel_panic; try lia; auto. unfold inside. intros [[? ?] ?]. apply Hl. lia.
  - apply set_pixel_indexed_panic; auto.
Qed.

Lemma run_ops p {T} (ops : list (op T)) (img : image T) :
  wf img -> 0 < channels (info_of img) -> Forall op_typed ops -> Forall (op_legal (info_of img)) ops ->
  exists out, mfold (run_op p) ops img = Ret out /\ wf out /\ info_of out = info_of img
    /\ forall x y c, inside img x y -> 0 <= c ->
       cells_of out x y c = fold_left (op_effect (info_of img)) ops (cells_of img) x y c.
Proof.
  intros Hwf HC Ht Hl.
  assert (Hgen : forall ops g (img : image T), wf img -> 0 < channels (info_of img) ->
    Forall op_typed ops -> Forall (op_legal (info_of img)) ops ->
    (forall x y c, inside img x y -> 0 <= c -> cells_of img x y c = g x y c) ->
    exists out, mfold (run_op p) ops img = Ret out /\ wf out /\ info_of out = info_of img
    /\ forall x y c, inside img x y -> 0 <= c ->
       cells_of out x y c = fold_left (op_effect (info_of img)) ops g x y c).
  { clear. induction ops as [|o ops IH]; intros g img Hwf HC Ht Hl Hg.
    - exists img. cbn. conj; auto.
    - inversion Ht as [|? ? Ht1 Ht2]; subst. inversion Hl as [|? ? Hl1 Hl2]; subst.
      destruct (run_op_step p img o Hwf HC Ht1 Hl1) as [img1 [E [Hw1 [Hi1 Hc1]]]].
      destruct (IH (op_effect (info_of img) g o) img1) as [out [E2 [Hw2 [Hi2 Hc2]]]]; auto.
      + rewrite Hi1; exact HC.
      + rewrite Hi1; exact Hl2.
      + intros x y c Hin Hc. unfold inside in Hin. rewrite Hi1 in Hin. rewrite Hc1 by auto.
        destruct o as [x0 y0 px|i px|f|f k]; cbn [op_effect].
        * destruct ((x =? x0) && (y =? y0)); [reflexivity|]. apply Hg; auto.
        * destruct (_ =? i); [reflexivity|]. apply Hg; auto.
        * rewrite Hg by auto. reflexivity.
        * rewrite Hg by auto. reflexivity.
      + exists out. cbn [mfold]. rewrite E. cbn [bind]. conj; auto; try congruence.
        intros x y c Hin Hc. cbn [fold_left]. rewrite Hc2; [rewrite Hi1; reflexivity| |exact Hc].
        unfold inside. rewrite Hi1. exact Hin. }
  apply Hgen; auto.
Qed.

Lemma run_ops_illegal p {T} (ops1 ops2 : list (op T)) o (img : image T) :
  wf img -> 0 < channels (info_of img) -> Forall op_typed ops1 -> Forall (op_legal (info_of img)) ops1 ->
  op_typed o -> ~ op_legal (info_of img) o ->
  mfold (run_op p) (ops1 ++ o :: ops2) img = Panic.
Proof.
  intros Hwf HC Ht Hl Hto Hlo. destruct (run_ops p ops1 img Hwf HC Ht Hl) as [out [E [Hw [Hi _]]]].
  rewrite mfold_app, E. cbn [bind mfold].
  rewrite run_op_illegal; auto; rewrite Hi; auto.
Qed.
