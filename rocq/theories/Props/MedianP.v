(** * C56, C57: median_filter *)
From Verif.Model Require Import Base Float Image Median.
From Verif.Spec Require Import ImageS SumS MedianS.
From Verif.Proofs Require Import BaseL ImageL ImageOps SumL LoopL MedianL MedianL2 MedianL3.
Open Scope Z_scope.

(** The images and radii for which no 32-bit computation of the filter overflows.  [median_cols]
    is the number of columns processed together, 4 * radius^(2/3) rounded to an odd number. *)
Record median_input (lm : libm) (img : image Z) (r : Z) : Prop := {
  mi_wf : wf img;
  mi_u8 : samples is_u8 img;
  mi_r : 0 <= r < 2 ^ 14;
  mi_w : width (info_of img) + median_cols lm r + r < 2 ^ 31;
  mi_h : height (info_of img) + r < 2 ^ 31 }.

(** ** Facts about the specification *)

Lemma window_mono (q q' : Z -> bool) v r x y : (forall s, q s = true -> q' s = true) ->
  window_count q v r x y <= window_count q' v r x y.
Proof.
  intros Hq. unfold window_count, rect_sum. apply Zsum_le. intros j _. apply Zsum_le. intros i _.
  specialize (Hq (v i j)). destruct (q (v i j)); [rewrite Hq by reflexivity; lia|]. destruct (q' (v i j)); lia.
Qed.

(** a window has one median *)
Lemma is_median_unique v r x y m m' : is_median v r x y m -> is_median v r x y m' -> m = m'.
Proof.
  intros [A B] [C D]. destruct (Z.lt_trichotomy m m') as [H|[H|H]]; [|exact H|].
  - pose proof (window_mono (fun s => s <=? m) (fun s => s <? m') v r x y ltac:(intros s; rewrite Z.leb_le, Z.ltb_lt; lia)). lia.
  - pose proof (window_mono (fun s => s <=? m') (fun s => s <? m) v r x y ltac:(intros s; rewrite Z.leb_le, Z.ltb_lt; lia)). lia.
Qed.

Lemma Zsum_lt_ex f g a b : Zsum f a b < Zsum g a b -> exists k, a <= k < b /\ f k < g k.
Proof.
  intros H. destruct (existsb (fun k => f k <? g k) (zrange a b)) eqn:E.
  - apply existsb_exists in E as [k [Hk Hlt]]. exists k. split; [apply in_zrange; exact Hk|lia].
  - exfalso. assert (Zsum g a b <= Zsum f a b); [|lia]. apply Zsum_le. intros k Hk.
    destruct (Z.ltb_spec (f k) (g k)); [|lia]. assert (existsb (fun k => f k <? g k) (zrange a b) = true); [|congruence].
    apply existsb_exists. exists k. split; [apply in_zrange; exact Hk|apply Z.ltb_lt; assumption].
Qed.

(** the median of a window is one of its samples *)
Lemma is_median_sample v r x y m : is_median v r x y m -> exists i j, v i j = m.
Proof.
  intros [A B]. unfold window_count, rect_sum in *.
  match type of A with ?s < ?k => match type of B with _ <= ?t => assert (Hlt : s < t) by lia end end.
  apply Zsum_lt_ex in Hlt as [j [_ Hlt]]. apply Zsum_lt_ex in Hlt as [i [_ Hlt]]. exists i, j.
  destruct (Z.ltb_spec (v i j) m); destruct (Z.leb_spec (v i j) m); lia.
Qed.

Lemma median_cols_ok lm r : 0 < median_cols lm r /\ median_cols lm r mod 2 = 1.
Proof.
  unfold median_cols. set (n := f32_to_int USIZE _).
  assert (Hn : 0 <= n).
  { unfold n, f32_to_int, float_to_int. generalize (f32_floor (f32_mul (f32_of_Z 4) (powf lm (f32_of_Z r) (f32_div (f32_of_Z 2) (f32_of_Z 3))))).
    intros x. assert (G : forall z, 0 <= (if z <? lo USIZE then lo USIZE else if hi USIZE <? z then hi USIZE else z)).
    { intros z. destruct (Z.ltb_spec z (lo USIZE)) as [h|h]; [|destruct (Z.ltb_spec (hi USIZE) z)]; change (lo USIZE) with 0 in *; change (hi USIZE) with 18446744073709551615 in *; lia. }
    destruct x as [s|s| |s m e B]; [apply G|destruct s; cbn; lia|lia|apply G]. }
  pose proof (Z.mod_pos_bound n 2 ltac:(lia)). destruct (Z.eqb_spec (n mod 2) 0) as [E|E].
  - split; [lia|]. rewrite Z.add_mod, E by lia. reflexivity.
  - split; [|lia]. destruct (Z.eq_dec n 0) as [->|]; [cbn in E; lia|lia].
Qed.

(** ** C57 *)

(** What median_filter computes: there are values m c x y, one for every channel, column (the
    columns of the last block outside the image included) and row, such that
    - in the first row m is the median of the window (coordinates clamped to the image);
    - in every later row m is the median of the window too, unless exactly (half of the window,
      rounded up) samples of the window are smaller than the value computed for the row above:
      then that value is repeated;
    - the output shows m, in the last column that of the last column of the last block. *)
Theorem C57_median_filter p lm (img : image Z) r :
  median_input lm img r -> 0 < width (info_of img) -> 0 < height (info_of img) ->
  exists (out : image Z) (m : Z -> Z -> Z -> Z),
    median_filter p lm img r = Ret out /\ wf out /\ info_of out = info_of img /\
    (forall c x, 0 <= c < channels (info_of img) ->
       is_median (clamped img c) r x 0 (m c x 0)) /\
    (forall c x y, 0 <= c < channels (info_of img) -> 0 <= y ->
       if window_count (fun s => s <? m c x y) (clamped img c) r x (y + 1) =? median_rank r
       then m c x (y + 1) = m c x y
       else is_median (clamped img c) r x (y + 1) (m c x (y + 1))) /\
    (forall x y, inside img x y ->
       pixel_at out x y = map (fun c => m c (shown_column (width (info_of img)) (median_cols lm r) x) y)
                              (zrange 0 (channels (info_of img)))).
Proof.
  intros [Hwf Hu8 Hr Hw Hh] HW HH. destruct (median_cols_ok lm r) as [Hn0 Hodd].
  set (nc := median_cols lm r) in *. assert (Hnc : 0 < nc < 2 ^ 31) by lia.
  destruct (blocks_ok p r nc img Hr Hnc Hodd Hwf Hu8 HW Hw HH Hh) as [out (E & A1 & A2 & A3)].
  exists out, (fun c x y => mres r img c x (Z.to_nat y)).
  split.
  { unfold median_filter. rewrite blank_ok by (apply wf_info_ok; exact Hwf). rewrite bind_Ret. cbn [info_of].
    fold nc. unfold zrange_step. destruct (Z.leb_spec nc 0); [lia|]. rewrite bind_Ret. exact E. }
  split; [exact A1|]. split; [exact A2|].
  assert (Med : forall c x y, 0 <= c < channels (info_of img) -> 
    let l := fun t => window_count (fun s => s <? t) (clamped img c) r x y in
    is_median (clamped img c) r x y (medf (median_rank r) l)).
  { intros c x y Hc l.
    assert (El : forall t, l t = rows r img c x (y - r) (y + r + 1) 0 t).
    { intros t. unfold l. rewrite rows_window. f_equal. lia. }
    pose proof (Lok_rows r nc img Hr Hwf Hu8 HW HH c x y Hc) as HL.
    assert (Hf : exists m0, 0 <= m0 < 256 /\ rows r img c x (y - r) (y + r + 1) 0 m0 < median_rank r <= rows r img c x (y - r) (y + r + 1) 0 (m0 + 1)).
    { pose proof (rank_range r nc img Hr Hnc Hw HH Hh) as Hrk. pose proof (rows_full r nc img Hr Hnc Hwf Hu8 HW Hw HH Hh c x y 0 Hc) as Hfull.
      pose proof (L0 _ _ _ HL 0 ltac:(lia)) as Hz. clear El. revert Hfull Hz. set (L := rows r img c x (y - r) (y + r + 1) 0). intros Hfull Hz.
      assert (G : forall k, 0 <= k -> k <= 256 -> median_rank r <= L k -> exists m0, 0 <= m0 < k /\ L m0 < median_rank r <= L (m0 + 1)).
      { intros k Hk. pattern k. apply natlike_ind; [| |exact Hk].
        - intros _ Hc0. lia.
        - intros j Hj IH Hj2 Hc0. destruct (Z.lt_ge_cases (L j) (median_rank r)).
          + exists j. split; [lia|]. replace (j + 1) with (Z.succ j) by lia. lia.
          + destruct (IH ltac:(lia) ltac:(lia)) as [m0 [G1 G2]]. exists m0. split; [lia|exact G2]. }
      destruct (G 256 ltac:(lia) ltac:(lia) ltac:(lia)) as [m0 [G1 G2]]. exists m0. split; [lia|exact G2]. }
    destruct Hf as [m0 [Hm0 Hm1]].
    assert (Em : medf (median_rank r) l = m0).
    { rewrite (medf_ext _ l (rows r img c x (y - r) (y + r + 1) 0) El). apply (medf_unique nc (median_rank r) _ _ 0 m0 HL); [lia|exact Hm0|exact Hm1]. }
    rewrite Em. rewrite <- !El in Hm1. unfold l in Hm1. unfold is_median.
    assert (Es : window_count (fun s => s <=? m0) (clamped img c) r x y = window_count (fun s => s <? m0 + 1) (clamped img c) r x y).
    { unfold window_count. apply rect_ext. intros i j _ _. destruct (Z.leb_spec (clamped img c i j) m0); destruct (Z.ltb_spec (clamped img c i j) (m0 + 1)); lia. }
    rewrite Es. exact Hm1. }
  split; [intros c x Hc; apply (Med c x 0 Hc)|].
  split; [|exact A3].
  intros c x y Hc Hy. replace (Z.to_nat (y + 1)) with (S (Z.to_nat y)) by lia. cbn [mres].
  replace (Z.of_nat (S (Z.to_nat y))) with (y + 1) by lia. unfold newpiv.
  destruct (_ =? median_rank r); [reflexivity|]. apply (Med c x (y + 1) Hc).
Qed.

(** Every output sample outside the last column is within one rank of the median of its window. *)
Corollary C57_within_one_rank p lm (img : image Z) r :
  median_input lm img r -> 0 < width (info_of img) -> 0 < height (info_of img) ->
  exists out, median_filter p lm img r = Ret out /\ info_of out = info_of img /\
    forall c x y, inside img x y -> x <> width (info_of img) - 1 -> 0 <= c < channels (info_of img) ->
      let s := nth (Z.to_nat c) (pixel_at out x y) 0 in
      window_count (fun t => t <? s) (clamped img c) r x y <= median_rank r
        <= window_count (fun t => t <=? s) (clamped img c) r x y.
Proof.
  intros Hin HW HH. destruct (C57_median_filter p lm img r Hin HW HH) as [out [m (E & A1 & A2 & A3 & A4 & A5)]].
  exists out. split; [exact E|]. split; [exact A2|]. intros c x y Hxy Hx Hc s.
  assert (Es : s = m c x y).
  { unfold s. rewrite A5 by exact Hxy. rewrite nth_map_zrange by lia. unfold shown_column.
    destruct (Z.eqb_spec x (width (info_of img) - 1)); [contradiction|]. f_equal; lia. }
  rewrite Es. clear s Es. destruct Hxy as [_ Hy].
  destruct (Z.eq_dec y 0) as [->|Hy0].
  - destruct (A3 c x Hc). lia.
  - specialize (A4 c x (y - 1) Hc ltac:(lia)). replace (y - 1 + 1) with y in A4 by lia.
    destruct (Z.eqb_spec (window_count (fun s => s <? m c x (y - 1)) (clamped img c) r x y) (median_rank r)) as [Eq|Ne].
    + rewrite A4. split; [lia|]. rewrite <- Eq at 1. apply window_mono. intros s. rewrite Z.ltb_lt, Z.leb_le. lia.
    + destruct A4. lia.
Qed.

(** Every output sample is an input sample of the same channel. *)
Corollary C57_values_of_input p lm (img : image Z) r :
  median_input lm img r -> 0 < width (info_of img) -> 0 < height (info_of img) ->
  exists out, median_filter p lm img r = Ret out /\ info_of out = info_of img /\
    forall c x y, inside img x y -> 0 <= c < channels (info_of img) ->
      exists i j, inside img i j /\ nth (Z.to_nat c) (pixel_at out x y) 0 = nth (Z.to_nat c) (pixel_at img i j) 0.
Proof.
  intros Hin HW HH. destruct (C57_median_filter p lm img r Hin HW HH) as [out [m (E & A1 & A2 & A3 & A4 & A5)]].
  exists out. split; [exact E|]. split; [exact A2|]. intros c x y Hxy Hc.
  assert (G : forall X (k : nat), exists i j, clamped img c i j = m c X (Z.of_nat k)).
  { intros X k. induction k as [|k IH].
    - apply (is_median_sample _ r X 0). apply A3. exact Hc.
    - specialize (A4 c X (Z.of_nat k) Hc ltac:(lia)). replace (Z.of_nat k + 1) with (Z.of_nat (S k)) in A4 by lia.
      destruct (_ =? median_rank r); [rewrite A4; exact IH|]. apply (is_median_sample _ r X (Z.of_nat (S k))). exact A4. }
  destruct (G (shown_column (width (info_of img)) (median_cols lm r) x) (Z.to_nat y)) as [i [j Eij]].
  exists (clamp_to (width (info_of img)) i), (clamp_to (height (info_of img)) j). split.
  - split; apply clamp_in; assumption.
  - rewrite A5 by exact Hxy. rewrite nth_map_zrange by lia. destruct Hxy as [_ Hy].
    replace (Z.of_nat (Z.to_nat y)) with y in Eij by lia. replace (0 + c) with c by lia. rewrite <- Eij. reflexivity.
Qed.

(** Images without pixels: no columns give an empty image; columns but no rows give a panic. *)
Theorem C57_empty p lm (img : image Z) r : wf img -> 0 <= r < 2 ^ 14 ->
  (width (info_of img) = 0 -> median_filter p lm img r = Ret img) /\
  (0 < width (info_of img) -> height (info_of img) = 0 -> median_filter p lm img r = Panic).
Proof.
  intros Hwf Hr. destruct (median_cols_ok lm r) as [Hn0 _].
  pose proof Hwf as [w1 w2 w3 w4 w5 w6].
  unfold median_filter. rewrite blank_ok by (apply wf_info_ok; exact Hwf). rewrite bind_Ret. cbn [info_of].
  set (nc := median_cols lm r) in *. unfold zrange_step. destruct (Z.leb_spec nc 0); [lia|]. rewrite bind_Ret. split.
  - intros E. rewrite E. unfold zrange_step_pos. replace ((0 - 0 + nc - 1) / nc) with 0 by (symmetry; apply Z.div_small; lia).
    cbn [Z.to_nat seq map mfold]. destruct img as [inf d]. cbn [info_of data] in *. f_equal. f_equal. assert (Hd : len d = 0) by (destruct Hwf as [_ _ _ _ _ HL]; cbn [info_of data] in HL; rewrite HL, E; lia).
    destruct d; [reflexivity|unfold len in Hd; cbn in Hd; lia].
  - intros HW HH.
    assert (EN : exists N, Z.to_nat ((width (info_of img) - 0 + nc - 1) / nc) = S N).
    { assert (1 <= (width (info_of img) - 0 + nc - 1) / nc) by (apply Z.div_le_lower_bound; lia).
      exists (Z.to_nat ((width (info_of img) - 0 + nc - 1) / nc - 1)). lia. }
    destruct EN as [N EN]. unfold zrange_step_pos. rewrite EN. cbn [seq map mfold].
    match goal with |- bind ?e _ = _ => assert (E : e = Panic); [|rewrite E; reflexivity] end.
    unfold process_cols, block_rows. assert (Hs : 0 <= 2 * r + 1 < 2 ^ 15) by lia.
    rewrite imul_ok by ity_lia. rewrite bind_Ret. rewrite iadd_ok by ity_lia. rewrite bind_Ret.
    rewrite imul_ok by (cbn [lo hi U32]; nia). rewrite bind_Ret. rewrite idiv_ok by (cbn [lo hi U32]; nia). rewrite bind_Ret.
    assert (Hd : 0 <= (2 * r + 1) * (2 * r + 1) / 2 <= 2 ^ 30) by (split; [apply Z.div_pos; nia|apply Z.div_le_upper_bound; nia]).
    rewrite iadd_ok by ity_lia. rewrite bind_Ret. cbv zeta. unfold init_cols. rewrite !(cast_id I32 r) by ity_lia.
    unfold ineg. rewrite arith_ok by ity_lia. rewrite bind_Ret. rewrite iadd_ok by ity_lia. rewrite bind_Ret.
    rewrite (zrange_cons (- r) (r + 1)) by lia. cbn [mfold]. rewrite HH. rewrite cast_id by ity_lia.
    rewrite isub_ok by ity_lia. rewrite bind_Ret. reflexivity.
Qed.

(** ** Where the documentation is wrong *)

(** radius 0 should leave the image alone; the second row is replaced by the first. *)
Theorem C57_radius_0_refuted p lm : powf lm (f32_of_Z 0) (f32_div (f32_of_Z 2) (f32_of_Z 3)) = f32_of_Z 0 ->
  median_filter p lm (Image (Info 1 2 1 false) [5; 3]) 0 = Ret (Image (Info 1 2 1 false) [5; 5]).
Proof.
  intros Hp. assert (E : median_cols lm 0 = 1) by (unfold median_cols; rewrite Hp; vm_compute; reflexivity).
  unfold median_filter. rewrite E. destruct p; vm_compute; reflexivity.
Qed.

(** the last column of the first row: the median of 20 20 20 0 0 0 0 10 10 is 10 *)
Theorem C57_last_column_refuted p lm : powf lm (f32_of_Z 1) (f32_div (f32_of_Z 2) (f32_of_Z 3)) = f32_of_Z 1 ->
  let img := Image (Info 2 2 1 false) [20; 0; 20; 10] in
  exists out, median_filter p lm img 1 = Ret out /\ pixel_at out 1 0 = [0] /\ is_median (clamped img 0) 1 1 0 10.
Proof.
  intros Hp. assert (E : median_cols lm 1 = 5) by (unfold median_cols; rewrite Hp; vm_compute; reflexivity).
  cbv zeta. unfold median_filter. rewrite E. destruct p; (eexists; split; [vm_compute; reflexivity|split; [reflexivity|]]);
  (split; [vm_compute; reflexivity|apply Z.leb_le; vm_compute; reflexivity]).
Qed.

(** a concrete case of the hypotheses: 3 x 3, radius 1 *)
Definition ex_lm : libm := Libm (fun x _ => x) (fun x => x) (fun x => x).
Definition ex_med : image Z := Image (Info 3 3 1 false) [9; 1; 8; 2; 7; 3; 6; 4; 5].
Example C57_example : median_input ex_lm ex_med 1 /\
  exists out, median_filter Debug ex_lm ex_med 1 = Ret out /\ data out = [7; 7; 8; 6; 5; 5; 6; 5; 5].
Proof.
  split.
  - assert (E : median_cols ex_lm 1 = 5) by (vm_compute; reflexivity).
    constructor; rewrite ?E; try (cbn; lia).
    + apply wfb_wf. reflexivity.
    + unfold samples, is_u8. cbn. repeat constructor; lia.
  - eexists. split; [vm_compute; reflexivity|]. cbn [data]. reflexivity.
Qed.

(** ** C56 *)

(** At every row j of every block (columns x, x+1, ... x + median_cols - 1) the histograms kept by the filter know the
    window of every column of the block: get_count is the number of samples equal to the key; the
    sum is the number of samples smaller than the pivot. *)
Theorem C56_histograms_count_the_window p lm (img out : image Z) r x j :
  median_input lm img r -> 0 < width (info_of img) -> 0 < height (info_of img) ->
  wf out -> info_of out = info_of img -> 0 <= x < width (info_of img) -> 0 <= j < height (info_of img) ->
  exists out' hists, block_rows p r (median_cols lm r) img out x (j + 1) = Ret (out', hists) /\
    len hists = channels (info_of img) /\
    forall c h, nth_error hists (Z.to_nat c) = Some h -> 0 <= c ->
      forall n, 0 <= n < median_cols lm r ->
      (forall key, 0 <= key < 256 ->
         get_count p (median_cols lm r) (mh_data h) key n
         = Ret (window_count (fun s => s =? key) (clamped img c) r (x + n) j)) /\
      exists pivot sum, nth_error (mh_pivots h) (Z.to_nat n) = Some pivot /\ nth_error (mh_sums h) (Z.to_nat n) = Some sum /\
        sum = window_count (fun s => s <? pivot) (clamped img c) r (x + n) j.
Proof.
  intros [Hwf Hu8 Hr Hw Hh] HW HH Hwo Hio Hx Hj. destruct (median_cols_ok lm r) as [Hn0 Hodd].
  set (nc := median_cols lm r) in *. assert (Hnc : 0 < nc < 2 ^ 31) by lia.
  destruct (block_rows_ok p r nc img Hr Hnc Hodd Hwf Hu8 HW Hw HH Hh x out (j + 1) Hx Hwo Hio ltac:(lia)) as [o [hs (E & A1 & A2 & A3 & A4 & A5)]].
  exists o, hs. split; [exact E|]. split; [exact A3|]. intros c h Hnth Hc n Hn.
  assert (Hcl : 0 <= c < len hs).
  { split; [exact Hc|]. unfold len. assert (nth_error hs (Z.to_nat c) <> None) by congruence. apply nth_error_Some in H. lia. }
  destruct (A4 c Hcl) as (D1 & (D2 & D3 & D4) & D5). rewrite Z.add_0_l in *. rewrite (nth_error_nth hs _ dh Hnth) in *.
  replace (j + 1 - 1) with j in * by lia.
  assert (HL : Lok nc (rows r img c x (j - r) (j + r + 1)) (ksize r * (ksize r + 1))) by (apply (Lok_rows r nc img); try assumption; lia).
  split.
  - intros key Hk. pose proof (sz_bound r nc img Hr Hnc Hw HH Hh) as (_ & Hb & _).
    rewrite (get_count_ok p nc Hnc Hodd (mh_data h) _ _ n key D1 HL) by (try assumption; cbn [hi I32] in *; unfold ksize in *; lia).
    f_equal. rewrite !rows_window. unfold window_count.
    assert (Es : forall v x0 y0 x1 y1 (k : Z), rect_sum (fun i j => if v i j <? k + 1 then 1 else 0) x0 y0 x1 y1
      = rect_sum (fun i j => if v i j <? k then 1 else 0) x0 y0 x1 y1 + rect_sum (fun i j => if v i j =? k then 1 else 0) x0 y0 x1 y1).
    { intros v x0 y0 x1 y1 k. unfold rect_sum. rewrite <- Zsum_add. apply Zsum_ext. intros yy _. rewrite <- Zsum_add. apply Zsum_ext. intros xx _.
      destruct (Z.ltb_spec (v xx yy) (k + 1)); destruct (Z.ltb_spec (v xx yy) k); destruct (Z.eqb_spec (v xx yy) k); lia. }
    rewrite Es. lia.
  - destruct (D4 n Hn) as [F1 F2].
    destruct (nth_error (mh_pivots h) (Z.to_nat n)) as [pv|] eqn:Ep; [|apply nth_error_None in Ep; unfold len in D3; lia].
    destruct (nth_error (mh_sums h) (Z.to_nat n)) as [sm|] eqn:Esm; [|apply nth_error_None in Esm; unfold len in D2; lia].
    exists pv, sm. split; [reflexivity|]. split; [reflexivity|].
    rewrite (nth_error_nth _ _ 0 Ep) in F1. rewrite (nth_error_nth _ _ 0 Esm) in F2. rewrite F2, <- F1, rows_window. reflexivity.
Qed.

Example C56_example : exists st, block_rows Debug 1 5 ex_med ex_med 0 2 = Ret st /\
  exists h, nth_error (snd st) 0 = Some h /\
    get_count Debug 5 (mh_data h) 7 0 = Ret 1 /\ get_count Debug 5 (mh_data h) 9 0 = Ret 2.
Proof. eexists. split; [vm_compute; reflexivity|]. eexists. split; [reflexivity|]. split; reflexivity. Qed.
