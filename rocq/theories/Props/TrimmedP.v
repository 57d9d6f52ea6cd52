(** * C58: alpha_trimmed_mean_filter *)
From Verif.Model Require Import Base Float Image Median Trimmed.
From Verif.Spec Require Import ImageS SumS MedianS TrimmedS.
From Verif.Proofs Require Import BaseL ImageL ImageOps SumL LoopL MedianL MedianL2 MedianL3 MeanL TrimmedL TrimmedL2 TrimmedL3 TrimmedL4 TrimmedL5.
From Verif.Props Require Import MedianP.
From Coq Require Import Sorting.Sorted.
Open Scope Z_scope.

(** The images and parameters the theorems are about: radius at most 127, no 32-bit overflow, and
    an alpha that the filter accepts. *)
Record trimmed_input (lm : libm) (img : image Z) (r alpha : Z) : Prop := {
  ti_wf : wf img;
  ti_u8 : samples is_u8 img;
  ti_r : 0 <= r <= 127;
  ti_w : width (info_of img) + median_cols lm r + r < 2 ^ 31;
  ti_h : height (info_of img) + r < 2 ^ 31;
  ti_alpha : 0 <= alpha < (2 * r + 1) * (2 * r + 1);
  ti_even : alpha mod 2 = 0 }.

(** the first row of the image, repeated in both directions *)
Definition first_row (img : image Z) (c : Z) : Z -> Z -> Z := fun i _ => clamped img c i 0.

(** ** Validation *)

(** alpha odd, or at least the number of samples of the window: an error (for every radius for
    which 32 bits are enough for that number). *)
Theorem C58_invalid_alpha p bs lm (img : image Z) r alpha :
  0 <= r -> (2 * r + 1) * (2 * r + 1) < 2 ^ 32 -> 0 <= alpha < 2 ^ 32 ->
  alpha mod 2 = 1 \/ (2 * r + 1) * (2 * r + 1) <= alpha ->
  alpha_trimmed_mean_filter p bs lm img r alpha = Fail InvalidArgError.
Proof.
  intros Hr Hs Ha Hor. unfold alpha_trimmed_mean_filter.
  assert (2 * r + 1 < 2 ^ 32) by nia. assert (0 <= (2 * r + 1) * (2 * r + 1)) by nia.
  rewrite imul_ok by ity_lia. rewrite bind_Ret. rewrite iadd_ok by ity_lia. rewrite bind_Ret.
  unfold check_even. cbn [n_rem n_of_u8 n_eqb n_zero num_int]. rewrite irem_ok by ity_lia. rewrite bind_Ret.
  destruct (Z.eqb_spec (alpha mod 2) 0) as [E|E].
  - cbn [bind]. rewrite imul_ok by ity_lia. rewrite bind_Ret.
    destruct (Z.leb_spec ((2 * r + 1) * (2 * r + 1)) alpha); [reflexivity|]. destruct Hor; lia.
  - reflexivity.
Qed.
Example C58_invalid_example : alpha_trimmed_mean_filter Debug (fun _ _ => Missing 0) ex_lm ex_med 1 3 = Fail InvalidArgError.
Proof. apply C58_invalid_alpha; [lia|lia|lia|left; reflexivity]. Qed.

Lemma accepted p bs lm (img : image Z) r alpha : trimmed_input lm img r alpha ->
  alpha_trimmed_mean_filter p bs lm img r alpha =
  mfold (fun output x => process_cols_mean p bs r (median_cols lm r) alpha img output x)
    (zrange_step_pos 0 (width (info_of img)) (median_cols lm r))
    (Image (info_of img) (repeat 0 (Z.to_nat (width (info_of img) * height (info_of img) * channels (info_of img))))).
Proof.
  intros [Hwf Hu8 Hr Hw Hh Ha Hev]. destruct (median_cols_ok lm r) as [Hn0 Hodd]. unfold alpha_trimmed_mean_filter.
  assert (Hs : 1 <= (2 * r + 1) * (2 * r + 1) <= 65025) by nia.
  rewrite imul_ok by ity_lia. rewrite bind_Ret. rewrite iadd_ok by ity_lia. rewrite bind_Ret.
  unfold check_even. cbn [n_rem n_of_u8 n_eqb n_zero num_int]. rewrite irem_ok by ity_lia. rewrite bind_Ret. rewrite Hev. cbn [Z.eqb bind].
  rewrite imul_ok by ity_lia. rewrite bind_Ret. destruct (Z.leb_spec ((2 * r + 1) * (2 * r + 1)) alpha); [lia|].
  rewrite blank_ok by (apply wf_info_ok; exact Hwf). rewrite bind_Ret. cbn [info_of].
  unfold zrange_step. destruct (Z.leb_spec (median_cols lm r) 0); [lia|]. rewrite bind_Ret. reflexivity.
Qed.

(** ** The first row *)

(** Whenever the filter returns an image, its first row shows [first_row_mean] of the sorted
    window of the first input row repeated downwards (the rows below do not enter it); in the
    last column that of the last column of the last block. *)
Theorem C58_first_row p bs lm (img : image Z) r alpha out :
  trimmed_input lm img r alpha -> 0 < width (info_of img) -> 0 < height (info_of img) ->
  alpha_trimmed_mean_filter p bs lm img r alpha = Ret out ->
  wf out /\ info_of out = info_of img /\
  forall x, 0 <= x < width (info_of img) ->
    pixel_at out x 0 = map (fun c => first_row_mean
      (sorted_window (first_row img c) r (shown_column (width (info_of img)) (median_cols lm r) x) 0) alpha)
      (zrange 0 (channels (info_of img))).
Proof.
  intros Hin HW HH E. pose proof Hin as [Hwf Hu8 Hr Hw Hh Ha Hev]. destruct (median_cols_ok lm r) as [Hn0 Hodd].
  rewrite accepted in E by exact Hin. exact (mean_blocks_row0 p bs r (median_cols lm r) alpha img Hr ltac:(lia) Hodd Hwf Hu8 HW Hw HH Hh Ha Hev out E).
Qed.

(** One-row images are never a problem. *)
Theorem C58_one_row p bs lm (img : image Z) r alpha :
  trimmed_input lm img r alpha -> 0 < width (info_of img) -> height (info_of img) = 1 ->
  exists out, alpha_trimmed_mean_filter p bs lm img r alpha = Ret out /\ wf out /\ info_of out = info_of img /\
  forall x, 0 <= x < width (info_of img) ->
    pixel_at out x 0 = map (fun c => first_row_mean
      (sorted_window (clamped img c) r (shown_column (width (info_of img)) (median_cols lm r) x) 0) alpha)
      (zrange 0 (channels (info_of img))).
Proof.
  intros Hin HW H1. pose proof Hin as [Hwf Hu8 Hr Hw Hh Ha Hev]. destruct (median_cols_ok lm r) as [Hn0 Hodd].
  destruct (mean_blocks_ok p bs r (median_cols lm r) alpha img ltac:(lia) Hwf HW
     (fun c X _ => first_row_mean (sorted_window (row0 img c) r X 0) alpha)) as [out (E & A1 & A2 & A3)].
  { intros x0 o Hx Hwo Hio. apply process_cols_mean_one; try assumption; try lia. }
  exists out. rewrite accepted by exact Hin. split; [exact E|]. split; [exact A1|]. split; [exact A2|].
  intros x Hx. rewrite A3 by (split; lia). apply map_ext. intros c. f_equal. unfold sorted_window. apply in_order_ext. intros s _.
  unfold window_count. apply rect_ext. intros i j _ _. unfold row0, clamped. rewrite H1. unfold clamp_to.
  replace (Z.max 0 (Z.min (1 - 1) j)) with 0 by lia. reflexivity.
Qed.

(** ** When that is the documented value *)

Lemma in_order_sorted f b : StronglySorted Z.le (in_order f b).
Proof.
  unfold in_order. destruct (Z.le_gt_cases b 0) as [Hb|Hb]; [rewrite zrange_nil by lia; constructor|].
  assert (G : forall n a, StronglySorted Z.le (flat_map (fun s => repeat s (Z.to_nat (f s))) (zrange a (a + Z.of_nat n))) /\
     forall x, In x (flat_map (fun s => repeat s (Z.to_nat (f s))) (zrange a (a + Z.of_nat n))) -> a <= x).
  { induction n as [|n IH]; intros a.
    - rewrite zrange_nil by lia. split; [constructor|intros x []].
    - rewrite zrange_cons by lia. cbn [flat_map]. replace (a + Z.of_nat (S n)) with (a + 1 + Z.of_nat n) by lia.
      destruct (IH (a + 1)) as [I1 I2]. split.
      + induction (Z.to_nat (f a)) as [|m IHm]; [exact I1|]. cbn [repeat app]. constructor; [exact IHm|].
        apply Forall_forall. intros x Hx. apply in_app_or in Hx as [Hx|Hx]; [apply repeat_spec in Hx; lia|]. specialize (I2 x Hx). lia.
      + intros x Hx. apply in_app_or in Hx as [Hx|Hx]; [apply repeat_spec in Hx; lia|]. specialize (I2 x Hx). lia. }
  destruct (G (Z.to_nat b) 0) as [G1 _]. rewrite Z2Nat.id in G1 by lia. exact G1.
Qed.

Lemma sorted_nth l : StronglySorted Z.le l -> forall i j d, (i <= j < length l)%nat -> nth i l d <= nth j l d.
Proof.
  induction 1 as [|a l Hs IH Ha]; intros i j d Hij; [cbn in Hij; lia|].
  destruct i as [|i]; destruct j as [|j]; cbn [nth length] in *; try lia.
  - rewrite Forall_forall in Ha. apply Ha. apply nth_In. lia.
  - apply IH. lia.
Qed.

Lemma nth_skipn' {A} (d : A) n : forall l i, nth i (skipn n l) d = nth (n + i) l d.
Proof. induction n as [|n IH]; intros l i; [reflexivity|]. destruct l as [|a l]; [cbn; destruct i; reflexivity|]. cbn. apply IH. Qed.
Lemma nth_firstn' {A} (d : A) n : forall l i, (i < n)%nat -> nth i (firstn n l) d = nth i l d.
Proof.
  induction n as [|n IH]; intros l i Hi; [lia|]. destruct l as [|a l]; [reflexivity|]. destruct i; [reflexivity|]. cbn. apply IH. lia.
Qed.

(** If the smallest value to be dropped at the upper end is larger than the largest one to be
    kept, then the filter's value for the first row is the documented one. *)
Theorem C58_first_row_documented f alpha :
  let l := in_order f 256 in
  0 <= alpha < len l -> alpha mod 2 = 0 ->
  alpha = 0 \/ nth (Z.to_nat (len l - alpha / 2 - 1)) l 0 < nth (Z.to_nat (len l - alpha / 2)) l 0 ->
  first_row_mean l alpha = trimmed_mean l alpha.
Proof.
  intros l Ha Hev Hor. pose proof (in_order_sorted f 256 : StronglySorted Z.le l) as Hs. revert Ha Hor Hs. generalize l. clear l.
  intros l Ha Hor Hs. unfold first_row_mean, trimmed_mean. f_equal.
  assert (Ht : 0 <= alpha / 2 /\ 2 * (alpha / 2) = alpha) by (pose proof (Z.div_mod alpha 2 ltac:(lia)); lia).
  set (t := alpha / 2) in *. destruct Ht as [Ht Ht2].
  destruct (Z.eq_dec t 0) as [Et|Tn].
  - rewrite Et. unfold part. cbn [Z.to_nat skipn]. rewrite !Z.sub_0_r, Z.add_0_r, Z.sub_diag. cbn [Z.to_nat firstn].
    rewrite firstn_all2 by (unfold len; lia). unfold sum_of. cbn [fold_right]. lia.
  - assert (T1 : 1 <= t) by lia. destruct Hor as [Hz|Hlt]; [lia|].
    assert (Ec : upper_cut l alpha = len l - t).
    { unfold upper_cut. fold t. set (v := nth (Z.to_nat (len l - t)) l 0) in *.
      assert (Ef : filter (fun s => s <? v) l = firstn (Z.to_nat (len l - t)) l).
      { rewrite <- (firstn_skipn (Z.to_nat (len l - t)) l) at 1. rewrite filter_app.
        assert (F1 : forall u, (forall x, In x u -> x < v) -> filter (fun s => s <? v) u = u).
        { induction u as [|x u IH]; intros Hu; [reflexivity|]. cbn [filter]. destruct (Z.ltb_spec x v); [|specialize (Hu x (or_introl eq_refl)); lia].
          f_equal. apply IH. intros y Hy. apply Hu. right. exact Hy. }
        assert (F2 : forall u, (forall x, In x u -> v <= x) -> filter (fun s => s <? v) u = []).
        { induction u as [|x u IH]; intros Hu; [reflexivity|]. cbn [filter]. destruct (Z.ltb_spec x v); [specialize (Hu x (or_introl eq_refl)); lia|].
          apply IH. intros y Hy. apply Hu. right. exact Hy. }
        rewrite F1, F2; [apply app_nil_r| |].
        - intros x Hx. apply (In_nth _ _ 0) in Hx as [i [Hi <-]]. rewrite skipn_length in Hi.
          rewrite nth_skipn'. apply sorted_nth; [exact Hs|]. unfold len in *. lia.
        - intros x Hx. apply (In_nth _ _ 0) in Hx as [i [Hi <-]]. rewrite firstn_length in Hi.
          rewrite nth_firstn' by lia. apply Z.le_lt_trans with (2 := Hlt). apply sorted_nth; [exact Hs|]. unfold len in *. lia. }
      rewrite Ef. unfold len at 1. rewrite firstn_length. unfold len in *. lia. }
    rewrite Ec. unfold part.
    assert (E : l = firstn (Z.to_nat t) l ++ firstn (Z.to_nat (len l - t - t)) (skipn (Z.to_nat t) l) ++ skipn (Z.to_nat (len l - t)) l).
    { rewrite <- (firstn_skipn (Z.to_nat t) l) at 1. f_equal.
      rewrite <- (firstn_skipn (Z.to_nat (len l - t - t)) (skipn (Z.to_nat t) l)) at 1. f_equal. rewrite skipn_skipn'. f_equal. lia. }
    rewrite E at 1. rewrite !sum_of_app. cbn [Z.to_nat skipn]. replace (t - 0) with t by lia.
    replace (len l - t + t - (len l - t)) with t by lia.
    rewrite (firstn_all2 (skipn (Z.to_nat (len l - t)) l)) by (rewrite skipn_length; unfold len; lia). lia.
Qed.

(** ** Constant images *)

(** An image of one colour is preserved, in every row, when something is trimmed (alpha >= 2). *)
Theorem C58_constant p bs lm (img : image Z) r alpha ks :
  trimmed_input lm img r alpha -> 2 <= alpha -> 0 < width (info_of img) -> 0 < height (info_of img) ->
  (forall x y, inside img x y -> pixel_at img x y = ks) ->
  exists out, alpha_trimmed_mean_filter p bs lm img r alpha = Ret out /\ wf out /\ info_of out = info_of img /\
    forall x y, inside img x y -> pixel_at out x y = ks.
Proof.
  intros Hin Ha2 HW HH Hk. pose proof Hin as [Hwf Hu8 Hr Hw Hh Ha Hev]. destruct (median_cols_ok lm r) as [Hn0 Hodd].
  assert (Hks : len ks = channels (info_of img)).
  { rewrite <- (Hk 0 0) by (split; lia). apply pixel_at_len; [exact Hwf|split; lia]. }
  destruct (mean_blocks_ok p bs r (median_cols lm r) alpha img ltac:(lia) Hwf HW
     (fun c _ _ => nth (Z.to_nat c) ks 0)) as [out (E & A1 & A2 & A3)].
  { intros x0 o Hx Hwo Hio. apply (process_cols_mean_c p bs r (median_cols lm r) alpha img ks); try assumption; try lia. unfold ksize. lia. }
  exists out. rewrite accepted by exact Hin. split; [exact E|]. split; [exact A1|]. split; [exact A2|].
  intros x y Hxy. rewrite A3 by exact Hxy. pose proof (wf_c _ Hwf) as HC. apply (list_ext _ _ 0).
  - rewrite map_length, zrange_length. unfold len in Hks. lia.
  - intros i Hi. rewrite map_length, zrange_length in Hi. replace i with (Z.to_nat (Z.of_nat i)) by lia. rewrite nth_map_zrange by lia. reflexivity.
Qed.

(** ** alpha = 0 *)

(** With alpha = 0 - the plain mean, an accepted parameter - the filter panics on every image
    with at least two rows, in both profiles. *)
Theorem C58_alpha_zero_panics p bs lm (img : image Z) r :
  trimmed_input lm img r 0 -> 0 < width (info_of img) -> 2 <= height (info_of img) -> 1 <= channels (info_of img) ->
  alpha_trimmed_mean_filter p bs lm img r 0 = Panic.
Proof.
  intros Hin HW HH HC. pose proof Hin as [Hwf Hu8 Hr Hw Hh Ha Hev]. destruct (median_cols_ok lm r) as [Hn0 Hodd].
  rewrite accepted by exact Hin. unfold zrange_step_pos.
  assert (HN : 1 <= (width (info_of img) - 0 + median_cols lm r - 1) / median_cols lm r).
  { apply Z.div_le_lower_bound; lia. }
  destruct (Z.to_nat ((width (info_of img) - 0 + median_cols lm r - 1) / median_cols lm r)) as [|n] eqn:En; [lia|].
  cbn [seq map mfold]. rewrite Z.mul_0_r, Z.add_0_r.
  rewrite (process_cols_mean_zero p bs r (median_cols lm r) 0 img); try assumption; try lia; try reflexivity.
  apply (blank_wf num_u8). apply wf_info_ok. exact Hwf.
Qed.

(** ** Refutations and examples *)

(** a binary search, as an instance of the search parameter *)
Fixpoint ex_bs_go (fuel : nat) (l : list Z) (cmp : Z -> comparison) (a b : Z) : found_at :=
  match fuel with
  | O => Missing a
  | S fuel =>
      if b <=? a then Missing a else
      let m := (a + b) / 2 in
      match cmp (nth (Z.to_nat m) l 0) with
      | Eq => Found m
      | Lt => ex_bs_go fuel l cmp (m + 1) b
      | Gt => ex_bs_go fuel l cmp a m
      end
  end.
Definition ex_bs : search := fun l cmp => ex_bs_go (S (length l)) l cmp 0 (len l).

Definition ex_row : image Z := Image (Info 3 1 1 false) [10; 20; 30].
Lemma ex_row_input alpha : 0 <= alpha < 9 -> alpha mod 2 = 0 -> trimmed_input ex_lm ex_row 1 alpha.
Proof.
  intros Ha He. assert (E : median_cols ex_lm 1 = 5) by (vm_compute; reflexivity).
  constructor; rewrite ?E; try (cbn; lia); try assumption.
  - apply wfb_wf. reflexivity.
  - unfold samples, is_u8. cbn. repeat constructor; lia.
Qed.

(** The documented value, refuted by a tie: the window of the middle pixel of 10 20 30 (radius 1)
    is 10 10 10 20 20 20 30 30 30; without the 4 lowest and the 4 highest values 20 is left.
    The filter answers 30. *)
Theorem C58_ties_refuted p bs : exists out,
  alpha_trimmed_mean_filter p bs ex_lm ex_row 1 8 = Ret out /\ pixel_at out 1 0 = [30] /\
  sorted_window (clamped ex_row 0) 1 1 0 = [10; 10; 10; 20; 20; 20; 30; 30; 30] /\
  trimmed_mean (sorted_window (clamped ex_row 0) 1 1 0) 8 = 20.
Proof.
  destruct (C58_one_row p bs ex_lm ex_row 1 8) as [out (E & A1 & A2 & A3)]; [apply ex_row_input; [lia|reflexivity]|cbn; lia|reflexivity|].
  exists out. split; [exact E|]. split; [rewrite A3 by (cbn; lia); vm_compute; reflexivity|]. split; vm_compute; reflexivity.
Qed.

(** With alpha = 6 there is no tie at the upper end (20 | 30), and the filter gives the
    documented 20. *)
Example C58_no_tie_example p bs : exists out,
  alpha_trimmed_mean_filter p bs ex_lm ex_row 1 6 = Ret out /\ pixel_at out 1 0 = [20] /\
  let l := sorted_window (clamped ex_row 0) 1 1 0 in
  nth (Z.to_nat (len l - 6 / 2 - 1)) l 0 < nth (Z.to_nat (len l - 6 / 2)) l 0 /\ trimmed_mean l 6 = 20.
Proof.
  destruct (C58_one_row p bs ex_lm ex_row 1 6) as [out (E & A1 & A2 & A3)]; [apply ex_row_input; [lia|reflexivity]|cbn; lia|reflexivity|].
  exists out. split; [exact E|]. split; [rewrite A3 by (cbn; lia); vm_compute; reflexivity|]. split; vm_compute; reflexivity.
Qed.

Definition ex_col : image Z := Image (Info 1 4 1 false) [150; 200; 100; 100].
Lemma ex_col_input : trimmed_input ex_lm ex_col 1 4.
Proof.
  assert (E : median_cols ex_lm 1 = 5) by (vm_compute; reflexivity).
  constructor; rewrite ?E; try (cbn; lia); try reflexivity.
  - apply wfb_wf. reflexivity.
  - unfold samples, is_u8. cbn. repeat constructor; lia.
Qed.

(** The rows below the first are not trimmed means either, not even values between the smallest
    and the largest input sample: the column 150 200 100 100 gives 150 140 110 50. *)
Theorem C58_rows_refuted p : exists out,
  alpha_trimmed_mean_filter p ex_bs ex_lm ex_col 1 4 = Ret out /\ data out = [150; 140; 110; 50] /\
  map (fun y => trimmed_mean (sorted_window (clamped ex_col 0) 1 0 y) 4) [0; 1; 2; 3] = [160; 150; 120; 100].
Proof.
  eexists. split; [destruct p; vm_compute; reflexivity|]. split; [reflexivity|]. vm_compute. reflexivity.
Qed.

(** When a large value leaves the window, the filter looks for it among the dropped low values
    instead of the dropped high ones, does not find it, and subtracts it from a sum that does not
    contain it: the column 10 20 20 10 gives 8 in its last row, less than every sample of the image. *)
Definition ex_col2 : image Z := Image (Info 1 4 1 false) [10; 20; 20; 10].
Theorem C58_removal_refuted p : exists out,
  alpha_trimmed_mean_filter p ex_bs ex_lm ex_col2 1 4 = Ret out /\ data out = [10; 12; 12; 8] /\
  map (fun y => trimmed_mean (sorted_window (clamped ex_col2 0) 1 0 y) 4) [0; 1; 2; 3] = [12; 18; 18; 12].
Proof.
  eexists. split; [destruct p; vm_compute; reflexivity|]. split; [reflexivity|]. vm_compute. reflexivity.
Qed.

(** The first row leaves the second row out of account, whatever the search does. *)
Theorem C58_first_row_refuted p bs out :
  alpha_trimmed_mean_filter p bs ex_lm ex_col 1 4 = Ret out ->
  pixel_at out 0 0 = [150] /\ trimmed_mean (sorted_window (clamped ex_col 0) 1 0 0) 4 = 160.
Proof.
  intros E. destruct (C58_first_row p bs ex_lm ex_col 1 4 out ex_col_input) as (A1 & A2 & A3); [cbn; lia|cbn; lia|exact E|].
  split; [rewrite A3 by (cbn; lia)|]; vm_compute; reflexivity.
Qed.

Definition ex_flat : image Z := Image (Info 2 3 2 true) [9; 200; 9; 200; 9; 200; 9; 200; 9; 200; 9; 200].
Lemma ex_flat_input alpha : 0 <= alpha < 9 -> alpha mod 2 = 0 -> trimmed_input ex_lm ex_flat 1 alpha.
Proof.
  intros Ha He. assert (E : median_cols ex_lm 1 = 5) by (vm_compute; reflexivity).
  constructor; rewrite ?E; try (cbn; lia); try assumption.
  - apply wfb_wf. reflexivity.
  - unfold samples, is_u8. cbn. repeat constructor; lia.
Qed.
Example C58_constant_example p bs : exists out, alpha_trimmed_mean_filter p bs ex_lm ex_flat 1 4 = Ret out /\ pixel_at out 1 2 = [9; 200].
Proof.
  destruct (C58_constant p bs ex_lm ex_flat 1 4 [9; 200]) as [out (E & A1 & A2 & A3)]; [apply ex_flat_input; [lia|reflexivity]|lia|cbn; lia|cbn; lia| |].
  - intros x y [Hx Hy]. cbn in Hx, Hy. assert (x = 0 \/ x = 1) as [->| ->] by lia; assert (y = 0 \/ y = 1 \/ y = 2) as [->|[->| ->]] by lia; reflexivity.
  - exists out. split; [exact E|]. apply A3. split; cbn; lia.
Qed.
Example C58_alpha_zero_example p bs : alpha_trimmed_mean_filter p bs ex_lm ex_flat 1 0 = Panic.
Proof. apply C58_alpha_zero_panics; [apply ex_flat_input; [lia|reflexivity]|cbn; lia|cbn; lia|cbn; lia]. Qed.
