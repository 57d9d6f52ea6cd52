(** * C58, C100: alpha_trimmed_mean_filter below the first row *)
From Verif.Model Require Import Base Float Image Median Transform Trimmed.
From Verif.Spec Require Import ImageS SumS MedianS TrimmedS TrimmedRowsS ColorS.
From Verif.Proofs Require Import BaseL ImageL ImageOps SumL LoopL MedianL MedianL2 MedianL3 MeanL TransformL ToneL TrimmedL TrimmedL2 TrimmedL3 TrimmedL6 TrimmedL7 TrimmedL8.
From Verif.Props Require Import MedianP MedianReachP TrimmedP.
Open Scope Z_scope.

(** ** C58: every sample *)

(** Whenever the filter returns an image (alpha >= 2), every sample is what the running state of its
    window shows: Spec/TrimmedRowsS.v describes that state and its steps from row to row, for one
    window and without histograms.  In the last column it is the window of the last column of the
    last block. *)
Theorem C58_rows p bs lm (img : image Z) r alpha out :
  trimmed_input lm img r alpha -> 2 <= alpha -> 0 < width (info_of img) -> 0 < height (info_of img) ->
  alpha_trimmed_mean_filter p bs lm img r alpha = Ret out ->
  wf out /\ info_of out = info_of img /\
  forall x y c, inside img x y -> 0 <= c < channels (info_of img) ->
    exists w, state_after bs (clamped img c) r alpha (shown_column (width (info_of img)) (median_cols lm r) x) (Z.to_nat y) = Some w /\
      sample out x y c = Some (shown_mean r alpha w).
Proof.
  intros Hin H2 HW HH E. pose proof Hin as [Hwf Hu8 Hr Hw Hh Ha Hev]. destruct (median_cols_ok lm r) as [Hn0 Hodd].
  rewrite accepted in E by exact Hin.
  destruct (mean_blocks_rows p bs r (median_cols lm r) alpha img Hr ltac:(lia) Hodd Hwf Hu8 HW Hw HH Hh ltac:(unfold ksize; lia) Hev out E) as (A1 & A2 & A3).
  split; [exact A1|]. split; [exact A2|]. intros x y c Hxy Hc. destruct (A3 x y Hxy) as [B1 B2]. specialize (B1 c Hc).
  unfold sample. rewrite B2. rewrite (map_nth_error _ (Z.to_nat c) (zrange 0 (channels (info_of img))) (d := c)).
  2:{ rewrite (nth_error_nth' _ 0) by (rewrite zrange_length; lia). f_equal. rewrite nth_zrange by lia. lia. }
  unfold meanM. rewrite Z.add_0_r. destruct (state_after _ _ _ _ _ _) as [w|]; [|contradiction].
  exists w. split; reflexivity.
Qed.

(** The column 150 200 100 100 of C58_rows_refuted, radius 1, alpha 4: the states of its window.
    The two values dropped at each end are not the extreme ones any more. *)
Example C58_rows_example :
  map (state_after ex_bs (clamped ex_col 0) 1 4 0) [0%nat; 1%nat; 2%nat; 3%nat] =
    [Some (WindowState 750 [150; 150] [150; 150]); Some (WindowState 700 [100; 100] [150; 150]);
     Some (WindowState 550 [100; 100] [150; 150]); Some (WindowState 250 [100; 100] [150; 150])]
  /\ map (fun s => shown_mean 1 4 (WindowState s [] [])) [750; 700; 550; 250] = [150; 140; 110; 50].
Proof. split; vm_compute; reflexivity. Qed.

(** In a release build that is all there is to it: the filter returns an image exactly when no
    window gets stuck, over the columns of all the blocks (the last block can reach beyond the
    picture) and all the rows. *)
Theorem C58_returns bs lm (img : image Z) r alpha :
  trimmed_input lm img r alpha -> 2 <= alpha -> 0 < width (info_of img) -> 0 < height (info_of img) ->
  ((exists out, alpha_trimmed_mean_filter Release bs lm img r alpha = Ret out) <->
   let n := median_cols lm r in
   forall c x y, 0 <= c < channels (info_of img) -> 0 <= x < (width (info_of img) + n - 1) / n * n -> 0 <= y < height (info_of img) ->
     state_after bs (clamped img c) r alpha x (Z.to_nat y) <> None).
Proof.
  intros Hin H2 HW HH. pose proof Hin as [Hwf Hu8 Hr Hw Hh Ha Hev]. destruct (median_cols_ok lm r) as [Hn0 Hodd].
  rewrite accepted by exact Hin. cbv zeta. split.
  - intros [out E]. exact (mean_blocks_states bs r (median_cols lm r) alpha img Hr ltac:(lia) Hodd Hwf Hu8 HW Hw HH Hh ltac:(unfold ksize; lia) Hev out E).
  - intros Hne. exact (mean_blocks_fwd bs r (median_cols lm r) alpha img Hr ltac:(lia) Hodd Hwf Hu8 HW Hw HH Hh ltac:(unfold ksize; lia) Hev Hne).
Qed.

(** Refuted: that every accepted alpha >= 2 gives an image.  On this column of eight samples (radius
    1) the filter panics for alpha = 8: after a value has left the window the list of dropped high
    values cannot be refilled.  For alpha = 2, 4 and 6 it returns. *)
Definition ex_stuck : image Z := Image (Info 1 8 1 false) [0; 0; 128; 64; 128; 128; 128; 192].
Theorem C58_panics_refuted p :
  trimmed_input ex_lm ex_stuck 1 8 /\ alpha_trimmed_mean_filter p ex_bs ex_lm ex_stuck 1 8 = Panic.
Proof.
  split; [|destruct p; vm_compute; reflexivity].
  assert (E : median_cols ex_lm 1 = 5) by (vm_compute; reflexivity).
  constructor; rewrite ?E; try (cbn; lia); try reflexivity; [apply wfb_wf; reflexivity|unfold samples, is_u8; cbn; repeat constructor; lia].
Qed.
Example C58_panics_example p alpha : In alpha [2; 4; 6] -> exists out, alpha_trimmed_mean_filter p ex_bs ex_lm ex_stuck 1 alpha = Ret out.
Proof. intros [<- | [<- | [<- | []]]]; eexists; destruct p; vm_compute; reflexivity. Qed.
(** The one-window machine of the specification gets stuck too, going from row 5 to row 6. *)
Example C58_panics_state : state_after ex_bs (clamped ex_stuck 0) 1 8 0 5 <> None /\ state_after ex_bs (clamped ex_stuck 0) 1 8 0 6 = None.
Proof. split; vm_compute; congruence. Qed.

(** ** C100: what a sample depends on *)

Lemma window_row_shift v v' r x x' y : (forall i, - r <= i <= r -> v (x + i) y = v' (x' + i) y) -> window_row v r x y = window_row v' r x' y.
Proof.
  intros H. unfold window_row. replace (x - r) with (- r + x) by lia. replace (x + r + 1) with (r + 1 + x) by lia.
  replace (x' - r) with (- r + x') by lia. replace (x' + r + 1) with (r + 1 + x') by lia. rewrite !zrange_shift, !map_map.
  apply map_ext_in. intros i Hi. apply in_zrange in Hi. replace (i + x) with (x + i) by lia. replace (i + x') with (x' + i) by lia. apply H. lia.
Qed.

Lemma counted_shift v v' r x x' j s : 0 <= r -> 0 <= j -> (forall i k, - r <= i <= r -> k <= j + r -> v (x + i) k = v' (x' + i) k) ->
  counted v r x j s = counted v' r x' j s.
Proof.
  intros Hr Hj H. rewrite !counted_rows. f_equal.
  - apply Zsum_ext. intros k Hk. f_equal. apply window_row_shift. intros i Hi. apply H; lia.
  - apply Zsum_ext. intros k Hk. rewrite !(window_row_shift v v' r x x') by (intros i Hi; apply H; lia). reflexivity.
Qed.

Lemma state_shift bs v v' r alpha x x' Y : 0 <= r -> (forall i k, - r <= i <= r -> k <= Y + r -> v (x + i) k = v' (x' + i) k) ->
  forall j : nat, Z.of_nat j <= Y -> state_after bs v r alpha x j = state_after bs v' r alpha x' j.
Proof.
  intros Hr H. induction j as [|j IH]; intros Hj.
  - cbn [state_after]. f_equal. unfold first_state. cbv zeta.
    assert (E : sorted_window (fun i _ => v i 0) r x 0 = sorted_window (fun i _ => v' i 0) r x' 0).
    { unfold sorted_window. apply in_order_ext. intros s _. apply count_shift; [exact Hr|]. intros i k Hi Hk. apply H; lia. }
    rewrite E. reflexivity.
  - cbn [state_after]. rewrite IH by lia. destruct (state_after bs v' r alpha x' j) as [w|]; [|reflexivity].
    rewrite !(window_row_shift v v' r x x') by (intros i Hi; apply H; lia).
    destruct (enter_all _ _ _ w) as [w'|]; [|reflexivity]. apply leave_all_ext. intros s. apply counted_shift; try lia. intros i k Hi Hk. apply H; lia.
Qed.

(** Two pictures of the same layout that agree, in channel c, on the columns at most r away from x
    and on the rows down to y + r (from the very top of the picture): when the filter returns an
    image for both, the samples of channel c at (x, y) are the same. *)
Theorem C100_reach p bs lm (img img' : image Z) r alpha c x y out out' :
  trimmed_input lm img r alpha -> trimmed_input lm img' r alpha -> info_of img = info_of img' -> 2 <= alpha ->
  inside img x y -> 0 <= c < channels (info_of img) ->
  (forall x' y', inside img x' y' -> Z.abs (x' - x) <= r -> y' <= y + r -> sample img x' y' c = sample img' x' y' c) ->
  alpha_trimmed_mean_filter p bs lm img r alpha = Ret out -> alpha_trimmed_mean_filter p bs lm img' r alpha = Ret out' ->
  sample out x y c = sample out' x y c.
Proof.
  intros H H' Hi H2 Hxy Hc Heq E E'. pose proof Hxy as [Hx Hy]. pose proof (ti_r _ _ _ _ H) as Hr.
  destruct (C58_rows p bs lm img r alpha out H H2 ltac:(lia) ltac:(lia) E) as (_ & _ & R).
  destruct (C58_rows p bs lm img' r alpha out' H' H2 ltac:(rewrite <- Hi; lia) ltac:(rewrite <- Hi; lia) E') as (_ & _ & R').
  destruct (R x y c Hxy Hc) as [w [A1 A2]]. destruct (R' x y c ltac:(unfold inside; rewrite <- Hi; exact Hxy) ltac:(rewrite <- Hi; exact Hc)) as [w' [B1 B2]].
  rewrite A2, B2. f_equal. f_equal. rewrite <- Hi in B1.
  pose proof (shown_range lm r (width (info_of img)) x Hx) as Hs. cbv zeta in Hs. set (s := shown_column _ _ x) in *.
  rewrite (state_shift bs (clamped img c) (clamped img' c) r alpha s s y) in A1; [congruence|lia| |lia].
  intros i j Hij Hj. unfold clamped. rewrite <- Hi. set (X := clamp_to (width (info_of img)) (s + i)). set (Y := clamp_to (height (info_of img)) j).
  assert (HX : inside img X Y) by (unfold inside, X, Y, clamp_to; lia).
  specialize (Heq X Y HX ltac:(unfold X, clamp_to; lia) ltac:(unfold Y, clamp_to; lia)). unfold sample in Heq.
  apply nth_error_nth_eq. exact Heq.
Qed.

(** Filtering a part of the picture that reaches up to the first row gives, away from the other
    three sides of the part, what filtering the whole picture gives there. *)
Theorem C100_crop p bs lm (img : image Z) r alpha x0 w h part out part' : trimmed_input lm img r alpha -> 2 <= alpha ->
  0 <= x0 -> 0 < w -> 0 < h -> x0 + w < width (info_of img) -> h < height (info_of img) ->
  crop_seq p num_u8 img x0 0 w h = Ret part ->
  alpha_trimmed_mean_filter p bs lm img r alpha = Ret out -> alpha_trimmed_mean_filter p bs lm part r alpha = Ret part' ->
  forall i y c, r <= i -> i + r < w -> 0 <= y -> y + r < h -> 0 <= c < channels (info_of img) -> sample part' i y c = sample out (x0 + i) y c.
Proof.
  intros H H2 Hx0 Hw Hh Hxw Hyh Ec E E' i y c Hi1 Hi2 Hy1 Hy2 Hc. pose proof H as [W U Hr Ww Wh Ha Hev].
  destruct (crop_seq_ok p num_u8 img x0 0 w h W) as (part0 & Ep & Wp & Ip & Pp); try lia.
  rewrite Ec in Ep. injection Ep as <-.
  assert (Hp : trimmed_input lm part r alpha).
  { constructor; auto; rewrite ?Ip; cbn [width height]; try lia. apply (samples_pixels is_u8 part Wp). intros a b Hin. rewrite Pp by exact Hin. apply pixels_samples. exact U. }
  destruct (C58_rows p bs lm img r alpha out H H2 ltac:(lia) ltac:(lia) E) as (_ & _ & R).
  destruct (C58_rows p bs lm part r alpha part' Hp H2 ltac:(rewrite Ip; exact Hw) ltac:(rewrite Ip; exact Hh) E') as (_ & _ & R').
  destruct (R (x0 + i) y c ltac:(unfold inside; lia) Hc) as [u [A1 A2]].
  destruct (R' i y c ltac:(unfold inside; rewrite Ip; cbn [width height]; lia) ltac:(rewrite Ip; exact Hc)) as [u' [B1 B2]].
  rewrite A2, B2. f_equal. f_equal. rewrite Ip in B1. cbn [width height] in B1.
  replace (shown_column (width (info_of img)) (median_cols lm r) (x0 + i)) with (x0 + i) in A1.
  2: { unfold shown_column. destruct (Z.eqb_spec (x0 + i) (width (info_of img) - 1)); [lia|reflexivity]. }
  pose proof (shown_range lm r w i ltac:(lia)) as Hs. cbv zeta in Hs. set (s := shown_column w (median_cols lm r) i) in *.
  rewrite (state_shift bs (clamped img c) (clamped part c) r alpha (x0 + i) s y) in A1; [congruence|lia| |lia].
  intros a j Ha' Hj. unfold clamped. rewrite Ip. cbn [width height].
  assert (Hin : inside part (clamp_to w (s + a)) (clamp_to h j)) by (unfold inside, clamp_to; rewrite Ip; cbn [width height]; lia).
  rewrite (Pp _ _ Hin). f_equal. f_equal; unfold clamp_to; lia.
Qed.

(** Refuted: that a sample depends on its window only, and that a window of one value gives that
    value.  The columns 0 50 50 50 50 and 200 50 50 50 50 differ in the first row alone, but the results
    differ down to the last row, and neither of them is 50 there (radius 1, alpha 4). *)
Definition ex_up : image Z := Image (Info 1 5 1 false) [0; 50; 50; 50; 50].
Definition ex_up' : image Z := Image (Info 1 5 1 false) [200; 50; 50; 50; 50].
Theorem C100_window_refuted p : exists out out',
  alpha_trimmed_mean_filter p ex_bs ex_lm ex_up 1 4 = Ret out /\ alpha_trimmed_mean_filter p ex_bs ex_lm ex_up' 1 4 = Ret out' /\
  data out = [0; 10; 40; 40; 40] /\ data out' = [200; 170; 80; 80; 80] /\
  forall x y, inside ex_up x y -> 1 <= y -> sample ex_up x y 0 = Some 50 /\ sample ex_up' x y 0 = Some 50.
Proof.
  eexists. eexists. split; [destruct p; vm_compute; reflexivity|]. split; [destruct p; vm_compute; reflexivity|].
  split; [reflexivity|]. split; [reflexivity|]. intros x y [Hx Hy] Hy1. cbn in Hx, Hy. assert (x = 0) by lia. subst x.
  assert (y = 1 \/ y = 2 \/ y = 3 \/ y = 4) as [-> | [-> | [-> | ->]]] by lia; split; reflexivity.
Qed.

(** The hypotheses of C100_reach are met: changing the last sample of the column does not change
    the first three results (radius 1). *)
Definition ex_up2 : image Z := Image (Info 1 5 1 false) [0; 50; 50; 50; 255].
Example C100_reach_example out out' :
  alpha_trimmed_mean_filter Debug ex_bs ex_lm ex_up 1 4 = Ret out -> alpha_trimmed_mean_filter Debug ex_bs ex_lm ex_up2 1 4 = Ret out' ->
  sample out 0 2 0 = sample out' 0 2 0.
Proof.
  assert (E : median_cols ex_lm 1 = 5) by (vm_compute; reflexivity).
  apply (C100_reach Debug ex_bs ex_lm ex_up ex_up2 1 4 0 0 2); try reflexivity; try lia.
  1, 2: constructor; rewrite ?E; try (cbn; lia); try reflexivity; [apply wfb_wf; reflexivity|unfold samples, is_u8; cbn; repeat constructor; lia].
  - split; cbn; lia.
  - cbn. lia.
  - intros x' y' [Hx Hy] _ H2. cbn in Hx, Hy. assert (x' = 0) by lia. subst x'.
    assert (y' = 0 \/ y' = 1 \/ y' = 2 \/ y' = 3) as [-> | [-> | [-> | ->]]] by lia; reflexivity.
Qed.
Example C100_reach_example_runs : exists out out',
  alpha_trimmed_mean_filter Debug ex_bs ex_lm ex_up 1 4 = Ret out /\ alpha_trimmed_mean_filter Debug ex_bs ex_lm ex_up2 1 4 = Ret out' /\ data out <> data out'.
Proof. eexists. eexists. split; [vm_compute; reflexivity|]. split; [vm_compute; reflexivity|]. vm_compute. discriminate. Qed.
