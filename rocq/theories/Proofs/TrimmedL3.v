(** Lemmas about Model/Trimmed.v: the first row of a block. *)
From Verif.Model Require Import Base Float Image Median Trimmed.
From Verif.Spec Require Import ImageS SumS MedianS TrimmedS.
From Verif.Proofs Require Import BaseL ImageL ImageOps SumL LoopL MedianL MedianL2 MedianL3 MeanL TrimmedL TrimmedL2.
Open Scope Z_scope.

Lemma in_order_ext f g b : (forall s, 0 <= s < b -> f s = g s) -> in_order f b = in_order g b.
Proof.
  intros E. unfold in_order. assert (G : forall l, (forall s, In s l -> f s = g s) ->
    flat_map (fun s => repeat s (Z.to_nat (f s))) l = flat_map (fun s => repeat s (Z.to_nat (g s))) l).
  { induction l as [|a l IH]; intros H; [reflexivity|]. cbn [flat_map]. rewrite (H a (or_introl eq_refl)), IH; [reflexivity|]. intros s Hs. apply H. right. exact Hs. }
  apply G. intros s Hs. apply in_zrange in Hs. apply E. exact Hs.
Qed.

Lemma kept_bounds (u : list Z) t q : (forall x, In x u -> 0 <= x <= 255) -> 0 <= t <= q -> t = 0 \/ q + t <= len u ->
  0 <= sum_of u - sum_of (firstn (Z.to_nat t) u) - sum_of (firstn (Z.to_nat t) (skipn (Z.to_nat q) u)) <= 255 * (len u - 2 * t).
Proof.
  intros Hu Ht Hq.
  assert (Bd : forall w, (forall x, In x w -> In x u) -> 0 <= sum_of w <= 255 * len w).
  { intros w Hw. split; [apply sum_nonneg; intros x Hx; specialize (Hu x (Hw x Hx)); lia|].
    apply sum_upper. intros x Hx. specialize (Hu x (Hw x Hx)); lia. }
  destruct Hq as [->|Hq].
  - cbn [Z.to_nat firstn]. specialize (Bd u ltac:(auto)). unfold sum_of in *. cbn [fold_right]. lia.
  - assert (E : u = firstn (Z.to_nat t) u ++ firstn (Z.to_nat (q - t)) (skipn (Z.to_nat t) u) ++ firstn (Z.to_nat t) (skipn (Z.to_nat q) u) ++ skipn (Z.to_nat (q + t)) u).
    { rewrite <- (firstn_skipn (Z.to_nat t) u) at 1. f_equal.
      rewrite <- (firstn_skipn (Z.to_nat (q - t)) (skipn (Z.to_nat t) u)) at 1. f_equal. rewrite skipn_skipn'.
      replace (Z.to_nat t + Z.to_nat (q - t))%nat with (Z.to_nat q) by lia.
      replace (Z.to_nat (q - t) + Z.to_nat t)%nat with (Z.to_nat q) by lia.
      rewrite <- (firstn_skipn (Z.to_nat t) (skipn (Z.to_nat q) u)) at 1. f_equal. rewrite skipn_skipn'. f_equal. lia. }
    set (a := firstn (Z.to_nat t) u) in *. set (b := firstn (Z.to_nat (q - t)) (skipn (Z.to_nat t) u)) in *.
    set (d := firstn (Z.to_nat t) (skipn (Z.to_nat q) u)) in *. set (e := skipn (Z.to_nat (q + t)) u) in *.
    assert (La : len a = t) by (unfold a, len in *; rewrite firstn_length; lia).
    assert (Ld : len d = t) by (unfold d, len in *; rewrite firstn_length, skipn_length; lia).
    assert (Es : sum_of u = sum_of a + sum_of b + sum_of d + sum_of e) by (rewrite E, !sum_of_app; lia).
    assert (El : len u = len a + len b + len d + len e) by (rewrite E, !len_app; lia).
    pose proof (Bd b ltac:(intros x Hx; rewrite E; rewrite !in_app_iff; auto)).
    pose proof (Bd e ltac:(intros x Hx; rewrite E; rewrite !in_app_iff; auto)). lia.
Qed.

Section First.
  Context (p : profile) (bs : search) (r nc alpha : Z) (img : image Z).
  Hypothesis Hr : 0 <= r <= 127.
  Hypothesis Hnc : 0 < nc < 2 ^ 31.
  Hypothesis Hodd : nc mod 2 = 1.
  Hypothesis Hwf : wf img.
  Hypothesis Hu8 : samples is_u8 img.
  Notation W := (width (info_of img)).
  Notation H := (height (info_of img)).
  Notation C := (channels (info_of img)).
  Hypothesis HW : 0 < W.
  Hypothesis HWb : W + nc + r < 2 ^ 31.
  Hypothesis HH : 0 < H.
  Hypothesis HHb : H + r < 2 ^ 31.
  Notation sz := (ksize r).
  Hypothesis Ha : 0 <= alpha < sz * sz.
  Hypothesis Hev : alpha mod 2 = 0.
  Notation t := (trim alpha).

  Lemma trim_double : 2 * t = alpha.
  Proof. unfold trim. pose proof (Z.div_mod alpha 2 ltac:(lia)). lia. Qed.
  Lemma Hr14 : 0 <= r < 2 ^ 14. Proof. lia. Qed.
  Lemma sz_small : 1 <= sz <= 255 /\ 1 <= sz * sz <= 65025 /\ sz * (sz * (sz + 1)) <= 255 * (255 * 256).
  Proof. unfold ksize. assert (1 <= 2 * r + 1 <= 255) by lia. set (k := 2 * r + 1) in *. clearbody k. split; [lia|]. split; nia. Qed.

  (** row 0, m times *)
  Definition cnt0 (x0 c n s : Z) : Z := cnt (fun u => u <? s) (rowfn r img c x0 0) n (n + sz).
  Definition Lm (m x0 c n s : Z) : Z := m * cnt0 x0 c n s.

  Lemma Lm_ok m x0 c : 0 <= c < C -> 0 <= m <= sz -> Lok nc (Lm m x0 c) (sz * (sz * (sz + 1))).
  Proof.
    intros Hc Hm. pose proof sz_small as (S1 & S2 & S3).
    pose proof (rows_ok r nc img Hr14 Hwf Hu8 HW HH c x0 0 1 Hc ltac:(lia)) as [A1 A2 A3].
    assert (E : forall n s, MedianL2.rows r img c x0 0 1 n s = cnt0 x0 c n s).
    { intros n s. unfold MedianL2.rows. rewrite (Zsum_single _ 0). reflexivity. }
    constructor.
    - intros n Hn. unfold Lm. rewrite <- E, A1 by exact Hn. lia.
    - intros n s Hn Hs. unfold Lm. specialize (A2 n s Hn Hs). rewrite !E in A2. nia.
    - intros n Hn. unfold Lm. specialize (A3 n Hn). rewrite !E in A3.
      pose proof (cnt_bounds (fun u => u <? 256) (rowfn r img c x0 0) n (n + sz) ltac:(lia)) as Hb. fold (cnt0 x0 c n 256) in Hb. nia.
  Qed.

  Lemma cnt0_full x0 c n : 0 <= c < C -> cnt0 x0 c n 256 = sz.
  Proof.
    intros Hc. unfold cnt0, cnt. pose proof sz_small as (S1 & _).
    transitivity (Zsum (fun _ => 1) n (n + sz)).
    - apply Zsum_ext. intros k _. unfold b2z, rowfn. pose proof (v_u8 img Hwf Hu8 HW HH c (x0 - r + k) 0 Hc).
      destruct (Z.ltb_spec (clamped img c (x0 - r + k) 0) 256); lia.
    - rewrite Zsum_const by lia. lia.
  Qed.

  (** the first row of the image, repeated *)
  Definition row0 (c : Z) : Z -> Z -> Z := fun i _ => clamped img c i 0.

  Lemma window_row0 (q : Z -> bool) c x0 n : window_count q (row0 c) r (x0 + n) 0 = sz * cnt q (rowfn r img c x0 0) n (n + sz).
  Proof.
    unfold window_count, rect_sum, row0. rewrite Zsum_const by lia.
    replace (0 + r + 1 - (0 - r)) with sz by (unfold ksize; lia). rewrite Z.mul_comm. f_equal.
    unfold cnt, rowfn. replace (x0 + n - r) with (n + (x0 - r)) by lia. replace (x0 + n + r + 1) with (n + sz + (x0 - r)) by (unfold ksize; lia).
    rewrite Zsum_shift. apply Zsum_ext. intros k _. unfold b2z. replace (x0 - r + k) with (k + (x0 - r)) by lia. reflexivity.
  Qed.

  Lemma sorted_row0 c x0 n : in_order (fun s => Lm sz x0 c n (s + 1) - Lm sz x0 c n s) 256 = sorted_window (row0 c) r (x0 + n) 0.
  Proof.
    unfold sorted_window. apply in_order_ext. intros s _. rewrite window_row0. unfold Lm, cnt0. rewrite cnt_lt_succ. ring.
  Qed.

  Definition init_hist (m : Z) (x0 c : Z) (h : meanhist) : Prop := datrep nc (th_data h) (Lm m x0 c) /\ th_sums h = [].

  Lemma init_rows_mean_ok x0 : 0 <= x0 < W ->
    exists hs row, mfold (fun '(hs, row_in) j =>
          let! h1 := isub p I32 (cast I32 H) 1 in
          let! jc := iclamp j 0 h1 in
          let! row := row_pixels p r nc img x0 (cast U32 jc) in
          let! hs := mean_update_all p bs r nc alpha hs (row_in ++ row) 0 true in
          Ret (hs, row_in ++ row)) (zrange (- r) (r + 1)) (repeat (MeanHist (phist_new nc) [] [] []) (Z.to_nat C), []) = Ret (hs, row) /\
      len hs = C /\ teach (init_hist sz x0) 0 hs.
  Proof.
    intros Hx. pose proof (wf_c _ Hwf) as HC. pose proof sz_small as (S1 & S2 & S3).
    destruct (mfold_zrange_inv (fun j '(hs, row_in) => len hs = C /\ teach (init_hist (j + r) x0) 0 hs /\
         (j = - r /\ row_in = [] \/ forall c, 0 <= c < C -> rowok r nc row_in c (rowfn r img c x0 0)))
       (fun '(hs, row_in) j =>
          let! h1 := isub p I32 (cast I32 H) 1 in
          let! jc := iclamp j 0 h1 in
          let! row := row_pixels p r nc img x0 (cast U32 jc) in
          let! hs := mean_update_all p bs r nc alpha hs (row_in ++ row) 0 true in
          Ret (hs, row_in ++ row)) (- r) (r + 1) (repeat (MeanHist (phist_new nc) [] [] []) (Z.to_nat C), [])) as [[hs row] [E (A1 & A2 & _)]].
    - lia.
    - split; [rewrite len_repeat; lia|]. split; [|left; auto]. apply teach_repeat. intros c Hc. split; [|reflexivity].
      cbn [th_data]. unfold phist_new. split; [rewrite len_repeat; lia|].
      intros n Hn. rewrite nth_repeat' by lia. split; [reflexivity|]. intros w Hw. rewrite nth_repeat' by lia.
      unfold Lm. replace (- r + r) with 0 by lia. destruct (n =? n_half nc); lia.
    - intros j [hs row_in] Hj (A1 & A2 & A3). rewrite (cast_id I32 H) by ity_lia. rewrite isub_ok by ity_lia. rewrite bind_Ret, iclamp_eq, bind_Ret by assumption.
      pose proof (clamp_in H j HH) as Hcl. rewrite cast_id by ity_lia.
      destruct (row_pixels_ok p r nc img Hr14 Hnc Hwf Hu8 HW HWb HH x0 (clamp_to H j) Hx Hcl) as [pxs [E1 E2]].
      rewrite E1, bind_Ret.
      assert (Hrow : forall c, 0 <= c < C -> rowok r nc (row_in ++ pxs) c (rowfn r img c x0 0)).
      { intros c Hc. destruct A3 as [[-> ->]|A3].
        - cbn [app]. specialize (E2 c Hc). replace (clamp_to H (- r)) with 0 in E2 by (unfold clamp_to; lia). exact E2.
        - apply rowok_app. apply A3. exact Hc. }
      destruct (mean_update_all_ok p bs r nc alpha (init_hist (j + r) x0) (init_hist (j + 1 + r) x0) (row_in ++ pxs) true hs 0 A2) as [hs' [E3 [E4 E5]]].
      { intros c h Hc [D1 D2]. rewrite Z.add_0_l, A1 in Hc.
        unfold meanhist_update. rewrite D2. change (len (@nil Z) =? 0) with true. cbn [negb].
        destruct (data_update_ok p r nc Hr14 Hnc Hodd (th_data h) (Lm (j + r) x0 c) (sz * (sz * (sz + 1))) (row_in ++ pxs) c (rowfn r img c x0 0) true D1) as [d' [F1 F2]].
        - apply Lm_ok; [exact Hc|unfold ksize; lia].
        - cbn [hi I32]. lia.
        - apply Hrow. exact Hc.
        - rewrite F1, bind_Ret. eexists. split; [reflexivity|]. split; [|exact D2]. cbn [th_data set_data].
          eapply datrep_ext; [exact Hnc|exact Hodd|exact F2|]. intros n s _ _. unfold moved, Lm, cnt0. ring. }
      rewrite E3, bind_Ret. eexists. split; [reflexivity|]. split; [lia|]. split; [exact E5|right; exact Hrow].
    - exists hs, row. split; [exact E|]. split; [exact A1|]. replace sz with (r + 1 + r) by (unfold ksize; lia). exact A2.
  Qed.

  (** the state of the histograms after the first row, for a column *)
  Definition srt (x0 c n : Z) : list Z := sorted_window (row0 c) r (x0 + n) 0.
  Definition low1 (x0 c n : Z) : list Z := firstn (Z.to_nat t) (srt x0 c n).
  Definition upp1 (x0 c n : Z) : list Z := firstn (Z.to_nat t) (skipn (Z.to_nat (upper_cut (srt x0 c n) alpha)) (srt x0 c n)).
  Definition sum1 (x0 c n : Z) : Z := sum_of (srt x0 c n) - sum_of (low1 x0 c n) - sum_of (upp1 x0 c n).
  Definition mean1 (x0 c n : Z) : Z := first_row_mean (srt x0 c n) alpha.

  Definition first_hist (x0 i c : Z) (h : meanhist) : Prop :=
    datrep nc (th_data h) (Lm sz x0 c) /\ len (th_sums h) = nc /\ len (th_lower h) = nc /\ len (th_upper h) = nc /\
    forall n, 0 <= n < i -> nth (Z.to_nat n) (th_sums h) 0 = sum1 x0 c n /\ nth (Z.to_nat n) (th_lower h) [] = low1 x0 c n /\
      nth (Z.to_nat n) (th_upper h) [] = rev (upp1 x0 c n).

  Lemma mean_first_ok x0 c i h : 0 <= c < C -> 0 <= i < nc -> first_hist x0 i c h ->
    exists h', mean_first p r nc alpha (sz * sz - t) i h = Ret (h', mean1 x0 c i) /\ first_hist x0 (i + 1) c h'.
  Proof.
    intros Hc Hi (D & L1 & L2 & L3 & Hn). pose proof sz_small as (S1 & S2 & S3).
    assert (Lf : Lm sz x0 c i 256 = sz * sz) by (unfold Lm; rewrite cnt0_full by exact Hc; reflexivity).
    pose proof (Lm_ok sz x0 c Hc ltac:(lia)) as HL.
    destruct (upper_cut_ok nc (Lm sz x0 c) _ i alpha HL Hi) as [Q1 Q2]; [rewrite Lf; lia|].
    unfold mean_first.
    assert (Lsrt : len (srt x0 c i) = sz * sz).
    { unfold srt. rewrite <- sorted_row0. rewrite (P_len nc (Lm sz x0 c) _ i HL Hi) by lia. exact Lf. }
    assert (Sb : 0 <= sum1 x0 c i <= 255 * (sz * sz - alpha)).
    { assert (Et : sz * sz - alpha = sz * sz - 2 * t) by (rewrite trim_double; reflexivity). rewrite Et.
      rewrite <- Lsrt. unfold sum1, low1, upp1. apply kept_bounds.
      - intros x Hx. unfold srt, sorted_window in Hx. apply in_order_lt in Hx. lia.
      - split; [lia|]. unfold srt. rewrite <- sorted_row0. exact Q1.
      - rewrite Lsrt. unfold srt. rewrite <- sorted_row0. destruct Q2 as [Q2|[k (K1 & K2 & K3)]]; [left; exact Q2|right].
        rewrite K3, <- Lf. lia. }
    rewrite <- Lf. rewrite (scan_ok p nc alpha Hnc Hodd (th_data h) (Lm sz x0 c) (sz * (sz * (sz + 1))) i D HL) with (q := upper_cut (srt x0 c i) alpha).
    - rewrite bind_Ret. unfold scan_state. rewrite sorted_row0. fold (srt x0 c i). fold (low1 x0 c i). fold (upp1 x0 c i). fold (sum1 x0 c i).
      cbv beta iota.
      rewrite (vset_ok (th_sums h)) by lia. rewrite bind_Ret. rewrite (vset_ok (th_upper h)) by lia. rewrite bind_Ret.
      rewrite (vset_ok (th_lower h)) by lia. rewrite bind_Ret. cbv zeta. unfold get_mean. cbn [th_sums].
      rewrite (vget_ok _ i 0) by (rewrite len_upd; lia). rewrite bind_Ret.
      rewrite nth_upd by (unfold len in *; lia). rewrite Nat.eqb_refl.
      assert (Ek : kept r alpha = sz * sz - alpha).
      { unfold kept. rewrite (cast_id USIZE (sz * sz)) by ity_lia. rewrite cast_id by ity_lia. reflexivity. }
      rewrite Ek, mean_byte by lia. rewrite bind_Ret. eexists. split.
      + f_equal. f_equal. unfold mean1, first_row_mean, rounded_quotient. rewrite Lsrt. unfold sum1, low1, upp1, part.
        replace (Z.to_nat (alpha / 2 - 0)) with (Z.to_nat t) by (unfold trim; f_equal; lia). cbn [Z.to_nat skipn].
        replace (upper_cut (srt x0 c i) alpha + alpha / 2 - upper_cut (srt x0 c i) alpha) with t by (unfold trim; lia). reflexivity.
      + split; [exact D|]. cbn [th_sums th_lower th_upper]. rewrite !len_upd. split; [exact L1|]. split; [exact L2|]. split; [exact L3|].
        intros n Hn'. rewrite !nth_upd by (unfold len in *; lia). destruct (Nat.eqb_spec (Z.to_nat n) (Z.to_nat i)) as [En|En].
        * assert (n = i) by lia. subst n. auto.
        * apply Hn. lia.
    - cbn [hi I32]. lia.
    - exact Hi.
    - rewrite Lf. lia.
    - rewrite Lf. cbn [hi I32]. lia.
    - unfold srt. rewrite <- sorted_row0. exact Q1.
    - unfold srt. rewrite <- sorted_row0. exact Q2.
  Qed.

  Lemma meanhist_new_ok : meanhist_new p r nc alpha = Ret (MeanHist (phist_new nc) [] [] []).
  Proof.
    unfold meanhist_new. pose proof sz_small as (S1 & S2 & S3). rewrite imul_ok by ity_lia. rewrite bind_Ret.
    rewrite isub_ok by ity_lia. reflexivity.
  Qed.

  Lemma init_cols_mean_ok x0 out : 0 <= x0 < W -> wf out -> info_of out = info_of img ->
    exists out' hs', init_cols_mean p bs r nc alpha img out (repeat (MeanHist (phist_new nc) [] [] []) (Z.to_nat C)) x0 = Ret (out', hs') /\
      wf out' /\ info_of out' = info_of img /\ len hs' = C /\ teach (first_hist x0 nc) 0 hs' /\
      forall x y', inside img x y' -> pixel_at out' x y' =
        if (y' =? 0) && (x0 <=? x) && (x <? x0 + nc) then pixel img (mean1 x0) (lastcol img (x0 + nc) x - x0) else pixel_at out x y'.
  Proof.
    intros Hx Hwo Hio. unfold init_cols_mean. pose proof sz_small as (S1 & S2 & S3).
    rewrite imul_ok by ity_lia. rewrite bind_Ret. rewrite iadd_ok by ity_lia. rewrite bind_Ret.
    rewrite !(cast_id I32 r) by ity_lia. unfold ineg; rewrite arith_ok by ity_lia. rewrite bind_Ret. rewrite iadd_ok by ity_lia. rewrite bind_Ret.
    destruct (init_rows_mean_ok x0 Hx) as [hs [row [E [L1 L2]]]]. rewrite E, bind_Ret.
    change (2 * r + 1) with sz. rewrite imul_ok by ity_lia. rewrite bind_Ret.
    pose proof trim_double as T2. rewrite isub_ok by ity_lia. rewrite bind_Ret.
    apply (mean_row_ok p nc img Hnc Hwf HW ltac:(lia) (mean_first p r nc alpha (sz * sz - t)) (first_hist x0) (mean1 x0) x0 out (map (mean_init nc) hs) 0).
    - exact Hx.
    - lia.
    - intros c i h Hc Hi HJ. apply mean_first_ok; assumption.
    - exact Hwo.
    - exact Hio.
    - rewrite len_map. exact L1.
    - eapply teach_map; [exact L2|]. intros c h [D1 D2]. unfold mean_init. split; [exact D1|]. cbn [th_sums th_lower th_upper].
      rewrite !len_repeat. split; [lia|]. split; [lia|]. split; [lia|]. intros n Hn. lia.
  Qed.

  (** blocks of columns, for any description M of what a block shows *)
  Lemma mean_blocks_ok (M : Z -> Z -> Z -> Z) :
    (forall x0 out, 0 <= x0 < W -> wf out -> info_of out = info_of img ->
       exists out', process_cols_mean p bs r nc alpha img out x0 = Ret out' /\ wf out' /\ info_of out' = info_of img /\
         forall x y, inside img x y -> pixel_at out' x y =
           if (x0 <=? x) && (x <? x0 + nc) then map (fun c => M c (lastcol img (x0 + nc) x) y) (zrange 0 C) else pixel_at out x y) ->
    exists out, mfold (fun output x => process_cols_mean p bs r nc alpha img output x) (zrange_step_pos 0 W nc)
        (Image (info_of img) (repeat 0 (Z.to_nat (W * H * C)))) = Ret out /\
      wf out /\ info_of out = info_of img /\
      forall x y, inside img x y -> pixel_at out x y = map (fun c => M c (shown_column W nc x) y) (zrange 0 C).
  Proof.
    intros Hblk. set (N := (W - 0 + nc - 1) / nc).
    assert (HN : 0 <= N) by (apply Z.div_pos; lia).
    assert (Hlow : nc * (N - 1) < W /\ W <= nc * N).
    { pose proof (Z.div_mod (W - 0 + nc - 1) nc ltac:(lia)) as Hdm. pose proof (Z.mod_pos_bound (W - 0 + nc - 1) nc ltac:(lia)) as Hmb.
      fold N in Hdm. clear - Hdm Hmb Hnc. nia. }
    assert (EN : (W - 1) / nc = N - 1).
    { symmetry. apply (Z.div_unique_pos _ _ _ (W - 1 - nc * (N - 1))); clear - Hlow Hnc; nia. }
    unfold zrange_step_pos. fold N.
    replace (map (fun k => 0 + nc * Z.of_nat k) (seq 0 (Z.to_nat N))) with (map (fun k => nc * k) (zrange 0 N)).
    2:{ unfold zrange. rewrite map_map. replace (N - 0) with N by lia. apply map_ext. intros; lia. }
    rewrite mfold_map.
    destruct (mfold_zrange_inv (fun k o => wf o /\ info_of o = info_of img /\
        forall x y, inside img x y -> x < nc * k -> pixel_at o x y = map (fun c => M c (shown_column W nc x) y) (zrange 0 C))
      (fun output k => process_cols_mean p bs r nc alpha img output (nc * k)) 0 N
        (Image (info_of img) (repeat 0 (Z.to_nat (W * H * C))))) as [o [E (A1 & A2 & A3)]].
    - exact HN.
    - split; [apply (blank_wf num_u8); apply wf_info_ok; exact Hwf|]. split; [reflexivity|]. intros x y [Hx _] Hlt. lia.
    - intros k o Hk (A1 & A2 & A3).
      assert (Hx0 : 0 <= nc * k < W) by (clear - Hk Hlow Hnc; nia).
      destruct (Hblk (nc * k) o Hx0 A1 A2) as [o' (E & B1 & B2 & B3)]. rewrite E. exists o'. split; [reflexivity|].
      split; [exact B1|]. split; [exact B2|]. intros x y Hin Hlt. rewrite B3 by exact Hin.
      destruct (Z.leb_spec (nc * k) x) as [G1|G1]; destruct (Z.ltb_spec x (nc * k + nc)) as [G2|G2]; cbn [andb]; try lia.
      + apply map_ext. intros c. f_equal. unfold lastcol, shown_column. destruct (Z.eqb_spec x (W - 1)) as [Ex|]; [|reflexivity].
        rewrite EN. assert (k = N - 1) by (clear - Hlow Ex Hk Hlt Hnc G1 G2; nia). subst k. lia.
      + apply A3; assumption.
    - exists o. split; [exact E|]. split; [exact A1|]. split; [exact A2|]. intros x y Hin. apply A3; [exact Hin|].
      destruct Hin. lia.
  Qed.

  (** a one-row image *)
  Lemma process_cols_mean_one x0 out : H = 1 -> 0 <= x0 < W -> wf out -> info_of out = info_of img ->
    exists out', process_cols_mean p bs r nc alpha img out x0 = Ret out' /\ wf out' /\ info_of out' = info_of img /\
      forall x y, inside img x y -> pixel_at out' x y =
        if (x0 <=? x) && (x <? x0 + nc) then map (fun c => first_row_mean (sorted_window (row0 c) r (lastcol img (x0 + nc) x) 0) alpha) (zrange 0 C) else pixel_at out x y.
  Proof.
    intros H1 Hx Hwo Hio. unfold process_cols_mean. rewrite meanhist_new_ok, bind_Ret. cbv zeta.
    destruct (init_cols_mean_ok x0 out Hx Hwo Hio) as [o [hs (E & A1 & A2 & A3 & A4 & A5)]]. rewrite E, bind_Ret.
    rewrite zrange_nil by lia. cbn [mfold]. rewrite bind_Ret. exists o. split; [reflexivity|]. split; [exact A1|]. split; [exact A2|].
    intros x y Hin. rewrite A5 by exact Hin. destruct Hin as [_ Hy]. assert (y = 0) by lia. subst y. cbn [Z.eqb andb].
    destruct ((x0 <=? x) && (x <? x0 + nc)); [|reflexivity]. unfold pixel. apply map_ext. intros c. unfold mean1, srt. do 2 f_equal. lia.
  Qed.
End First.
