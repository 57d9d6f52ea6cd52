(** Lemmas about Model/Trimmed.v: every row of the image. *)
From Verif.Model Require Import Base Float Image Median Trimmed.
From Verif.Spec Require Import ImageS SumS MedianS TrimmedS TrimmedRowsS.
From Verif.Proofs Require Import BaseL ImageL ImageOps SumL LoopL FloatL FloatL2 MedianL MedianL2 MedianL3 MeanL TrimmedL TrimmedL2 TrimmedL3 TrimmedL6.
From Verif.Props Require Import FloatP.
From Flocq Require Import Core BinarySingleNaN.
From Coq Require Import Reals Lra.
Open Scope Z_scope.

Lemma rnd32_Z z : Z.abs z <= 2 ^ 24 -> rnd32 (IZR z) = IZR z.
Proof. intros Hz. unfold rnd32. apply rnd_Z. exact Hz. Qed.
Lemma rnd32_fmt x : generic_format radix2 (SpecFloat.fexp 24 128) x -> rnd32 x = x.
Proof. intros Hx. unfold rnd32. apply rnd_fmt. exact Hx. Qed.

Lemma big31 : (IZR (2 ^ 31) <= bpow radix2 (128 - 1))%R.
Proof. change (IZR (2 ^ 31)) with (bpow radix2 31). apply bpow_le. lia. Qed.

(** the mean, whatever the sum *)
Lemma mean_any s n : 0 < n <= 65535 -> - 2 ^ 31 <= s <= 2 ^ 31 ->
  f32_to_int U8 (f32_round (f32_div (f32_of_Z s) (f32_of_Z n))) = Z.max 0 (Z.min 255 (rounded_quotient s n)).
Proof.
  intros Hn Hs. unfold rounded_quotient. destruct (Z_lt_ge_dec s 0) as [Hneg|Hpos]; [|destruct (Z_le_gt_dec s (255 * n)) as [Hle|Hgt]].
  3:{ assert (Hq : 255 <= (2 * s + n) / (2 * n)) by (apply Z.div_le_lower_bound; lia).
      unfold f32_to_int, f32_round. rewrite (round_to_byte (f32_div (f32_of_Z s) (f32_of_Z n))).
      assert (HnR : (0 < IZR n)%R) by (apply IZR_lt; lia).
      assert (Fs : fin (f32_of_Z s) (rnd32 (IZR s))) by (apply of_Z_fin; lia).
      assert (R0 : (rnd32 (IZR (255 * n)) <= rnd32 (IZR s))%R) by (apply rnd_le, IZR_le; lia).
      rewrite (rnd32_Z (255 * n)) in R0 by lia. rewrite mult_IZR in R0.
      assert (R1 : (rnd32 (IZR s) <= IZR (2 ^ 31))%R).
      { rewrite <- (rnd32_fmt (IZR (2 ^ 31))); [apply rnd_le, IZR_le; lia|].
        change (IZR (2 ^ 31)) with (bpow radix2 31). apply generic_format_bpow. unfold SpecFloat.fexp, SpecFloat.emin. lia. }
      assert (F : fin (f32_div (f32_of_Z s) (f32_of_Z n)) (rnd32 (rnd32 (IZR s) / IZR n))).
      { apply div_fin; [exact Fs|apply of_Z_isZ; lia|lra|].
        assert (0 <= rnd32 (IZR s) / IZR n <= IZR (2 ^ 31))%R as [D1 D2].
        { split; [apply Rmult_le_pos; [lra|left; apply Rinv_0_lt_compat; exact HnR]|].
          apply Rmult_le_reg_r with (IZR n); [exact HnR|]. unfold Rdiv. rewrite Rmult_assoc, Rinv_l, Rmult_1_r by lra.
          assert (1 <= IZR n)%R by (apply IZR_le; lia). assert (0 <= IZR (2 ^ 31))%R by (apply IZR_le; lia). nra. }
        rewrite Rabs_pos_eq by exact D1. eapply Rle_trans; [exact D2|]. exact big31. }
      assert (V : (255 <= rnd32 (rnd32 (IZR s) / IZR n))%R).
      { rewrite <- (rnd32_Z 255) by lia. apply rnd_le.
        apply Rmult_le_reg_r with (IZR n); [exact HnR|]. unfold Rdiv. rewrite Rmult_assoc, Rinv_l, Rmult_1_r by lra. lra. }
      destruct F as [F1 F2].
      assert (B : byte_of (f32_div (f32_of_Z s) (f32_of_Z n)) = byte_of_real (rnd32 (rnd32 (IZR s) / IZR n))).
      { rewrite <- F2. destruct (f32_div (f32_of_Z s) (f32_of_Z n)); try discriminate; reflexivity. }
      rewrite B. unfold byte_of_real. assert (255 <= Zfloor (rnd32 (rnd32 (IZR s) / IZR n) + / 2)) by (apply Zfloor_lub; lra). lia. }
  - assert (Hq : (2 * s + n) / (2 * n) <= 0) by (apply Z.lt_succ_r; apply Z.div_lt_upper_bound; lia).
    unfold f32_to_int, f32_round. rewrite (round_to_byte (f32_div (f32_of_Z s) (f32_of_Z n))).
    assert (HnR : (0 < IZR n)%R) by (apply IZR_lt; lia).
    assert (Fs : fin (f32_of_Z s) (rnd32 (IZR s))) by (apply of_Z_fin; lia).
    assert (R0 : (rnd32 (IZR s) <= 0)%R).
    { rewrite <- (rnd32_Z 0) by lia. apply rnd_le, IZR_le; lia. }
    assert (R1 : (IZR (- 2 ^ 31) <= rnd32 (IZR s))%R).
    { rewrite <- (rnd32_fmt (IZR (- 2 ^ 31))); [apply rnd_le, IZR_le; lia|].
      rewrite opp_IZR. apply generic_format_opp. change (IZR (2 ^ 31)) with (bpow radix2 31). apply generic_format_bpow. unfold SpecFloat.fexp, SpecFloat.emin. lia. }
    rewrite opp_IZR in R1.
    assert (F : fin (f32_div (f32_of_Z s) (f32_of_Z n)) (rnd32 (rnd32 (IZR s) / IZR n))).
    { apply div_fin; [exact Fs|apply of_Z_isZ; lia|lra|].
      assert (- IZR (2 ^ 31) <= rnd32 (IZR s) / IZR n <= 0)%R as [D1 D2].
      { assert (1 <= IZR n)%R by (apply IZR_le; lia). assert (0 <= IZR (2 ^ 31))%R by (apply IZR_le; lia). split.
        - apply Rmult_le_reg_r with (IZR n); [exact HnR|]. unfold Rdiv. rewrite Rmult_assoc, Rinv_l, Rmult_1_r by lra. nra.
        - apply Rmult_le_reg_r with (IZR n); [exact HnR|]. unfold Rdiv. rewrite Rmult_assoc, Rinv_l, Rmult_1_r by lra. lra. }
      rewrite Rabs_left1 by exact D2. apply Rle_trans with (IZR (2 ^ 31)); [lra|]. exact big31. }
    assert (V : (rnd32 (rnd32 (IZR s) / IZR n) <= 0)%R).
    { rewrite <- (rnd32_Z 0) by lia. apply rnd_le.
      apply Rmult_le_reg_r with (IZR n); [exact HnR|]. unfold Rdiv. rewrite Rmult_assoc, Rinv_l, Rmult_1_r by lra. lra. }
    destruct F as [F1 F2].
    assert (B : byte_of (f32_div (f32_of_Z s) (f32_of_Z n)) = byte_of_real (rnd32 (rnd32 (IZR s) / IZR n))).
    { rewrite <- F2. destruct (f32_div (f32_of_Z s) (f32_of_Z n)); try discriminate; reflexivity. }
    rewrite B. unfold byte_of_real. assert (Zfloor (rnd32 (rnd32 (IZR s) / IZR n) + / 2) < 1).
    { apply lt_IZR. eapply Rle_lt_trans; [apply Zfloor_lb|]. lra. }
    lia.
  - rewrite mean_byte by lia. assert (0 <= (2 * s + n) / (2 * n)) by (apply Z.div_pos; lia).
    assert ((2 * s + n) / (2 * n) <= 255) by (apply Z.lt_succ_r; apply Z.div_lt_upper_bound; lia). lia.
Qed.

(** ** counting *)
Lemma zrange_shift a b k : zrange (a + k) (b + k) = map (fun i => i + k) (zrange a b).
Proof. unfold zrange. rewrite map_map. replace (b + k - (a + k)) with (b - a) by lia. apply map_ext. intros. lia. Qed.

Lemma occ_row v r x y s : occurrences s (window_row v r x y) = Zsum (fun i => if v i y =? s then 1 else 0) (x - r) (x + r + 1).
Proof. unfold occurrences, window_row. rewrite (occ_cnt (fun q => q =? s) (fun i => v i y)). reflexivity. Qed.
Lemma counted_rows v r x j s : counted v r x j s =
  Zsum (fun y => occurrences s (window_row v r x y)) (j - r) (j + r + 1) + Zsum (fun k => occurrences s (window_row v r x 0) - occurrences s (window_row v r x k)) 1 (r + 1).
Proof.
  unfold counted. f_equal. unfold window_count, rect_sum. apply Zsum_ext. intros y _. symmetry. apply occ_row.
Qed.
Lemma counted_step v r x j s : 0 <= r -> counted v r x (j + 1) s =
  counted v r x j s + occurrences s (window_row v r x (j + 1 + r)) - occurrences s (window_row v r x (j - r)).
Proof.
  intros Hr. rewrite !counted_rows. replace (j + 1 + r + 1) with (j + r + 1 + 1) by lia. rewrite Zsum_snoc by lia.
  rewrite (Zsum_cons _ (j - r) (j + r + 1)) by lia. replace (j - r + 1) with (j + 1 - r) by lia. replace (j + 1 + r) with (j + r + 1) by lia. lia.
Qed.
Lemma occ_row_bounds v r x y s : 0 <= r -> 0 <= occurrences s (window_row v r x y) <= 2 * r + 1.
Proof.
  intros Hr. unfold occurrences, window_row. rewrite (occ_cnt (fun q => q =? s) (fun i => v i y)).
  pose proof (cnt_bounds (fun q => q =? s) (fun i => v i y) (x - r) (x + r + 1) ltac:(lia)). lia.
Qed.
Lemma counted_bound v r x j s : 0 <= r <= 127 -> Z.abs (counted v r x j s) <= 900000.
Proof.
  intros Hr. rewrite counted_rows.
  pose proof (Zsum_abs (fun k => occurrences s (window_row v r x 0) - occurrences s (window_row v r x k)) 1 (r + 1)) as A.
  pose proof (Zsum_upper (fun k => Z.abs (occurrences s (window_row v r x 0) - occurrences s (window_row v r x k))) 1 (r + 1) (2 * r + 1) ltac:(lia)) as B.
  assert (B' := B ltac:(intros k _; cbn beta; pose proof (occ_row_bounds v r x 0 s ltac:(lia)); pose proof (occ_row_bounds v r x k s ltac:(lia)); lia)).
  pose proof (Zsum_nonneg (fun y => occurrences s (window_row v r x y)) (j - r) (j + r + 1) ltac:(intros k _; apply occ_row_bounds; lia)) as C.
  pose proof (Zsum_upper (fun y => occurrences s (window_row v r x y)) (j - r) (j + r + 1) (2 * r + 1) ltac:(lia) ltac:(intros k _; apply occ_row_bounds; lia)) as D.
    assert ((2 * r + 1) * (r + 1 - 1) <= 255 * 127) by (clear - Hr; nia). replace (j + r + 1 - (j - r)) with (2 * r + 1) in D by lia. assert ((2 * r + 1) * (2 * r + 1) <= 255 * 255) by (clear - Hr; nia). cbv beta in A. clear B. lia.
Qed.

Lemma find_ext' {A} (f g : A -> bool) l : (forall x, f x = g x) -> find f l = find g l.
Proof. intros H. induction l as [|x l IH]; [reflexivity|]. cbn [find]. rewrite H, IH. reflexivity. Qed.
Lemma leave_ext bs t f g v rest w : (forall s, f s = g s) -> leave bs t f v rest w = leave bs t g v rest w.
Proof.
  intros H. unfold leave. destruct w as [s low high]. destruct (item low (t - 1)) as [l|]; [|reflexivity]. destruct (item high (t - 1)) as [h|]; [|reflexivity].
  rewrite !H. unfold refill_low, refill_high.
  rewrite !(find_ext' (fun k => 0 <? f k) (fun k => 0 <? g k)) by (intros k; rewrite H; reflexivity).
  reflexivity.
Qed.
Lemma leave_all_ext bs t f g row : forall w, (forall s, f s = g s) -> leave_all bs t f row w = leave_all bs t g row w.
Proof.
  induction row as [|v row IH]; intros w H; [reflexivity|]. cbn [leave_all]. rewrite (leave_ext bs t f g) by exact H.
  destruct (leave bs t g v (v :: row) w); [apply IH; exact H|reflexivity].
Qed.

Lemma mean_update_all_inv p bs r nc alpha (Q Q' : Z -> meanhist -> Prop) p_in add hs : forall c0 hs', teach Q c0 hs ->
  (forall c h h', c0 <= c < c0 + len hs -> Q c h -> meanhist_update p bs r nc alpha h p_in c add = Ret h' -> Q' c h') ->
  mean_update_all p bs r nc alpha hs p_in c0 add = Ret hs' -> len hs' = len hs /\ teach Q' c0 hs'.
Proof.
  induction hs as [|h hs IH]; intros c0 hs' HQ Hstep E; cbn [mean_update_all] in E.
  - injection E as <-. split; [reflexivity|apply teach_nil].
  - apply teach_cons in HQ as [H1 H2]. pose proof (len_nonneg hs). rewrite len_cons in *.
    apply bind_inv in E as [h' [E1 E]]. apply bind_inv in E as [hs1 [E2 E]]. injection E as <-.
    destruct (IH (c0 + 1) hs1 H2) as [L T]; [|exact E2|].
    + intros c h0 h0' Hc HQ0 E0. apply (Hstep c h0 h0'); [lia|exact HQ0|exact E0].
    + rewrite len_cons. split; [lia|]. apply teach_cons. split; [|exact T]. apply (Hstep c0 h h'); [lia|exact H1|exact E1].
Qed.

Section Run.
  Context (p : profile) (bs : search) (r nc alpha : Z) (img : image Z).
  Hypothesis Hr : 0 <= r <= 127.
  Hypothesis Hnc : 0 < nc < 2 ^ 31.
  Hypothesis Hodd : nc mod 2 = 1.
  Hypothesis Hwf : wf img.
  Hypothesis Hu8 : samples is_u8 img.
  Notation W := (width (info_of img)).
  Notation H := (height (info_of img)).
  Notation C := (channels (info_of img)).
  Hypothesis HW : 0 < W.
  Hypothesis HWb : W + nc + r < 2 ^ 31.
  Hypothesis HH : 0 < H.
  Hypothesis HHb : H + r < 2 ^ 31.
  Notation sz := (ksize r).
  Hypothesis Ha : 2 <= alpha < sz * sz.
  Hypothesis Hev : alpha mod 2 = 0.
  Notation t := (alpha / 2).
  Notation v c := (clamped img c).

  Lemma Ha' : 2 <= alpha <= 65025.
  Proof. pose proof (sz_small r Hr) as (S1 & S2 & S3). lia. Qed.

  Lemma row_eq c x0 n y : map (rowfn r img c x0 y) (zrange n (n + sz)) = window_row (v c) r (x0 + n) y.
  Proof.
    unfold window_row. replace (x0 + n - r) with (n + (x0 - r)) by lia. replace (x0 + n + r + 1) with (n + sz + (x0 - r)) by (unfold ksize; lia).
    rewrite zrange_shift, map_map. apply map_ext. intros k. unfold rowfn. f_equal. lia.
  Qed.
  Lemma row_eq_clamp c x0 n y : map (rowfn r img c x0 (clamp_to H y)) (zrange n (n + sz)) = window_row (v c) r (x0 + n) y.
  Proof. rewrite <- row_eq. apply map_ext. intros k. apply (rowfn_clamp r img HH). Qed.

  Definition KK (c x0 j n s : Z) : Z := counted (v c) r (x0 + n) j s.
  Lemma KK_ok c x0 j : Kok nc (KK c x0 j).
  Proof. intros n s _ _. unfold KK, Kmax. pose proof (counted_bound (v c) r (x0 + n) j s Hr). lia. Qed.

  Definition rowst (x0 j c : Z) (h : meanhist) : Prop := exists st, hrel nc alpha h (KK c x0 j) st /\
    forall n, 0 <= n < nc -> state_after bs (v c) r alpha (x0 + n) (Z.to_nat j) = Some (st n).

  Lemma hrel_K h K K' st : hrel nc alpha h K st -> (forall n s, K n s = K' n s) -> hrel nc alpha h K' st.
  Proof.
    intros (A & B) E. split; [|exact B]. eapply rep_ext; [exact A|]. intros n s _ _. cbn beta. rewrite !E. reflexivity.
  Qed.

  Lemma srt_facts x0 c n : 0 <= c < C -> 0 <= n < nc -> len (srt r img x0 c n) = sz * sz /\ (forall s, In s (srt r img x0 c n) -> 0 <= s < 256).
  Proof.
    intros Hc Hn. split.
    - assert (Lf : Lm r img sz x0 c n 256 = sz * sz) by (unfold Lm; rewrite (cnt0_full r img) by (try assumption; lia); reflexivity).
      pose proof (Lm_ok r nc img Hr Hwf Hu8 HW HH sz x0 c Hc ltac:(unfold ksize; lia)) as HL.
      unfold srt. rewrite <- (sorted_row0 r img Hr). rewrite (P_len nc (Lm r img sz x0 c) _ n HL Hn) by lia. exact Lf.
    - intros s Hs. unfold srt, sorted_window in Hs. apply in_order_lt in Hs. exact Hs.
  Qed.

  Lemma sum_bytes (u : list Z) : (forall s, In s u -> 0 <= s < 256) -> 0 <= sum_of u <= 255 * len u.
  Proof.
    intros Hu. split; [apply sum_nonneg; intros s Hs; specialize (Hu s Hs); lia|]. apply sum_upper. intros s Hs. specialize (Hu s Hs). lia.
  Qed.

  Lemma first_rowst x0 c h : 0 <= c < C -> first_hist r nc alpha img x0 nc c h -> rowst x0 0 c h.
  Proof.
    intros Hc (D & L1 & L2 & L3 & Hn). pose proof (sz_small r Hr) as (S1 & S2 & S3). pose proof (t_bounds alpha Ha') as [T1 T2].
    exists (fun n => first_state (v c) r alpha (x0 + n)). split; [|intros n _; reflexivity].
    split.
    { eapply rep_ext; [exact D|]. intros n s Hnn Hs. cbn beta.
      assert (E : forall m, Lm r img sz x0 c m (s + 1) - Lm r img sz x0 c m s = KK c x0 0 m s).
      { intros m. unfold Lm, cnt0. rewrite cnt_lt_succ. unfold KK. rewrite counted_rows.
        assert (Eo : cnt (fun u => u =? s) (rowfn r img c x0 0) m (m + sz) = occurrences s (window_row (v c) r (x0 + m) 0)).
        { rewrite <- row_eq. unfold occurrences. rewrite occ_cnt. reflexivity. }
        rewrite Eo. set (o := fun y => occurrences s (window_row (v c) r (x0 + m) y)). change (occurrences s (window_row (v c) r (x0 + m) 0)) with (o 0).
        change (Zsum (fun y => occurrences s (window_row (v c) r (x0 + m) y)) (0 - r) (0 + r + 1)) with (Zsum o (0 - r) (0 + r + 1)).
        assert (En : forall y, y <= 0 -> o y = o 0).
        { intros y Hy. unfold o. rewrite <- !row_eq. f_equal. apply map_ext. intros k. rewrite <- (rowfn_clamp r img HH c x0 y k). f_equal. unfold clamp_to. lia. }
        rewrite (Zsum_app _ (0 - r) 1 (0 + r + 1)) by lia.
        rewrite (Zsum_ext _ (fun _ => o 0) (0 - r) 1) by (intros k Hk; apply En; lia). rewrite Zsum_const by lia.
        change (Zsum (fun k => occurrences s (window_row (v c) r (x0 + m) 0) - occurrences s (window_row (v c) r (x0 + m) k)) 1 (r + 1)) with (Zsum (fun k => o 0 - o k) 1 (r + 1)).
        rewrite (Zsum_ext (fun k => o 0 - o k) (fun k => o 0 + -1 * o k)) by (intros; lia). rewrite Zsum_add, Zsum_mul, Zsum_const by lia.
        replace (0 + r + 1) with (r + 1) by lia. unfold ksize. ring. }
      rewrite !E. destruct (Z.eqb_spec n (n_half nc)) as [En0|]; [rewrite En0|]; reflexivity. }
    split; [exact L1|]. split; [exact L2|]. split; [exact L3|]. intros n Hnn. destruct (Hn n Hnn) as (A1 & A2 & A3).
    destruct (srt_facts x0 c n Hc Hnn) as [F1 F2]. 
    assert (I1 : forall s, In s (low1 r alpha img x0 c n) -> 0 <= s < 256).
    { intros s Hs. apply F2. unfold low1 in Hs. rewrite <- part_start in Hs. apply part_in in Hs. exact Hs. }
    assert (P2 : upp1 r alpha img x0 c n = part (srt r img x0 c n) (upper_cut (srt r img x0 c n) alpha) (upper_cut (srt r img x0 c n) alpha + t)).
    { unfold upp1, part. f_equal. unfold trim. f_equal. lia. }
    assert (I2 : forall s, In s (upp1 r alpha img x0 c n) -> 0 <= s < 256).
    { intros s Hs. apply F2. rewrite P2 in Hs. apply part_in in Hs. exact Hs. }
    assert (B1 : len (low1 r alpha img x0 c n) <= t) by (unfold low1, len, trim in *; rewrite firstn_length; lia).
    assert (B2 : len (upp1 r alpha img x0 c n) <= t) by (unfold upp1, len, trim in *; rewrite firstn_length; lia).
    pose proof (sum_bytes _ F2) as S4. pose proof (sum_bytes _ I1) as S5. pose proof (sum_bytes _ I2) as S6.
    assert (Es : first_state (v c) r alpha (x0 + n) = WindowState (sum1 r alpha img x0 c n) (low1 r alpha img x0 c n) (rev (upp1 r alpha img x0 c n))).
    { unfold first_state. cbv zeta. rewrite part_start. change (sorted_window (fun i _ => v c i 0) r (x0 + n) 0) with (srt r img x0 c n). rewrite <- P2. reflexivity. }
    rewrite Es. cbn [ws_sum ws_low ws_high]. split; [exact A1|]. split; [exact A2|]. split; [exact A3|].
    unfold wok. cbn [ws_sum ws_low ws_high]. unfold sum1. split; [lia|]. split; [exact B1|].
    split; [unfold len in *; rewrite rev_length; exact B2|]. split; [exact I1|]. intros s Hs. apply I2. apply in_rev. exact Hs.
  Qed.

  (** ** the rows below *)
  Definition meanM (x0 j c n : Z) : Z := match state_after bs (v c) r alpha (x0 + n) (Z.to_nat j) with Some w => shown_mean r alpha w | None => 0 end.

  Lemma kept_eq : kept r alpha = (2 * r + 1) * (2 * r + 1) - alpha.
  Proof.
    pose proof (sz_small r Hr) as (S1 & S2 & S3). unfold kept. rewrite (cast_id USIZE (sz * sz)) by ity_lia. rewrite cast_id by ity_lia. reflexivity.
  Qed.

  Lemma next_step x0 j c i h : 0 <= i < nc -> rowst x0 j c h -> exists h', mean_next r alpha i h = Ret (h', meanM x0 j c i) /\ rowst x0 j c h'.
  Proof.
    intros Hi HR. exists h. split; [|exact HR]. destruct HR as [st [HR Hst]]. unfold mean_next, get_mean, meanM. rewrite (Hst i Hi).
    destruct HR as (A & B & Cc & D & E). destruct (E i Hi) as (E1 & E2 & E3 & E4).
    rewrite (vget_ok _ i 0) by lia. rewrite bind_Ret, E1. rewrite bind_Ret. rewrite kept_eq. do 2 f_equal.
    pose proof (sz_small r Hr) as (S1 & S2 & S3). apply mean_any; [unfold ksize in *; lia|]. apply E4.
  Qed.

  Lemma next_row_inv x0 j o hs o' hs' : 0 <= x0 < W -> 1 <= j < H -> wf o -> info_of o = info_of img -> len hs = C ->
    teach (rowst x0 (j - 1)) 0 hs -> mean_next_row p bs r nc alpha img x0 (o, hs) j = Ret (o', hs') ->
    wf o' /\ info_of o' = info_of img /\ len hs' = C /\ teach (rowst x0 j) 0 hs' /\
    forall x y', inside img x y' -> pixel_at o' x y' =
        if (y' =? j) && (x0 <=? x) && (x <? x0 + nc) then pixel img (meanM x0 j) (lastcol img (x0 + nc) x - x0) else pixel_at o x y'.
  Proof.
    intros Hx Hj Hwo Hio Hlh Hhs E. unfold mean_next_row in E.
    rewrite iadd_ok in E by ity_lia. rewrite bind_Ret in E. rewrite isub_ok in E by ity_lia. rewrite bind_Ret, iclamp_eq, bind_Ret in E by assumption.
    rewrite !cast_id in E by ity_lia. rewrite isub_ok in E by ity_lia. rewrite bind_Ret in E. rewrite isub_ok in E by ity_lia. rewrite bind_Ret in E.
    rewrite isub_ok in E by ity_lia. rewrite bind_Ret, iclamp_eq, bind_Ret in E by assumption.
    pose proof (clamp_in H (j + r) HH) as Hc1. pose proof (clamp_in H (j - r - 1) HH) as Hc2. rewrite cast_id in E by ity_lia.
    destruct (row_pixels_ok p r nc img ltac:(lia) Hnc Hwf Hu8 HW HWb HH x0 _ Hx Hc1) as [p1 [P1 Q1]].
    destruct (row_pixels_ok p r nc img ltac:(lia) Hnc Hwf Hu8 HW HWb HH x0 _ Hx Hc2) as [p2 [P2 Q2]].
    rewrite P1, bind_Ret, P2, bind_Ret in E.
    apply bind_inv in E as [hs1 [E1 E]]. apply bind_inv in E as [hs2 [E2 E]].
    set (Q1' := fun c h => exists st, hrel nc alpha h (Kmoved r (KK c x0 (j - 1)) true (rowfn r img c x0 (clamp_to H (j + r)))) st /\
      forall n, 0 <= n < nc -> exists w, state_after bs (v c) r alpha (x0 + n) (Z.to_nat (j - 1)) = Some w /\
        enter_all bs t (window_row (v c) r (x0 + n) (j + r)) w = Some (st n)).
    destruct (mean_update_all_inv p bs r nc alpha (rowst x0 (j - 1)) Q1' p1 true hs 0 hs1 Hhs) as [L1 T1]; [|exact E1|].
    { intros c h h' Hc [st [HR Hst]] Eu. rewrite Z.add_0_l, Hlh in Hc.
      destruct (update_enter p bs r nc alpha Hr Hnc Hodd Ha' h _ st p1 c _ h' HR (KK_ok c x0 (j - 1)) (Q1 c Hc) Eu) as [st' [F1 F2]].
      exists st'. split; [exact F2|]. intros n Hn. exists (st n). split; [apply Hst; exact Hn|]. rewrite <- (row_eq_clamp c x0 n (j + r)). apply F1. exact Hn. }
    destruct (mean_update_all_inv p bs r nc alpha Q1' (rowst x0 j) p2 false hs1 0 hs2 T1) as [L2 T2]; [|exact E2|].
    { intros c h h' Hc [st [HR Hst]] Eu. rewrite Z.add_0_l, L1, Hlh in Hc.
      assert (EK : forall n s, Kmoved r (Kmoved r (KK c x0 (j - 1)) true (rowfn r img c x0 (clamp_to H (j + r)))) false (rowfn r img c x0 (clamp_to H (j - r - 1))) n s = KK c x0 j n s).
      { intros n s. unfold Kmoved. rewrite !row_eq_clamp. unfold KK. pose proof (counted_step (v c) r (x0 + n) (j - 1) s ltac:(lia)) as Es.
        replace (j - 1 + 1) with j in Es by lia. replace (j - 1 - r) with (j - r - 1) in Es by lia. rewrite Es. lia. }
      destruct (update_leave p bs r nc alpha Hr Hnc Hodd Ha' h _ st p2 c (rowfn r img c x0 (clamp_to H (j - r - 1))) h' HR) as [st' [F1 F2]].
      - intros n s _ _. unfold Kmoved, Kmax. pose proof (counted_bound (v c) r (x0 + n) (j - 1) s Hr) as B1. fold (KK c x0 (j - 1) n s) in B1.
        rewrite row_eq_clamp. pose proof (occ_row_bounds (v c) r (x0 + n) (j + r) s ltac:(lia)). lia.
      - apply Q2. exact Hc.
      - intros n s Hn Hs. rewrite EK. apply KK_ok; assumption.
      - exact Eu.
      - exists st'. split; [eapply hrel_K; [exact F2|exact EK]|]. intros n Hn. destruct (Hst n Hn) as [w [G1 G2]].
        replace (Z.to_nat j) with (S (Z.to_nat (j - 1))) by lia. cbn [state_after]. rewrite G1.
        replace (Z.of_nat (S (Z.to_nat (j - 1)))) with j by lia. rewrite G2.
        rewrite <- (F1 n Hn). rewrite row_eq_clamp. apply leave_all_ext. intros s. symmetry. apply EK. }
    destruct (mean_row_ok p nc img Hnc Hwf HW ltac:(lia) (mean_next r alpha) (fun _ => rowst x0 j) (meanM x0 j) x0 o hs2 j) as [o2 [hs3 (G0 & G1 & G2 & G3 & G4 & G5)]]; try assumption; try lia.
    { intros c i h Hc Hi HJ. apply next_step; assumption. }
    rewrite G0 in E. injection E as <- <-. conj; try assumption; reflexivity.
  Qed.

  Lemma process_cols_mean_rows x0 out out' : 0 <= x0 < W -> wf out -> info_of out = info_of img ->
    process_cols_mean p bs r nc alpha img out x0 = Ret out' ->
    wf out' /\ info_of out' = info_of img /\
    (forall c n y, 0 <= c < C -> 0 <= n < nc -> 0 <= y < H -> state_after bs (v c) r alpha (x0 + n) (Z.to_nat y) <> None) /\
      forall x y, inside img x y -> pixel_at out' x y =
        if (x0 <=? x) && (x <? x0 + nc) then map (fun c => meanM (lastcol img (x0 + nc) x) y c 0) (zrange 0 C) else pixel_at out x y.
  Proof.
    intros Hx Hwo Hio E. unfold process_cols_mean in E. rewrite meanhist_new_ok in E by (try assumption; lia). rewrite bind_Ret in E. cbv zeta in E.
    destruct (init_cols_mean_ok p bs r nc alpha img Hr Hnc Hodd Hwf Hu8 HW HWb HH HHb ltac:(lia) Hev x0 out Hx Hwo Hio) as [o [hs (E0 & A1 & A2 & A3 & A4 & A5)]].
    rewrite E0, bind_Ret in E. apply bind_inv in E as [[o1 hs1] [E E1]]. injection E1 as <-.
    assert (A4' : teach (rowst x0 0) 0 hs).
    { intros k Hk. rewrite A3 in Hk. specialize (A4 k ltac:(lia)). rewrite Z.add_0_l in *. apply first_rowst; [lia|exact A4]. }
    assert (M0 : forall c n, 0 <= c < C -> 0 <= n < nc -> mean1 r alpha img x0 c n = meanM x0 0 c n).
    { intros c n Hc Hn. unfold meanM. cbn [Z.to_nat state_after]. unfold mean1, first_row_mean.
      destruct (srt_facts x0 c n Hc Hn) as [F1 F2].
      pose proof (sz_small r Hr) as (S1 & S2 & S3).
      assert (Sb : 0 <= sum1 r alpha img x0 c n <= 255 * (sz * sz - alpha)).
      { assert (Et : sz * sz - alpha = sz * sz - 2 * trim alpha) by (unfold trim; pose proof (Z.div_mod alpha 2 ltac:(lia)); lia). rewrite Et.
        pose proof (Lm_ok r nc img Hr Hwf Hu8 HW HH sz x0 c Hc ltac:(lia)) as HL.
        assert (Lf : Lm r img sz x0 c n 256 = sz * sz) by (unfold Lm; rewrite (cnt0_full r img) by (try assumption; lia); reflexivity).
        destruct (upper_cut_ok nc (Lm r img sz x0 c) _ n alpha HL Hn) as [Q1 Q2]; [rewrite Lf; lia|].
        rewrite <- F1. unfold sum1, low1, upp1. apply kept_bounds.
        - intros x Hx'. specialize (F2 x Hx'). lia.
        - split; [unfold trim; apply Z.div_pos; lia|]. unfold srt. rewrite <- (sorted_row0 r img Hr). exact Q1.
        - rewrite F1. unfold srt. rewrite <- (sorted_row0 r img Hr). destruct Q2 as [Q2|[k (K1 & K2 & K3)]]; [left; exact Q2|right].
          rewrite K3, <- Lf. assert (2 * trim alpha <= sz * sz) by (unfold trim; pose proof (Z.div_mod alpha 2 ltac:(lia)); lia). lia. }
      unfold shown_mean, first_state. cbv zeta. cbn [ws_sum]. change (sorted_window (fun i _ => v c i 0) r (x0 + n) 0) with (srt r img x0 c n).
      rewrite F1. unfold ksize in *.
      assert (Es : sum_of (srt r img x0 c n) - sum_of (part (srt r img x0 c n) 0 (alpha / 2)) -
                   sum_of (part (srt r img x0 c n) (upper_cut (srt r img x0 c n) alpha) (upper_cut (srt r img x0 c n) alpha + alpha / 2)) = sum1 r alpha img x0 c n).
      { unfold sum1, low1, upp1. rewrite part_start. unfold part. do 3 f_equal. unfold trim. f_equal. lia. }
      rewrite Es. set (kk := (2 * r + 1) * (2 * r + 1) - alpha) in *. unfold rounded_quotient.
      assert (0 <= (2 * sum1 r alpha img x0 c n + kk) / (2 * kk)) by (apply Z.div_pos; lia).
      assert ((2 * sum1 r alpha img x0 c n + kk) / (2 * kk) <= 255) by (apply Z.lt_succ_r; apply Z.div_lt_upper_bound; lia). lia. }
    assert (Mshift : forall x y c, meanM x y c 0 = meanM x0 y c (x - x0)).
    { intros x y c. unfold meanM. replace (x + 0) with (x0 + (x - x0)) by lia. reflexivity. }
    assert (G : (fun j '(o', hs') => wf o' /\ info_of o' = info_of img /\ len hs' = C /\ teach (rowst x0 (j - 1)) 0 hs' /\
        (forall c n y, 0 <= c < C -> 0 <= n < nc -> 0 <= y < j -> state_after bs (v c) r alpha (x0 + n) (Z.to_nat y) <> None) /\
        (forall x y, inside img x y -> j <= y -> pixel_at o' x y = pixel_at out x y) /\
        forall x y, inside img x y -> y < j -> pixel_at o' x y =
          if (x0 <=? x) && (x <? x0 + nc) then map (fun c => meanM (lastcol img (x0 + nc) x) y c 0) (zrange 0 C) else pixel_at out x y) H (o1, hs1)).
    { revert E. apply (mfold_zrange_Ret (fun j '(o', hs') => wf o' /\ info_of o' = info_of img /\ len hs' = C /\ teach (rowst x0 (j - 1)) 0 hs' /\
        (forall c n y, 0 <= c < C -> 0 <= n < nc -> 0 <= y < j -> state_after bs (v c) r alpha (x0 + n) (Z.to_nat y) <> None) /\
        (forall x y, inside img x y -> j <= y -> pixel_at o' x y = pixel_at out x y) /\
        forall x y, inside img x y -> y < j -> pixel_at o' x y =
          if (x0 <=? x) && (x <? x0 + nc) then map (fun c => meanM (lastcol img (x0 + nc) x) y c 0) (zrange 0 C) else pixel_at out x y)); [lia| |].
      - clear o hs o1 hs1 E0 A1 A2 A3 A4 A5 A4'. intros j [o hs] [o' hs'] Hj (B1 & B2 & B3 & B4 & B5 & B6 & B7) E.
        destruct (next_row_inv x0 j o hs o' hs' Hx Hj B1 B2 B3 B4 E) as (D1 & D2 & D3 & D4 & D5).
        split; [exact D1|]. split; [exact D2|]. split; [exact D3|]. replace (j + 1 - 1) with j by lia. split; [exact D4|]. split; [|split].
        + intros c n y Hc Hn Hy. destruct (Z.eq_dec y j) as [->|]; [|apply B5; lia].
          specialize (D4 c ltac:(lia)). rewrite Z.add_0_l in D4. destruct D4 as [st [_ Dst]]. rewrite (Dst n Hn). discriminate.
        + intros x y Hin Hy. rewrite D5 by exact Hin. destruct (Z.eqb_spec y j); [lia|]. cbn [andb]. apply B6; [exact Hin|lia].
        + intros x y Hin Hy. rewrite D5 by exact Hin. destruct (Z.eqb_spec y j) as [Eyj|]; cbn [andb].
          * subst y. destruct ((x0 <=? x) && (x <? x0 + nc)) eqn:Eb; cbn [andb]; cbn [andb]; try rewrite Eb; cbn [andb].
            -- unfold pixel. apply map_ext. intros c. symmetry. apply Mshift.
            -- apply B6; [exact Hin|lia].
          * apply B7; [exact Hin|lia].
      - split; [exact A1|]. split; [exact A2|]. split; [exact A3|]. replace (1 - 1) with 0 by lia. split; [exact A4'|]. split; [|split].
        + intros c n y Hc Hn Hy. replace (Z.to_nat y) with 0%nat by lia. discriminate.
        + intros x y Hin Hy. rewrite A5 by exact Hin. destruct (Z.eqb_spec y 0); [lia|]. reflexivity.
        + intros x y Hin Hy. rewrite A5 by exact Hin. assert (y = 0) by (destruct Hin; lia). subst y. cbn [Z.eqb andb].
          destruct ((x0 <=? x) && (x <? x0 + nc)) eqn:Eb; [|reflexivity].
          unfold pixel. apply map_ext_in. intros c Hc. apply in_zrange in Hc. rewrite Mshift. apply M0; [exact Hc|].
          apply andb_prop in Eb as [Eb1 Eb2]. unfold lastcol. destruct (Z.eqb_spec x (W - 1)); lia. }
    destruct G as (G1 & G2 & G3 & G4 & G5 & G6 & G7). split; [exact G1|]. split; [exact G2|]. split; [exact G5|].
    intros x y Hin. apply G7; [exact Hin|]. destruct Hin. lia.
  Qed.

  Lemma mean_blocks_rows out :
    mfold (fun output x => process_cols_mean p bs r nc alpha img output x) (zrange_step_pos 0 W nc)
        (Image (info_of img) (repeat 0 (Z.to_nat (W * H * C)))) = Ret out ->
    wf out /\ info_of out = info_of img /\
      forall x y, inside img x y ->
        (forall c, 0 <= c < C -> state_after bs (v c) r alpha (shown_column W nc x) (Z.to_nat y) <> None) /\
        pixel_at out x y = map (fun c => meanM (shown_column W nc x) y c 0) (zrange 0 C).
  Proof.
    set (N := (W - 0 + nc - 1) / nc).
    assert (HN : 0 <= N) by (apply Z.div_pos; lia).
    assert (Hlow : nc * (N - 1) < W /\ W <= nc * N).
    { pose proof (Z.div_mod (W - 0 + nc - 1) nc ltac:(lia)) as Hdm. pose proof (Z.mod_pos_bound (W - 0 + nc - 1) nc ltac:(lia)) as Hmb.
      fold N in Hdm. clear - Hdm Hmb Hnc. nia. }
    assert (EN : (W - 1) / nc = N - 1).
    { symmetry. apply (Z.div_unique_pos _ _ _ (W - 1 - nc * (N - 1))); clear - Hlow Hnc; nia. }
    unfold zrange_step_pos. fold N.
    replace (map (fun k => 0 + nc * Z.of_nat k) (seq 0 (Z.to_nat N))) with (map (fun k => nc * k) (zrange 0 N)).
    2:{ unfold zrange. rewrite map_map. replace (N - 0) with N by lia. apply map_ext. intros; lia. }
    rewrite mfold_map. intros E.
    assert (G : (fun n o => wf o /\ info_of o = info_of img /\ forall x y, inside img x y -> x < nc * n ->
        (forall c, 0 <= c < C -> state_after bs (v c) r alpha (shown_column W nc x) (Z.to_nat y) <> None) /\
        pixel_at o x y = map (fun c => meanM (shown_column W nc x) y c 0) (zrange 0 C)) N out).
    { revert E. apply (mfold_zrange_Ret (fun n o => wf o /\ info_of o = info_of img /\ forall x y, inside img x y -> x < nc * n ->
        (forall c, 0 <= c < C -> state_after bs (v c) r alpha (shown_column W nc x) (Z.to_nat y) <> None) /\
        pixel_at o x y = map (fun c => meanM (shown_column W nc x) y c 0) (zrange 0 C))); [exact HN| |].
      - intros k o o' Hk (A1 & A2 & A3) E.
        assert (Hx0 : 0 <= nc * k < W) by (clear - Hk Hlow Hnc; nia).
        destruct (process_cols_mean_rows _ _ _ Hx0 A1 A2 E) as (B1 & B2 & B3 & B4). split; [exact B1|]. split; [exact B2|].
        intros x y Hin Hlt. pose proof Hin as [Hx Hy]. rewrite B4 by exact Hin.
        destruct (Z.leb_spec (nc * k) x) as [G1|G1]; destruct (Z.ltb_spec x (nc * k + nc)) as [G2|G2]; cbn [andb]; try lia.
        + assert (El : lastcol img (nc * k + nc) x = shown_column W nc x).
          { unfold lastcol, shown_column. destruct (Z.eqb_spec x (W - 1)) as [Ex|]; [|reflexivity].
            rewrite EN. assert (k = N - 1) by (clear - Hlow Ex Hk Hlt Hnc G1 G2; nia). lia. }
          rewrite El. split; [|reflexivity]. intros c Hc.
          assert (Hn : 0 <= shown_column W nc x - nc * k < nc) by (rewrite <- El; unfold lastcol; destruct (Z.eqb_spec x (W - 1)); lia).
          specialize (B3 c (shown_column W nc x - nc * k) y Hc Hn Hy).
          replace (nc * k + (shown_column W nc x - nc * k)) with (shown_column W nc x) in B3 by lia. exact B3.
        + apply A3; assumption.
      - split; [apply (blank_wf num_u8); apply wf_info_ok; exact Hwf|]. split; [reflexivity|]. intros x y [Hx _] Hlt. lia. }
    destruct G as (A1 & A2 & A3). split; [exact A1|]. split; [exact A2|]. intros x y Hin. apply A3; [exact Hin|]. destruct Hin. lia.
  Qed.
End Run.
