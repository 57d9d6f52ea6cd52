(** Lemmas about Model/Median.v: blocks of columns and the whole image. *)
From Verif.Model Require Import Base Image Median.
From Verif.Spec Require Import ImageS SumS MedianS.
From Verif.Proofs Require Import BaseL ImageL ImageOps SumL LoopL MedianL MedianL2.
Open Scope Z_scope.

Lemma medf_ext center l l' : (forall t, l t = l' t) -> medf center l = medf center l'.
Proof.
  intros E. unfold medf.
  assert (F : forall k, find (fun m => center <=? l (m + 1)) k = find (fun m => center <=? l' (m + 1)) k).
  { induction k as [|a k IH]; cbn [find]; [reflexivity|]. rewrite E, IH. reflexivity. }
  rewrite F. reflexivity.
Qed.
Lemma newpiv_ext center l l' o : (forall t, l t = l' t) -> newpiv center l o = newpiv center l' o.
Proof. intros E. unfold newpiv. rewrite E, (medf_ext center l l' E). reflexivity. Qed.

(** the value computed for channel c at column X, row y *)
Fixpoint mres (r : Z) (img : image Z) (c X : Z) (y : nat) : Z :=
  match y with
  | O => medf (median_rank r) (fun t => window_count (fun s => s <? t) (clamped img c) r X 0)
  | S y' => newpiv (median_rank r) (fun t => window_count (fun s => s <? t) (clamped img c) r X (Z.of_nat y)) (mres r img c X y')
  end.

Section Run.
  Context (p : profile) (r nc : Z) (img : image Z).
  Hypothesis Hr : 0 <= r < 2 ^ 14.
  Hypothesis Hnc : 0 < nc < 2 ^ 31.
  Hypothesis Hodd : nc mod 2 = 1.
  Hypothesis Hwf : wf img.
  Hypothesis Hu8 : samples is_u8 img.
  Notation W := (width (info_of img)).
  Notation H := (height (info_of img)).
  Notation C := (channels (info_of img)).
  Hypothesis HW : 0 < W.
  Hypothesis HWb : W + nc + r < 2 ^ 31.
  Hypothesis HH : 0 < H.
  Hypothesis HHb : H + r < 2 ^ 31.
  Notation sz := (ksize r).
  Notation v := (clamped img).
  Notation center := (median_rank r).
  Notation rows := (rows r img).

  Lemma sz_bound : 1 <= sz < 2 ^ 15 /\ sz * (sz + 1) + sz + 1 <= hi I32 /\ sz * sz < 2 ^ 30.
  Proof. assert (E : sz = 2 * r + 1) by reflexivity. assert (1 <= sz <= 32767) by lia. cbn [hi I32]. nia. Qed.

  Lemma rank_eq : center = sz * sz / 2 + 1.
  Proof.
    unfold median_rank. change (2 * r + 1) with sz. assert (E : sz = 2 * r + 1) by reflexivity.
    assert (E2 : sz * sz = 1 + (2 * r * r + 2 * r) * 2) by (rewrite E; ring).
    rewrite E2. rewrite Z.div_add by lia. replace (1 + (2 * r * r + 2 * r) * 2 + 1) with ((2 * r * r + 2 * r + 1) * 2) by ring.
    rewrite Z.div_mul by lia. change (1 / 2) with 0. lia.
  Qed.
  Lemma rank_range : 0 < center <= sz * sz.
  Proof.
    rewrite rank_eq. pose proof sz_bound as (A & _ & _). assert (1 <= sz * sz) by nia.
    pose proof (Z.div_mod (sz * sz) 2 ltac:(lia)). pose proof (Z.mod_pos_bound (sz * sz) 2 ltac:(lia)).
    split; [lia|]. assert (E : sz * sz = 1 + (2 * r * r + 2 * r) * 2) by (unfold ksize; ring). nia.
  Qed.

  Lemma rows_full c x0 j n : 0 <= c < C -> rows c x0 (j - r) (j + r + 1) n 256 = sz * sz.
  Proof.
    intros Hc. unfold MedianL2.rows.
    replace (sz * sz) with (sz * (j + r + 1 - (j - r))) by (unfold ksize; ring).
    rewrite <- (Zsum_const sz (j - r) (j + r + 1)) by lia. apply Zsum_ext. intros y _. unfold cnt.
    transitivity (Zsum (fun _ => 1) n (n + sz)).
    - apply Zsum_ext. intros k _. unfold b2z, rowfn. pose proof (v_u8 img Hwf Hu8 HW HH c (x0 - r + k) y Hc).
      destruct (Z.ltb_spec (v c (x0 - r + k) y) 256); lia.
    - pose proof sz_bound. rewrite Zsum_const by lia. lia.
  Qed.

  (** the result in terms of the columns of a block *)
  Definition blockM (x0 : Z) (y : nat) (c n : Z) : Z := mres r img c (x0 + n) y.

  Lemma blockM_0 x0 c n : blockM x0 0 c n = medf center (rows c x0 (0 - r) (0 + r + 1) n).
  Proof. unfold blockM. cbn [mres]. apply medf_ext. intros t. symmetry. apply rows_window. Qed.
  Lemma blockM_S x0 y c n : blockM x0 (S y) c n =
    newpiv center (rows c x0 (Z.of_nat (S y) - r) (Z.of_nat (S y) + r + 1) n) (blockM x0 y c n).
  Proof. unfold blockM. cbn [mres]. apply newpiv_ext. intros t. symmetry. apply rows_window. Qed.

  Lemma Lok_rows c x0 j : 0 <= c < C -> Lok nc (rows c x0 (j - r) (j + r + 1)) (sz * (sz + 1)).
  Proof. intros Hc. apply rows_ok; [assumption..|exact Hc|unfold ksize; lia]. Qed.

  Lemma blockM_u8 x0 y c n : 0 <= c < C -> 0 <= n < nc -> 0 <= blockM x0 y c n < 256.
  Proof.
    intros Hc Hn.
    assert (G : forall l, 0 <= medf center l < 256).
    { intros l. unfold medf. destruct (find _ _) eqn:E; [|lia]. apply find_some in E as [E _]. apply in_zrange in E. lia. }
    induction y as [|y IH].
    - rewrite blockM_0. apply G.
    - rewrite blockM_S. unfold newpiv. destruct (_ =? _); [exact IH|apply G].
  Qed.

  Lemma init_rows_ok x0 : 0 <= x0 < W ->
    exists hs, mfold (fun hs j =>
          let! h1 := isub p I32 (cast I32 H) 1 in
          let! jc := iclamp j 0 h1 in
          let! row_in := row_pixels p r nc img x0 (cast U32 jc) in
          update_all p r nc hs row_in 0 true) (zrange (- r) (r + 1)) (repeat (medhist_new nc) (Z.to_nat C)) = Ret hs /\
      len hs = C /\ each (hist_ok r nc img x0 (0 - r) (0 + r + 1) (fun _ _ => 0)) 0 (map (init_pivots nc) hs).
  Proof.
    intros Hx. pose proof (wf_c _ Hwf) as HC. pose proof sz_bound as (Hs1 & Hs2 & Hs3).
    set (Q := fun j c h => datrep nc (mh_data h) (rows c x0 (- r) j) /\ mh_pivots h = [] /\ mh_sums h = repeat 0 (Z.to_nat nc)).
    destruct (mfold_zrange_inv (fun j hs => len hs = C /\ each (Q j) 0 hs)
       (fun hs j =>
          let! h1 := isub p I32 (cast I32 H) 1 in
          let! jc := iclamp j 0 h1 in
          let! row_in := row_pixels p r nc img x0 (cast U32 jc) in
          update_all p r nc hs row_in 0 true) (- r) (r + 1) (repeat (medhist_new nc) (Z.to_nat C))) as [hs [E [L1 L2]]].
    - lia.
    - split; [rewrite len_repeat; lia|]. intros k Hk. rewrite len_repeat in Hk. rewrite nth_repeat' by lia.
      split; [|split; reflexivity]. cbn [medhist_new mh_data]. unfold phist_new. split; [rewrite len_repeat; lia|].
      intros n Hn. rewrite nth_repeat' by lia. split; [reflexivity|]. intros w Hw. rewrite nth_repeat' by lia.
      unfold MedianL2.rows. rewrite !Zsum_nil by lia. destruct (n =? n_half nc); reflexivity.
    - intros j hs Hj [L1 L2]. rewrite (cast_id I32 H) by ity_lia. rewrite isub_ok by ity_lia. rewrite bind_Ret, iclamp_eq, bind_Ret by assumption.
      pose proof (clamp_in H j HH) as Hcl. rewrite cast_id by ity_lia.
      destruct (row_pixels_ok p r nc img Hr Hnc Hwf Hu8 HW HWb HH x0 (clamp_to H j) Hx Hcl) as [pxs [E1 E2]].
      rewrite E1, bind_Ret.
      destruct (update_all_ok p r nc (Q j) (Q (j + 1)) pxs true hs 0) as [hs' [E3 [E4 E5]]].
      + lia.
      + exact L2.
      + intros c h Hc (D1 & D2 & D3). rewrite Z.add_0_l, L1 in Hc.
        destruct (medhist_update_init p r nc Hr Hnc Hodd h (rows c x0 (- r) j) (sz * (sz + 1)) pxs c (rowfn r img c x0 (clamp_to H j)) true) as [h' (F1 & F2 & F3 & F4)].
        * exact D1.
        * exact D2.
        * apply rows_ok; [assumption..|exact Hc|unfold ksize; lia].
        * lia.
        * apply E2. exact Hc.
        * exists h'. split; [exact F1|]. split; [|split; [exact F3|congruence]].
          eapply datrep_ext; [exact Hnc|exact Hodd|exact F2|]. intros n t _ _. apply rows_add; [assumption|lia|reflexivity].
      + exists hs'. split; [exact E3|]. split; [lia|exact E5].
    - exists hs. split; [exact E|]. split; [exact L1|]. intros k Hk. rewrite len_map in Hk.
      destruct (L2 k Hk) as (D1 & D2 & D3). rewrite Z.add_0_l in *.
      assert (En : nth (Z.to_nat k) (map (init_pivots nc) hs) dh = init_pivots nc (nth (Z.to_nat k) hs dh)).
      { rewrite (nth_indep _ dh (init_pivots nc dh)) by (rewrite map_length; unfold len in Hk; lia). apply map_nth. }
      rewrite En. unfold init_pivots. unfold hist_ok. cbn [mh_data mh_sums mh_pivots].
      replace (0 - r) with (- r) by lia. replace (0 + r + 1) with (r + 1) by lia.
      split; [exact D1|]. split; [|lia].
      split; [cbn; rewrite D3, len_repeat; lia|]. split; [cbn; rewrite len_repeat; lia|]. cbn. intros n Hn.
      rewrite D3. rewrite !nth_repeat' by lia. split; [reflexivity|]. symmetry.
      pose proof (Lok_rows k x0 0 ltac:(lia)) as HL. replace (0 - r) with (- r) in HL by lia. replace (0 + r + 1) with (r + 1) in HL by lia.
      apply (L0 _ _ _ HL). exact Hn.
  Qed.

  Lemma init_cols_ok x0 out : 0 <= x0 < W -> wf out -> info_of out = info_of img ->
    exists out' hs', init_cols p r nc img out (repeat (medhist_new nc) (Z.to_nat C)) center x0 = Ret (out', hs') /\
      wf out' /\ info_of out' = info_of img /\ len hs' = C /\ each (hist_ok r nc img x0 (0 - r) (0 + r + 1) (blockM x0 0)) 0 hs' /\
      forall x y', inside img x y' -> pixel_at out' x y' =
        if (y' =? 0) && (x0 <=? x) && (x <? x0 + nc) then pixel img (blockM x0 0) (lastcol img (x0 + nc) x - x0) else pixel_at out x y'.
  Proof.
    intros Hx Hwo Hio. unfold init_cols. pose proof sz_bound as (Hs1 & Hs2 & Hs3).
    rewrite !(cast_id I32 r) by ity_lia. unfold ineg; rewrite arith_ok by ity_lia. rewrite bind_Ret. rewrite iadd_ok by ity_lia. rewrite bind_Ret.

    destruct (init_rows_ok x0 Hx) as [hs [E [L1 L2]]]. rewrite E, bind_Ret.
    apply (process_row_ok p r nc img Hr Hnc Hwf HW HWb (first_step p nc center) (blockM x0 0) x0 (0 - r) (0 + r + 1) (fun _ _ => 0) out (map (init_pivots nc) hs) 0); try assumption; try lia.
    - intros c i h Q Hc Hi D1 D2 _ _. pose proof rank_range.
      destruct (first_step_ok p nc Hnc Hodd center h (rows c x0 (0 - r) (0 + r + 1)) (sz * (sz + 1)) i) as (F1 & F2 & F3).
      + exact D1.
      + apply Lok_rows. exact Hc.
      + lia.
      + exact Hi.
      + destruct D2 as [D2 _]. exact D2.
      + rewrite rows_full by exact Hc. lia.
      + rewrite F3. rewrite blockM_0. reflexivity.
    - intros c n Hc Hn. apply blockM_u8; assumption.
    - rewrite len_map. exact L1.
  Qed.

  (** ** The other rows *)
  Lemma block_rows_ok x0 out e : 0 <= x0 < W -> wf out -> info_of out = info_of img -> 1 <= e <= H ->
    exists o hs, block_rows p r nc img out x0 e = Ret (o, hs) /\
      wf o /\ info_of o = info_of img /\ len hs = C /\
      each (hist_ok r nc img x0 (e - 1 - r) (e - 1 + r + 1) (blockM x0 (Z.to_nat (e - 1)))) 0 hs /\
      forall x y, inside img x y -> pixel_at o x y = if (y <? e) && (x0 <=? x) && (x <? x0 + nc)
        then pixel img (blockM x0 (Z.to_nat y)) (lastcol img (x0 + nc) x - x0) else pixel_at out x y.
  Proof.
    intros Hx Hwo Hio He. unfold block_rows. pose proof sz_bound as (Hs1 & Hs2 & Hs3). cbn [hi I32] in Hs2.
    rewrite imul_ok by ity_lia. rewrite bind_Ret. rewrite iadd_ok by ity_lia. rewrite bind_Ret. change (2 * r + 1) with sz.
    rewrite imul_ok by (cbn [lo hi U32]; nia). rewrite bind_Ret. rewrite idiv_ok by (cbn [lo hi U32]; nia). rewrite bind_Ret.
    pose proof rank_range as Hrk. rewrite rank_eq in Hrk.
    rewrite iadd_ok by ity_lia. rewrite bind_Ret. rewrite <- rank_eq in *. rewrite cast_id by ity_lia. cbv zeta.
    destruct (init_cols_ok x0 out Hx Hwo Hio) as [out0 [hs0 (E & A1 & A2 & A3 & A4 & A5)]]. rewrite E, bind_Ret.
    destruct (mfold_zrange_inv (fun j '(o, hs) => wf o /\ info_of o = info_of img /\ len hs = C /\
          each (hist_ok r nc img x0 (j - 1 - r) (j - 1 + r + 1) (blockM x0 (Z.to_nat (j - 1)))) 0 hs /\
          forall x y, inside img x y -> pixel_at o x y = if (y <? j) && (x0 <=? x) && (x <? x0 + nc)
            then pixel img (blockM x0 (Z.to_nat y)) (lastcol img (x0 + nc) x - x0) else pixel_at out x y)
       (next_row p r nc img center x0) 1 e (out0, hs0)) as [[o hs] [E' (B1 & B2 & B3 & B4 & B5)]].
    - lia.
    - split; [exact A1|]. split; [exact A2|]. split; [exact A3|]. replace (1 - 1) with 0 by lia. split; [exact A4|].
      intros x y Hin. rewrite A5 by exact Hin. destruct Hin as [_ Hy]. destruct (Z.ltb_spec y 1); destruct (Z.eqb_spec y 0); try lia; [subst y|]; reflexivity.
    - clear hs0 out0 E A1 A2 A3 A4 A5. intros j [o hs] Hj (B1 & B2 & B3 & B4 & B5). unfold next_row.
      rewrite iadd_ok by ity_lia. rewrite bind_Ret. rewrite isub_ok by ity_lia. rewrite bind_Ret, iclamp_eq, bind_Ret by assumption.
      rewrite !cast_id by ity_lia. rewrite isub_ok by ity_lia. rewrite bind_Ret. rewrite isub_ok by ity_lia. rewrite bind_Ret.
      rewrite isub_ok by ity_lia. rewrite bind_Ret, iclamp_eq, bind_Ret by assumption.
      pose proof (clamp_in H (j + r) HH) as Hc1. pose proof (clamp_in H (j - r - 1) HH) as Hc2. rewrite cast_id by ity_lia.
      destruct (row_pixels_ok p r nc img Hr Hnc Hwf Hu8 HW HWb HH x0 _ Hx Hc1) as [p1 [P1 Q1]].
      destruct (row_pixels_ok p r nc img Hr Hnc Hwf Hu8 HW HWb HH x0 _ Hx Hc2) as [p2 [P2 Q2]].
      rewrite P1, bind_Ret, P2, bind_Ret.
      set (M := blockM x0 (Z.to_nat (j - 1))) in *.
      destruct (update_all_ok p r nc (hist_ok r nc img x0 (j - 1 - r) (j - 1 + r + 1) M) (hist_ok r nc img x0 (j - 1 - r) (j - 1 + r + 1 + 1) M) p1 true hs 0) as [hs1 [U1 [U2 U3]]].
      { lia. }
      { exact B4. }
      { intros c h Hc (D1 & D2 & D3). rewrite Z.add_0_l, B3 in Hc.
        destruct (medhist_update_ok p r nc Hr Hnc Hodd h (rows c x0 (j - 1 - r) (j - 1 + r + 1)) (M c) (sz * (sz + 1)) p1 c (rowfn r img c x0 (clamp_to H (j + r))) true) as [h' (F1 & F2 & F3)]; [exact D1|exact D2|exact D3| | | |].
        - apply Lok_rows. exact Hc.
        - cbn [hi I32]. lia.
        - apply Q1. exact Hc.
        - assert (EL : forall n t, moved r (rows c x0 (j - 1 - r) (j - 1 + r + 1)) true (rowfn r img c x0 (clamp_to H (j + r))) n t = rows c x0 (j - 1 - r) (j - 1 + r + 1 + 1) n t).
          { intros n t. apply rows_add; [assumption|lia|f_equal; lia]. }
          exists h'. split; [exact F1|]. split; [eapply datrep_ext; [exact Hnc|exact Hodd|exact F2|intros; apply EL]|].
          split; [|exact D3]. eapply sumrep_ext; [exact F3|reflexivity|intros; apply EL|exact D3]. }
      destruct (update_all_ok p r nc (hist_ok r nc img x0 (j - 1 - r) (j - 1 + r + 1 + 1) M) (hist_ok r nc img x0 (j - r) (j + r + 1) M) p2 false hs1 0) as [hs2 [V1 [V2 V3]]].
      { lia. }
      { exact U3. }
      { intros c h Hc (D1 & D2 & D3). rewrite Z.add_0_l, U2, B3 in Hc.
        destruct (medhist_update_ok p r nc Hr Hnc Hodd h (rows c x0 (j - 1 - r) (j - 1 + r + 1 + 1)) (M c) (sz * (sz + 1)) p2 c (rowfn r img c x0 (clamp_to H (j - r - 1))) false) as [h' (F1 & F2 & F3)]; [exact D1|exact D2|exact D3| | | |].
        - apply rows_ok; [assumption..|exact Hc|unfold ksize; lia].
        - cbn [hi I32]. lia.
        - apply Q2. exact Hc.
        - assert (EL : forall n t, moved r (rows c x0 (j - 1 - r) (j - 1 + r + 1 + 1)) false (rowfn r img c x0 (clamp_to H (j - r - 1))) n t = rows c x0 (j - r) (j + r + 1) n t).
          { intros n t. rewrite rows_remove by (try assumption; try lia; f_equal; lia). f_equal; lia. }
          exists h'. split; [exact F1|]. split; [eapply datrep_ext; [exact Hnc|exact Hodd|exact F2|intros; apply EL]|].
          split; [|exact D3]. eapply sumrep_ext; [exact F3|reflexivity|intros; apply EL|exact D3]. }
      rewrite U1, bind_Ret, V1, bind_Ret.
      destruct (process_row_ok p r nc img Hr Hnc Hwf HW HWb (next_step p nc center) (blockM x0 (Z.to_nat j)) x0 (j - r) (j + r + 1) M o hs2 j) as [o' [hs' (G0 & G1 & G2 & G3 & G4 & G5)]]; try assumption; try lia.
      { intros c i h Q Hc Hi D1 D2 D3 D4.
        destruct (next_step_ok p nc Hnc Hodd center h (rows c x0 (j - r) (j + r + 1)) Q (sz * (sz + 1)) i) as (F1 & F2 & F3).
        - exact D1.
        - exact D2.
        - apply Lok_rows. exact Hc.
        - cbn [hi I32]. lia.
        - exact Hi.
        - rewrite D3. exact D4.
        - rewrite rows_full by exact Hc. lia.
        - rewrite F3. rewrite D3. replace (Z.to_nat j) with (S (Z.to_nat (j - 1))) by lia.
          rewrite blockM_S. replace (Z.of_nat (S (Z.to_nat (j - 1)))) with j by lia. reflexivity. }
      { intros c n Hc Hn. apply blockM_u8; assumption. }
      rewrite G0. eexists. split; [reflexivity|]. split; [exact G1|]. split; [exact G2|]. split; [exact G3|].
      replace (j + 1 - 1) with j by lia. split; [exact G4|].
      intros x y Hin. rewrite G5 by exact Hin. rewrite B5 by exact Hin. destruct Hin as [_ Hy].
      destruct (Z.eqb_spec y j) as [Ey|]; destruct (Z.ltb_spec y j) as [|]; destruct (Z.ltb_spec y (j + 1)); try lia; try reflexivity.
      subst y. reflexivity.
    - rewrite E'. exists o, hs. conj; try assumption. reflexivity.
  Qed.

  Lemma process_cols_ok x0 out : 0 <= x0 < W -> wf out -> info_of out = info_of img ->
    exists out', process_cols p r nc img out x0 = Ret out' /\ wf out' /\ info_of out' = info_of img /\
      forall x y, inside img x y -> pixel_at out' x y =
        if (x0 <=? x) && (x <? x0 + nc) then map (fun c => mres r img c (lastcol img (x0 + nc) x) (Z.to_nat y)) (zrange 0 C) else pixel_at out x y.
  Proof.
    intros Hx Hwo Hio. destruct (block_rows_ok x0 out H Hx Hwo Hio ltac:(lia)) as [o [hs (E & B1 & B2 & B3 & B4 & B5)]].
    unfold process_cols. rewrite E, bind_Ret. exists o. split; [reflexivity|]. split; [exact B1|]. split; [exact B2|]. intros x y Hin. rewrite B5 by exact Hin.
    destruct Hin as [_ Hy]. destruct (Z.ltb_spec y H); [|lia]. cbn [andb].
    destruct ((x0 <=? x) && (x <? x0 + nc)); [|reflexivity]. unfold pixel. apply map_ext. intros c. unfold blockM. f_equal. lia.
  Qed.

  (** the column whose value the output shows in column x *)
  Notation shown := (shown_column W nc).

  Lemma blocks_ok : exists out, mfold (fun output x => process_cols p r nc img output x) (zrange_step_pos 0 W nc)
        (Image (info_of img) (repeat 0 (Z.to_nat (W * H * C)))) = Ret out /\
      wf out /\ info_of out = info_of img /\
      forall x y, inside img x y -> pixel_at out x y = map (fun c => mres r img c (shown x) (Z.to_nat y)) (zrange 0 C).
  Proof.
    set (N := (W - 0 + nc - 1) / nc).
    assert (HN : 0 <= N) by (apply Z.div_pos; lia).
    assert (Hlow : nc * (N - 1) < W /\ W <= nc * N).
    { pose proof (Z.div_mod (W - 0 + nc - 1) nc ltac:(lia)). pose proof (Z.mod_pos_bound (W - 0 + nc - 1) nc ltac:(lia)).
      fold N in H0. nia. }
    assert (EN : (W - 1) / nc = N - 1).
    { symmetry. apply (Z.div_unique_pos _ _ _ (W - 1 - nc * (N - 1))); nia. }
    unfold zrange_step_pos. fold N.
    replace (map (fun k => 0 + nc * Z.of_nat k) (seq 0 (Z.to_nat N))) with (map (fun k => nc * k) (zrange 0 N)).
    2:{ unfold zrange. rewrite map_map. replace (N - 0) with N by lia. apply map_ext. intros; lia. }
    rewrite mfold_map.
    destruct (mfold_zrange_inv (fun k o => wf o /\ info_of o = info_of img /\
        forall x y, inside img x y -> x < nc * k -> pixel_at o x y = map (fun c => mres r img c (shown x) (Z.to_nat y)) (zrange 0 C))
      (fun output k => process_cols p r nc img output (nc * k)) 0 N
        (Image (info_of img) (repeat 0 (Z.to_nat (W * H * C))))) as [o [E (A1 & A2 & A3)]].
    - exact HN.
    - split; [apply (blank_wf num_u8); apply wf_info_ok; exact Hwf|]. split; [reflexivity|]. intros x y [Hx _] Hlt. lia.
    - intros k o Hk (A1 & A2 & A3).
      assert (Hx0 : 0 <= nc * k < W) by nia.
      destruct (process_cols_ok (nc * k) o Hx0 A1 A2) as [o' (E & B1 & B2 & B3)]. rewrite E. exists o'. split; [reflexivity|].
      split; [exact B1|]. split; [exact B2|]. intros x y Hin Hlt. rewrite B3 by exact Hin.
      destruct (Z.leb_spec (nc * k) x); destruct (Z.ltb_spec x (nc * k + nc)); cbn [andb]; try lia.
      + apply map_ext. intros c. f_equal. unfold lastcol, shown_column. destruct (Z.eqb_spec x (W - 1)); [|reflexivity].
        rewrite EN. assert (k = N - 1) by nia. subst k. lia.
      + apply A3; assumption.
    - exists o. split; [exact E|]. split; [exact A1|]. split; [exact A2|]. intros x y Hin. apply A3; [exact Hin|].
      destruct Hin. lia.
  Qed.
End Run.
