(** Lemmas about Model/Trimmed.v: later rows do not touch the first row; alpha = 0. *)
From Verif.Model Require Import Base Float Image Median Trimmed.
From Verif.Spec Require Import ImageS SumS MedianS TrimmedS.
From Verif.Proofs Require Import BaseL ImageL ImageOps SumL LoopL MedianL MedianL2 MedianL3 MeanL TrimmedL TrimmedL2 TrimmedL3.
Open Scope Z_scope.

Lemma mfold_Ret_inv {A S} (P : S -> Prop) (f : S -> A -> outcome S) l : forall s s', mfold f l s = Ret s' -> P s ->
  (forall s a s', In a l -> P s -> f s a = Ret s' -> P s') -> P s'.
Proof.
  induction l as [|a l IH]; intros s s' E Hs Hf; cbn [mfold] in E; [injection E as <-; exact Hs|].
  apply bind_inv in E as [s1 [E1 E2]]. apply (IH s1 s' E2).
  - apply (Hf s a s1); [left; reflexivity|exact Hs|exact E1].
  - intros u b u' Hb Hu Eu. apply (Hf u b u'); [right; exact Hb|exact Hu|exact Eu].
Qed.

Section Later.
  Context (p : profile) (bs : search) (r nc alpha : Z) (img : image Z).
  Notation W := (width (info_of img)).
  Notation H := (height (info_of img)).

  (** same size, and the same first row *)
  Definition same_row0 (a b : image Z) : Prop :=
    wf b /\ info_of b = info_of img /\ forall x, 0 <= x < W -> pixel_at b x 0 = pixel_at a x 0.

  Lemma mean_row_later (step : Z -> meanhist -> outcome (meanhist * Z)) a o hs x0 y o' hs' :
    0 < H -> 0 <= x0 -> 0 < y -> same_row0 a o -> mean_row p nc step o hs x0 y = Ret (o', hs') -> same_row0 a o'.
  Proof.
    intros HH Hx0 Hy Hs E. unfold mean_row in E.
    apply (mfold_Ret_inv (fun '(o, _) => same_row0 a o) _ _ _ _ E Hs).
    clear - Hy HH. intros [o hs] i [o' hs'] _ Hs E. (* one column *)
    apply bind_inv in E as [rs [_ E]]. apply bind_inv in E as [xi [E1 E]]. apply bind_inv in E as [w1 [E2 E]].
    apply bind_inv in E as [xc [E3 E]]. apply bind_inv in E as [o1 [E4 E]]. injection E as <- _.
    assert (Hxc : 0 <= xc).
    { unfold iclamp in E3. destruct (Z.ltb_spec w1 0); [discriminate|]. injection E3 as <-.
      destruct (Z.ltb_spec xi 0); [lia|]. destruct (Z.ltb_spec w1 xi); lia. }
    destruct Hs as (A1 & A2 & A3).
    assert (Hok : inside o xc y /\ len (map snd rs) = channels (info_of o)).
    { destruct (Z.lt_ge_cases xc (width (info_of o))) as [B1|B1]; destruct (Z.lt_ge_cases y (height (info_of o))) as [B2|B2];
        destruct (Z.eq_dec (len (map snd rs)) (channels (info_of o))) as [B3|B3];
        try (split; [unfold inside; lia|exact B3]);
        rewrite set_pixel_panic in E4; try assumption; try lia; try discriminate; unfold inside; lia. }
    destruct Hok as [Hin Hlen]. rewrite set_pixel_ok in E4 by assumption. injection E4 as <-.
    split.
    { apply put_wf; [exact A1| |exact Hlen]. pose proof Hin as [I1 I2].
      destruct (pos_bound (width (info_of o)) (height (info_of o)) (channels (info_of o)) xc y I1 I2); [pose proof (wf_c _ A1)|]; lia. }
    split; [rewrite put_info; exact A2|]. intros x Hx.
    rewrite pixel_at_put; [|exact A1|exact Hin|unfold inside; rewrite A2; lia|exact Hlen].
    destruct (Z.eqb_spec 0 y); [lia|]. rewrite andb_false_r. apply A3. exact Hx.
  Qed.

  Lemma next_row_later a o hs x0 j o' hs' :
    0 < H -> 0 <= x0 -> 0 < j -> same_row0 a o -> mean_next_row p bs r nc alpha img x0 (o, hs) j = Ret (o', hs') -> same_row0 a o'.
  Proof.
    intros HH Hx0 Hj Hs E. unfold mean_next_row in E. do 11 (apply bind_inv in E as [? [_ E]]).
    eapply mean_row_later; [exact HH|exact Hx0|exact Hj|exact Hs|exact E].
  Qed.
End Later.

Section Run.
  Context (p : profile) (bs : search) (r nc alpha : Z) (img : image Z).
  Hypothesis Hr : 0 <= r <= 127.
  Hypothesis Hnc : 0 < nc < 2 ^ 31.
  Hypothesis Hodd : nc mod 2 = 1.
  Hypothesis Hwf : wf img.
  Hypothesis Hu8 : samples is_u8 img.
  Notation W := (width (info_of img)).
  Notation H := (height (info_of img)).
  Notation C := (channels (info_of img)).
  Hypothesis HW : 0 < W.
  Hypothesis HWb : W + nc + r < 2 ^ 31.
  Hypothesis HH : 0 < H.
  Hypothesis HHb : H + r < 2 ^ 31.
  Notation sz := (ksize r).
  Hypothesis Ha : 0 <= alpha < sz * sz.
  Hypothesis Hev : alpha mod 2 = 0.

  Lemma process_cols_mean_row0 x0 out out' : 0 <= x0 < W -> wf out -> info_of out = info_of img ->
    process_cols_mean p bs r nc alpha img out x0 = Ret out' ->
    wf out' /\ info_of out' = info_of img /\
      forall x, 0 <= x < W -> pixel_at out' x 0 =
        if (x0 <=? x) && (x <? x0 + nc) then map (fun c => first_row_mean (sorted_window (row0 img c) r (lastcol img (x0 + nc) x) 0) alpha) (zrange 0 C) else pixel_at out x 0.
  Proof.
    intros Hx Hwo Hio E. unfold process_cols_mean in E. rewrite meanhist_new_ok in E by assumption. rewrite bind_Ret in E. cbv zeta in E.
    destruct (init_cols_mean_ok p bs r nc alpha img Hr Hnc Hodd Hwf Hu8 HW HWb HH HHb Ha Hev x0 out Hx Hwo Hio) as [o [hs (E0 & A1 & A2 & A3 & A4 & A5)]].
    rewrite E0, bind_Ret in E. apply bind_inv in E as [[o1 hs1] [E E1]]. injection E1 as <-.
    assert (G : same_row0 img o o1).
    { apply (mfold_Ret_inv (fun '(o', _) => same_row0 img o o') _ _ _ _ E).
      - split; [exact A1|]. split; [exact A2|]. reflexivity.
      - intros [u hu] j [u' hu'] Hj Hu Eu. apply in_zrange in Hj. eapply next_row_later; [exact HH| | |exact Hu|exact Eu]; lia. }
    destruct G as (G1 & G2 & G3). split; [exact G1|]. split; [exact G2|]. intros x Hx'. rewrite G3 by exact Hx'.
    rewrite A5 by (split; lia). cbn [Z.eqb andb]. destruct ((x0 <=? x) && (x <? x0 + nc)); [|reflexivity].
    unfold pixel. apply map_ext. intros c. unfold mean1, srt. do 2 f_equal. lia.
  Qed.

  Lemma mean_blocks_row0 out :
    mfold (fun output x => process_cols_mean p bs r nc alpha img output x) (zrange_step_pos 0 W nc)
        (Image (info_of img) (repeat 0 (Z.to_nat (W * H * C)))) = Ret out ->
    wf out /\ info_of out = info_of img /\
      forall x, 0 <= x < W -> pixel_at out x 0 = map (fun c => first_row_mean (sorted_window (row0 img c) r (shown_column W nc x) 0) alpha) (zrange 0 C).
  Proof.
    set (N := (W - 0 + nc - 1) / nc).
    assert (HN : 0 <= N) by (apply Z.div_pos; lia).
    assert (Hlow : nc * (N - 1) < W /\ W <= nc * N).
    { pose proof (Z.div_mod (W - 0 + nc - 1) nc ltac:(lia)) as Hdm. pose proof (Z.mod_pos_bound (W - 0 + nc - 1) nc ltac:(lia)) as Hmb.
      fold N in Hdm. clear - Hdm Hmb Hnc. nia. }
    assert (EN : (W - 1) / nc = N - 1).
    { symmetry. apply (Z.div_unique_pos _ _ _ (W - 1 - nc * (N - 1))); clear - Hlow Hnc; nia. }
    unfold zrange_step_pos. fold N.
    replace (map (fun k => 0 + nc * Z.of_nat k) (seq 0 (Z.to_nat N))) with (map (fun k => nc * k) (zrange 0 N)).
    2:{ unfold zrange. rewrite map_map. replace (N - 0) with N by lia. apply map_ext. intros; lia. }
    rewrite mfold_map. intros E.
    set (R := fun x => map (fun c => first_row_mean (sorted_window (row0 img c) r (shown_column W nc x) 0) alpha) (zrange 0 C)).
    assert (G : forall n o, mfold (fun output k => process_cols_mean p bs r nc alpha img output (nc * k)) (zrange 0 (Z.of_nat n))
        (Image (info_of img) (repeat 0 (Z.to_nat (W * H * C)))) = Ret o -> Z.of_nat n <= N ->
        wf o /\ info_of o = info_of img /\ forall x, 0 <= x < W -> x < nc * Z.of_nat n -> pixel_at o x 0 = R x).
    { induction n as [|n IH]; intros o Eo Hn.
      - rewrite zrange_nil in Eo by lia. cbn [mfold] in Eo. injection Eo as <-. split; [apply (blank_wf num_u8); apply wf_info_ok; exact Hwf|].
        split; [reflexivity|]. intros x Hx Hlt. lia.
      - replace (Z.of_nat (S n)) with (Z.of_nat n + 1) in * by lia. rewrite zrange_snoc, mfold_app in Eo by lia.
        apply bind_inv in Eo as [o1 [E1 E2]]. cbn [mfold] in E2. apply bind_inv in E2 as [o2 [E2 E3]]. injection E3 as <-.
        destruct (IH o1 E1 ltac:(lia)) as (A1 & A2 & A3).
        assert (Hx0 : 0 <= nc * Z.of_nat n < W) by (clear - Hn Hlow Hnc; nia).
        destruct (process_cols_mean_row0 _ _ _ Hx0 A1 A2 E2) as (B1 & B2 & B3). split; [exact B1|]. split; [exact B2|].
        intros x Hx Hlt. rewrite B3 by exact Hx. set (k := Z.of_nat n) in *.
        destruct (Z.leb_spec (nc * k) x) as [G1|G1]; destruct (Z.ltb_spec x (nc * k + nc)) as [G2|G2]; cbn [andb]; try lia.
        + unfold R. apply map_ext. intros c. do 2 f_equal. unfold lastcol, shown_column. destruct (Z.eqb_spec x (W - 1)) as [Ex|]; [|reflexivity].
          rewrite EN. assert (k = N - 1) by (clear - Hlow Ex Hn Hlt Hnc G1 G2; nia). lia.
        + apply A3; assumption. }
    specialize (G (Z.to_nat N) out). rewrite Z2Nat.id in G by exact HN. destruct (G E ltac:(lia)) as (A1 & A2 & A3).
    split; [exact A1|]. split; [exact A2|]. intros x Hx. apply A3; [exact Hx|lia].
  Qed.

  (** with nothing to trim, the second row panics *)
  Lemma process_cols_mean_zero x0 out : alpha = 0 -> 2 <= H -> 1 <= C -> 0 <= x0 < W -> wf out -> info_of out = info_of img ->
    process_cols_mean p bs r nc alpha img out x0 = Panic.
  Proof.
    intros Ez H2 HC1 Hx Hwo Hio. unfold process_cols_mean. rewrite meanhist_new_ok by assumption. rewrite bind_Ret. cbv zeta.
    destruct (init_cols_mean_ok p bs r nc alpha img Hr Hnc Hodd Hwf Hu8 HW HWb HH HHb Ha Hev x0 out Hx Hwo Hio) as [o [hs (E0 & A1 & A2 & A3 & A4 & A5)]].
    rewrite E0, bind_Ret. rewrite zrange_cons by lia. cbn [mfold].
    assert (Ep : mean_next_row p bs r nc alpha img x0 (o, hs) 1 = Panic); [|rewrite Ep; reflexivity].
    unfold mean_next_row.
    rewrite iadd_ok by ity_lia. rewrite bind_Ret. rewrite isub_ok by ity_lia. rewrite bind_Ret, iclamp_eq, bind_Ret by assumption.
    rewrite !cast_id by ity_lia. rewrite isub_ok by ity_lia. rewrite bind_Ret. rewrite isub_ok by ity_lia. rewrite bind_Ret.
    rewrite isub_ok by ity_lia. rewrite bind_Ret, iclamp_eq, bind_Ret by assumption.
    pose proof (clamp_in H (1 + r) HH) as Hc1. pose proof (clamp_in H (1 - r - 1) HH) as Hc2. rewrite cast_id by ity_lia.
    destruct (row_pixels_ok p r nc img ltac:(lia) Hnc Hwf Hu8 HW HWb HH x0 _ Hx Hc1) as [p1 [P1 Q1]].
    destruct (row_pixels_ok p r nc img ltac:(lia) Hnc Hwf Hu8 HW HWb HH x0 _ Hx Hc2) as [p2 [P2 Q2]].
    rewrite P1, bind_Ret, P2, bind_Ret.
    assert (Eu : mean_update_all p bs r nc alpha hs p1 0 true = Panic); [|rewrite Eu; reflexivity].
    destruct hs as [|h hs]; [unfold len in A3; cbn in A3; lia|]. apply teach_cons in A4 as [(D & L1 & L2 & L3 & Hn) _].
    cbn [mean_update_all].
    assert (Em : meanhist_update p bs r nc alpha h p1 0 true = Panic); [|rewrite Em; reflexivity].
    unfold meanhist_update. destruct (Z.eqb_spec (len (th_sums h)) 0) as [Hz|_]; [lia|]. cbn [negb].
    rewrite (zrange_cons 0 nc) by lia. cbn [mfold]. rewrite (zrange_cons 0 (0 + sz)) by (unfold ksize; lia). cbn [mfold].
    assert (Eo : add_one p bs alpha p1 0 0 h 0 = Panic); [|rewrite Eo; reflexivity].
    unfold add_one. destruct (Q1 0 ltac:(lia) 0 ltac:(lia)) as [_ [px [F1 F2]]]. rewrite F1, bind_Ret, F2, bind_Ret.
    assert (El : get_lower p alpha h 0 = Panic); [|rewrite El; reflexivity].
    unfold get_lower. rewrite (vget_ok _ 0 []) by lia. rewrite bind_Ret.
    destruct (Hn 0 ltac:(lia)) as (_ & Elow & _). rewrite Elow. unfold low1.
    assert (Et : trim alpha = 0) by (rewrite Ez; reflexivity). rewrite Et. cbn [Z.to_nat firstn].
    unfold isub. destruct p; cbn; reflexivity.
  Qed.
End Run.
