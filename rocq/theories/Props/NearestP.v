(** * C76: src/transform.rs, scale with Scale::NearestNeighbor for every factor *)
From Coq Require Import Permutation Lra.
From Flocq Require Import Core BinarySingleNaN.
From Verif.Model Require Import Transform.
From Verif.Spec Require Import ImageS FloatS ResampleS ConvS ColorS.
From Verif.Proofs Require Import BaseL ImageL Safe TransformL FloatL FloatL2 DyadL ApproxL ResampleL SrgbL3.
From Verif.Props Require Import ScaleP ResampleP BicubicP BilinearP.
Open Scope R_scope.

(** the number of output columns (or rows) *)
Notation out_size w f := (f32_to_int U32 (f32_round (f32_mul (f32_of_Z w) f))).

Lemma nn_pos (xf : f32) a w x : fin xf a -> 0 < a -> (1 <= w <= 16777216)%Z -> IZR w * a <= 4194304 -> (0 <= x < out_size w xf)%Z ->
  exists q, fin (f32_div (f32_of_Z (x + 1)) xf) q /\ 0 < q /\ Rabs (q - IZR (x + 1) / a) <= IZR (x + 1) / a / 16777216
    /\ nn_coord xf x = Ztrunc (rnd32 (IZR (Zceil q) - 1)) /\ rnd32 (IZR (Zceil q) - 1) <= 4294967295 /\ 0 <= rnd32 (IZR (Zceil q) - 1)
    /\ (IZR (x + 1) <= IZR w * a -> q <= IZR w).
Proof.
  intros F Ha Hw Hwa Hx.
  assert (Hw1 : 1 <= IZR w <= 16777216) by (split; [apply (IZR_le 1)|apply (IZR_le w 16777216)]; lia).
  assert (Ha' : 0 < IZR w * a) by (apply Rmult_lt_0_compat; lra).
  assert (Fm : fin (f32_mul (f32_of_Z w) xf) (rnd32 (IZR w * a))).
  { apply mul_fin; [apply of_Z_isZ; lia|exact F|]. rewrite Rabs_pos_eq by lra.
    eapply Rle_trans; [exact Hwa|]. replace 4194304 with (bpow radix2 22) by (cbn; lra). apply bpow_le. lia. }
  pose proof (round_bound _ _ x Fm Hx) as Hr.
  assert (Ew : Rabs (rnd32 (IZR w * a) - IZR w * a) <= IZR (2 ^ 22) * uu).
  { apply rnd_err; [lia|]. rewrite Rabs_pos_eq by lra. change (IZR (2 ^ 22)) with 4194304. exact Hwa. }
  change (IZR (2 ^ 22)) with 4194304 in Ew. unfold uu in Ew. apply Rabs_bd in Ew.
  assert (Hx0 : 0 <= IZR x) by (apply (IZR_le 0); lia).
  assert (HxM : IZR x <= IZR w * a - 3 / 8) by lra.
  assert (HxZ : (x <= 4194304)%Z) by (apply le_IZR; lra).
  rewrite plus_IZR.
  assert (Fx : fin (f32_of_Z (x + 1)) (IZR x + 1)) by (rewrite <- plus_IZR; apply of_Z_isZ; lia).
  assert (Hia0 : 0 < / a) by (apply Rinv_0_lt_compat; exact Ha).
  assert (Hq0 : / a <= (IZR x + 1) / a) by (unfold Rdiv; rewrite <- (Rmult_1_l (/ a)) at 1; apply Rmult_le_compat_r; lra).
  assert (Hqw : (IZR x + 1) / a <= IZR w + 5 / 8 * / a).
  { apply Rmult_le_reg_r with a; [exact Ha|]. replace ((IZR x + 1) / a * a) with (IZR x + 1) by (field; lra). replace ((IZR w + 5 / 8 * / a) * a) with (IZR w * a + 5 / 8) by (field; lra). lra. }
  assert (Hia : IZR w / 4194304 <= / a).
  { apply Rmult_le_reg_r with a; [exact Ha|]. rewrite Rinv_l by lra. lra. }
  assert (Hia2 : / a <= IZR w * (8 / 3)).
  { apply Rmult_le_reg_r with a; [exact Ha|]. rewrite Rinv_l by lra. lra. }
  assert (Erel : Rabs (rnd32 ((IZR x + 1) / a) - (IZR x + 1) / a) <= (IZR x + 1) / a / 16777216).
  { pose proof (rel_err ((IZR x + 1) / a)) as R. rewrite (Rabs_pos_eq ((IZR x + 1) / a)) in R by lra.
    replace (bpow radix2 (-24)) with (/ 16777216) in R by (cbn; lra).
    eapply Rle_trans; [apply R|right; unfold Rdiv; ring].
    apply Rle_trans with (/ a); [|exact Hq0].
    apply Rle_trans with (/ 4194304); [|lra]. replace (/ 4194304) with (bpow radix2 (-22)) by (cbn; lra). apply bpow_le. lia. }
  set (q := rnd32 ((IZR x + 1) / a)) in *.
  assert (Fq : fin (f32_div (f32_of_Z (x + 1)) xf) q).
  { apply div_fin; [exact Fx|exact F|lra|]. rewrite Rabs_pos_eq by lra. apply Rle_trans with 67108864; [lra|].
    replace 67108864 with (bpow radix2 26) by (cbn; lra). apply bpow_le. lia. }
  pose proof (Rabs_bd _ _ Erel) as Eq. assert (Q0 : 0 < q) by lra. assert (QM : q <= 67108864) by lra.
  pose proof (nearby_fin (prec := 24) (emax := 128) mode_UP _ q Fq) as EU. cbn [round_mode] in EU. change (Bnearbyint mode_UP (f32_div (f32_of_Z (x + 1)) xf)) with (f32_ceil (f32_div (f32_of_Z (x + 1)) xf)) in EU.
  assert (C1 : (1 <= Zceil q)%Z).
  { assert (0 < Zceil q)%Z; [|lia]. apply lt_IZR. pose proof (Zceil_ub q). lra. }
  assert (C2 : (Zceil q <= 67108864)%Z) by (apply Zceil_glb; exact QM).
  apply IZR_le in C1, C2.
  assert (F1 : fin (f32_sub (f32_ceil (f32_div (f32_of_Z (x + 1)) xf)) f32_1) (rnd32 (IZR (Zceil q) - 1))).
  { apply sub_fin; [exact EU|apply isZ_1|]. apply (small_bpow 26); [lia|]. change (IZR (2 ^ 26)) with 67108864. apply Rabs_le'; lra. }
  assert (L0 : 0 <= rnd32 (IZR (Zceil q) - 1)) by (apply (rnd_ge_Z (prec := 24) (emax := 128) _ 0); [lra|cbn; lia]).
  assert (L1 : rnd32 (IZR (Zceil q) - 1) <= 67108864).
  { apply rnd_le_fmt; [lra|]. replace 67108864 with (bpow radix2 26) by (cbn; lra). apply generic_format_bpow. cbn. lia. }
  exists q. split; [exact Fq|]. split; [exact Q0|]. split; [exact Erel|]. split; [|split; [lra|split; [exact L0|]]].
  - unfold nn_coord, f32_to_int. rewrite (to_int_fin U32 _ _ ltac:(cbn; lia) F1). unfold clampZ. cbn [lo hi U32].
    rewrite Ztrunc_floor by exact L0. assert (0 <= Zfloor (rnd32 (IZR (Zceil q) - 1)) <= 67108864)%Z; [|lia].
    split; [apply Zfloor_lub; exact L0|]. apply le_IZR. pose proof (Zfloor_lb (rnd32 (IZR (Zceil q) - 1))). lra.
  - intros Hle. unfold q. apply (rnd_le_Z (prec := 24) (emax := 128) _ w); [|cbn; lia].
    apply Rmult_le_reg_r with a; [exact Ha|]. replace ((IZR x + 1) / a * a) with (IZR x + 1) by (field; lra). lra.
Qed.

(** source index i for output index x: i is the last one before (x+1)/a, up to rounding *)
Definition nearest_source (a : R) (x i : Z) : Prop :=
  let q := IZR (x + 1) / a in IZR i < q + q / 16777216 /\ q - q / 16777216 <= IZR (i + 1).

Lemma nn_inside (xf : f32) a w x : fin xf a -> 0 < a -> (1 <= w <= 16777216)%Z -> IZR w * a <= 4194304 ->
  (0 <= x < out_size w xf)%Z -> IZR (x + 1) <= IZR w * a ->
  (0 <= nn_coord xf x < w)%Z /\ nearest_source a x (nn_coord xf x).
Proof.
  intros F Ha Hw Hwa Hx Hle. destruct (nn_pos xf a w x F Ha Hw Hwa Hx) as [q (Fq & Q0 & E & -> & _ & _ & Hq)]. specialize (Hq Hle).
  assert (C1 : (1 <= Zceil q)%Z). { assert (0 < Zceil q)%Z; [|lia]. apply lt_IZR. pose proof (Zceil_ub q). lra. }
  assert (C2 : (Zceil q <= w)%Z) by (apply Zceil_glb; exact Hq).
  rewrite <- minus_IZR. rewrite (rnd_Z (prec := 24) (emax := 128)) by (cbn; lia). rewrite Ztrunc_IZR. split; [lia|].
  unfold nearest_source. cbv zeta. apply Rabs_bd in E. pose proof (Zceil_ub q).
  assert (IZR (Zceil q - 1) < q). { rewrite minus_IZR. pose proof (Zceil_lb q). lra. }
  replace (Zceil q - 1 + 1)%Z with (Zceil q) by lia. split; lra.
Qed.
Lemma nn_outside (xf : f32) a w : fin xf a -> 0 < a -> (1 <= w <= 16777216)%Z -> IZR w * a <= 4194304 -> (1 <= out_size w xf)%Z ->
  IZR w * a < IZR (out_size w xf) * (1 - / 4194304) -> (w <= nn_coord xf (out_size w xf - 1))%Z.
Proof.
  intros F Ha Hw Hwa Hx Hgt. destruct (nn_pos xf a w (out_size w xf - 1) F Ha Hw Hwa ltac:(lia)) as [q (Fq & Q0 & E & -> & _ & L0 & _)].
  replace (out_size w xf - 1 + 1)%Z with (out_size w xf) in E by lia. set (W := IZR (out_size w xf)) in *.
  assert (1 <= IZR w) by (apply (IZR_le 1); lia).
  assert (HW : IZR w < W / a * (1 - / 4194304)).
  { apply Rmult_lt_reg_r with a; [exact Ha|]. replace (W / a * (1 - / 4194304) * a) with (W * (1 - / 4194304)) by (field; lra). exact Hgt. }
  assert (0 < W / a).
  { destruct (Rle_lt_dec (W / a) 0) as [N|P]; [|exact P]. exfalso. assert (W / a * (1 - / 4194304) <= 0) by lra. lra. }
  apply Rabs_bd in E. assert (Hq : IZR w < q) by lra.
  assert (C : (w + 1 <= Zceil q)%Z). { assert (w < Zceil q)%Z; [|lia]. apply lt_IZR. pose proof (Zceil_ub q). lra. }
  apply IZR_le in C. rewrite plus_IZR in C.
  rewrite Ztrunc_floor by exact L0. apply Zfloor_lub. apply (rnd_ge_Z (prec := 24) (emax := 128) _ w); [lra|cbn; lia].
Qed.

(** if the rounded size is not larger than the exact one, scaling works *)
Theorem C76_nearest p lm (img : image f32) (xf yf : f32) (a b : R) : wf img ->
  (width (info_of img) <= 16777216)%Z -> (height (info_of img) <= 16777216)%Z ->
  fin xf a -> 0 < a -> fin yf b -> 0 < b ->
  IZR (width (info_of img)) * a <= 4194304 -> IZR (height (info_of img)) * b <= 4194304 ->
  info_ok (scaled (info_of img) xf yf) ->
  IZR (width (scaled (info_of img) xf yf)) <= IZR (width (info_of img)) * a ->
  IZR (height (scaled (info_of img) xf yf)) <= IZR (height (info_of img)) * b ->
  exists out, scale_seq p lm img xf yf NearestNeighbor = Ret out
    /\ (forall sched, Permutation sched (zrange 0 (width (info_of out) * height (info_of out))) -> scale_par p lm sched img xf yf NearestNeighbor = Ret out)
    /\ wf out /\ info_of out = scaled (info_of img) xf yf
    /\ forall x y, inside out x y -> exists i j, inside img i j /\ pixel_at out x y = pixel_at img i j
         /\ nearest_source a x i /\ nearest_source b y j.
Proof.
  intros Hwf Hw Hh Fx Ha Fy Hb Hwa Hhb Hok Hsw Hsh. pose proof (wf_w _ Hwf). pose proof (wf_h _ Hwf).
  assert (Z0 : fin f32_0 0) by apply isZ_0.
  assert (Nx : f32_ltb xf f32_0 = false).
  { change (f32_ltb xf f32_0) with (Bltb xf f32_0). rewrite (ltb_fin xf f32_0 a 0 Fx Z0). apply Rlt_bool_false. lra. }
  assert (Ny : f32_ltb yf f32_0 = false).
  { change (f32_ltb yf f32_0) with (Bltb yf f32_0). rewrite (ltb_fin yf f32_0 b 0 Fy Z0). apply Rlt_bool_false. lra. }
  set (w := width (info_of img)) in *. set (h := height (info_of img)) in *.
  assert (Bw : (width (scaled (info_of img) xf yf) <= 4194304)%Z) by (apply le_IZR; lra).
  assert (Bh : (height (scaled (info_of img) xf yf) <= 4194304)%Z) by (apply le_IZR; lra).
  assert (Pos : forall x y, (0 <= x < width (scaled (info_of img) xf yf))%Z -> (0 <= y < height (scaled (info_of img) xf yf))%Z ->
    ((0 <= nn_coord xf x < w)%Z /\ nearest_source a x (nn_coord xf x)) /\ ((0 <= nn_coord yf y < h)%Z /\ nearest_source b y (nn_coord yf y))).
  { intros x y Hx Hy. pose proof Hx as Hx'. pose proof Hy as Hy'. cbn [scaled width height] in Hx, Hy, Hsw, Hsh. fold w in Hx, Hsw. fold h in Hy, Hsh.
    assert (W1 : (1 <= w)%Z). { destruct (Z.eq_dec w 0) as [E0|]; [|lia]. exfalso. rewrite E0, scale_zero in Hx. lia. }
    assert (H1' : (1 <= h)%Z). { destruct (Z.eq_dec h 0) as [E0|]; [|lia]. exfalso. rewrite E0, scale_zero in Hy. lia. }
    split; [apply (nn_inside xf a w x Fx Ha)|apply (nn_inside yf b h y Fy Hb)]; try assumption; try lia.
    - eapply Rle_trans; [|exact Hsw]. apply IZR_le. lia.
    - eapply Rle_trans; [|exact Hsh]. apply IZR_le. lia. }
  destruct (C22_nearest_exact p lm img xf yf Hwf Nx Ny Hok) as [G _]; try (change (scale_info img xf yf) with (scaled (info_of img) xf yf); unfold u32_max; lia).
  destruct G as [out (E & Ep & Wo & I & Sh)].
  { intros x y Hx Hy. destruct (Pos x y Hx Hy) as [[P1 _] [P2 _]]. fold w h. lia. }
  exists out. split; [exact E|]. split; [rewrite I; exact Ep|]. split; [exact Wo|]. split; [exact I|].
  intros x y Hin. pose proof Hin as [Hx Hy]. rewrite I in Hx, Hy. destruct (Pos x y Hx Hy) as [[P1 S1] [P2 S2]].
  exists (nn_coord xf x), (nn_coord yf y). split; [split; assumption|]. split; [apply Sh; exact Hin|]. split; assumption.
Qed.

(** if it is larger (by more than the rounding error), scaling panics *)
Theorem C76_rounded_up_panics p lm (img : image f32) (xf yf : f32) (a b : R) : wf img ->
  (width (info_of img) <= 16777216)%Z -> (height (info_of img) <= 16777216)%Z ->
  fin xf a -> 0 < a -> fin yf b -> 0 < b ->
  IZR (width (info_of img)) * a <= 4194304 -> IZR (height (info_of img)) * b <= 4194304 ->
  info_ok (scaled (info_of img) xf yf) ->
  (1 <= width (scaled (info_of img) xf yf))%Z -> (1 <= height (scaled (info_of img) xf yf))%Z ->
  IZR (width (info_of img)) * a < IZR (width (scaled (info_of img) xf yf)) * (1 - / 4194304)
  \/ IZR (height (info_of img)) * b < IZR (height (scaled (info_of img) xf yf)) * (1 - / 4194304) ->
  scale_panics p lm img xf yf NearestNeighbor.
Proof.
  intros Hwf Hw Hh Fx Ha Fy Hb Hwa Hhb Hok Hw1 Hh1 Hup. pose proof (wf_w _ Hwf). pose proof (wf_h _ Hwf).
  assert (Z0 : fin f32_0 0) by apply isZ_0.
  assert (Nx : f32_ltb xf f32_0 = false).
  { change (f32_ltb xf f32_0) with (Bltb xf f32_0). rewrite (ltb_fin xf f32_0 a 0 Fx Z0). apply Rlt_bool_false. lra. }
  assert (Ny : f32_ltb yf f32_0 = false).
  { change (f32_ltb yf f32_0) with (Bltb yf f32_0). rewrite (ltb_fin yf f32_0 b 0 Fy Z0). apply Rlt_bool_false. lra. }
  set (w := width (info_of img)) in *. set (h := height (info_of img)) in *.
  cbn [scaled width height] in Hw1, Hh1, Hup. fold w in Hw1, Hup. fold h in Hh1, Hup.
  assert (W1 : (1 <= w)%Z). { destruct (Z.eq_dec w 0) as [E0|]; [|lia]. exfalso. rewrite E0, scale_zero in Hw1. lia. }
  assert (H1' : (1 <= h)%Z). { destruct (Z.eq_dec h 0) as [E0|]; [|lia]. exfalso. rewrite E0, scale_zero in Hh1. lia. }
  assert (Bd : forall f c n, fin f c -> 0 < c -> (1 <= n <= 16777216)%Z -> IZR n * c <= 4194304 -> (1 <= out_size n f)%Z -> (out_size n f < u32_max)%Z).
  { clear. intros f c n F Hc Hn Hnc H1.
    assert (1 <= IZR n) by (apply (IZR_le 1); lia). assert (0 < IZR n * c) by (apply Rmult_lt_0_compat; lra).
    assert (Fm : fin (f32_mul (f32_of_Z n) f) (rnd32 (IZR n * c))).
    { apply mul_fin; [apply of_Z_isZ; lia|exact F|]. rewrite Rabs_pos_eq by lra.
      eapply Rle_trans; [exact Hnc|]. replace 4194304 with (bpow radix2 22) by (cbn; lra). apply bpow_le. lia. }
    pose proof (round_bound _ _ (out_size n f - 1) Fm ltac:(lia)) as Hr.
    assert (rnd32 (IZR n * c) <= 4194304) by (apply (rnd_le_Z (prec := 24) (emax := 128) _ 4194304); [exact Hnc|cbn; lia]).
    assert (out_size n f - 1 <= 4194304)%Z by (apply le_IZR; lra). unfold u32_max. lia. }
  destruct (C22_nearest_exact p lm img xf yf Hwf Nx Ny Hok) as [_ G].
  { change (scale_info img xf yf) with (scaled (info_of img) xf yf). cbn [scaled width]. apply (Bd xf a w Fx Ha); try assumption; lia. }
  { change (scale_info img xf yf) with (scaled (info_of img) xf yf). cbn [scaled height]. apply (Bd yf b h Fy Hb); try assumption; lia. }
  apply G. change (scale_info img xf yf) with (scaled (info_of img) xf yf). cbn [scaled width height]. fold w h.
  destruct Hup as [U|U].
  - exists (out_size w xf - 1)%Z, 0%Z. split; [lia|]. split; [lia|]. left. apply (nn_outside xf a); try assumption; lia.
  - exists 0%Z, (out_size h yf - 1)%Z. split; [lia|]. split; [lia|]. right. apply (nn_outside yf b); try assumption; lia.
Qed.

(** ** enlarging by 3/2 fails for every odd width *)
Lemma round_u32_ext (X Y : f32) r : fin X r -> fin Y r -> f32_to_int U32 (f32_round X) = f32_to_int U32 (f32_round Y).
Proof.
  intros F G. unfold f32_to_int, f32_round.
  rewrite (to_int_fin U32 _ _ ltac:(cbn; lia) (nearby_fin (prec := 24) (emax := 128) mode_NA X r F)).
  rewrite (to_int_fin U32 _ _ ltac:(cbn; lia) (nearby_fin (prec := 24) (emax := 128) mode_NA Y r G)). reflexivity.
Qed.
Lemma three_halves : fin (f32_dec 15 1) (3 / 2).
Proof. const_val. Qed.
Lemma three_halves_size n : (0 <= n <= 2796202)%Z -> out_size n (f32_dec 15 1) = ((3 * n + 1) / 2)%Z.
Proof.
  intros Hn. rewrite <- (scale_half (3 * n)) by lia. apply (round_u32_ext _ _ (IZR (3 * n) * bpow radix2 (- (1)))).
  - assert (isD (f32_dec 15 1) 3 1). { unfold isD. replace (3 * bpow radix2 (- (1))) with (3 / 2) by (cbn; lra). exact three_halves. }
    apply (isD_ext _ (n * 3) 1); [|lia]. apply (mul_D (f32_of_Z n) (f32_dec 15 1) n 3 0 1); try lia; [|assumption]. apply isZ_isD. apply of_Z_isZ. lia.
  - apply (isD_ext _ (3 * n * 1) 1); [|lia]. apply (mul_D (f32_of_Z (3 * n)) f32_half (3 * n) 1 0 1); try lia; [|exact half_D]. apply isZ_isD. apply of_Z_isZ. lia.
Qed.
Theorem C76_three_halves_refuted p lm (img : image f32) : wf img -> Z.odd (width (info_of img)) = true ->
  (width (info_of img) <= 1048576)%Z -> (1 <= height (info_of img) <= 1048576)%Z ->
  info_ok (scaled (info_of img) (f32_dec 15 1) (f32_dec 15 1)) ->
  scale_panics p lm img (f32_dec 15 1) (f32_dec 15 1) NearestNeighbor.
Proof.
  intros Hwf Hodd Hw Hh Hok. pose proof (wf_w _ Hwf).
  set (w := width (info_of img)) in *. set (h := height (info_of img)) in *.
  apply Zodd_bool_iff in Hodd. apply Zodd_ex in Hodd as [m Hm].
  assert (Rw : 0 <= IZR w <= 1048576) by (split; [apply (IZR_le 0)|apply (IZR_le w 1048576)]; lia).
  assert (Rh : 0 <= IZR h <= 1048576) by (split; [apply (IZR_le 0)|apply (IZR_le h 1048576)]; lia).
  pose proof three_halves as F.
  assert (Ew : width (scaled (info_of img) (f32_dec 15 1) (f32_dec 15 1)) = (3 * m + 2)%Z).
  { cbn [scaled width]. fold w. rewrite three_halves_size by lia. rewrite Hm. replace (3 * (2 * m + 1) + 1)%Z with ((3 * m + 2) * 2)%Z by lia. apply Z.div_mul. lia. }
  assert (Eh : height (scaled (info_of img) (f32_dec 15 1) (f32_dec 15 1)) = ((3 * h + 1) / 2)%Z).
  { cbn [scaled height]. fold h. apply three_halves_size. lia. }
  apply (C76_rounded_up_panics p lm img (f32_dec 15 1) (f32_dec 15 1) (3/2) (3/2) Hwf); fold w h; try assumption; try lra; try lia.
  - rewrite Eh. assert (2 <= 3 * h + 1)%Z by lia. pose proof (Z.div_le_lower_bound (3 * h + 1) 2 1 ltac:(lia) ltac:(lia)). lia.
  - left. rewrite Ew, Hm. rewrite !plus_IZR, !mult_IZR. rewrite Hm, plus_IZR, mult_IZR in Rw. lra.
Qed.

(** ** a case meeting the hypotheses of C76_nearest: 4 x 4 pixels, 3/2 times wider, 3/4 as high *)
Example C76_example : wf ex_bil /\ fin (f32_dec 15 1) (3/2) /\ fin (f32_dec 75 2) (3/4)
  /\ info_ok (scaled (info_of ex_bil) (f32_dec 15 1) (f32_dec 75 2))
  /\ IZR (width (scaled (info_of ex_bil) (f32_dec 15 1) (f32_dec 75 2))) <= 4 * (3/2)
  /\ IZR (height (scaled (info_of ex_bil) (f32_dec 15 1) (f32_dec 75 2))) <= 4 * (3/4)
  /\ match scale_seq Debug (Libm (fun x _ => x) (fun x => x) (fun x => x)) ex_bil (f32_dec 15 1) (f32_dec 75 2) NearestNeighbor with
     | Ret out => info_of out = Info 6 3 1 false
         /\ map (f32_to_int I32) (data out) = [50; 60; 60; 70; 80; 80; 90; 100; 100; 110; 120; 120; 130; 140; 140; 150; 160; 160]%Z | _ => False end.
Proof.
  assert (E : scaled (info_of ex_bil) (f32_dec 15 1) (f32_dec 75 2) = Info 6 3 1 false) by (vm_compute; reflexivity).
  rewrite E. cbn [width height].
  split; [apply wfb_wf; vm_compute; reflexivity|]. split; [const_val|]. split; [const_val|].
  split; [vm_compute; repeat split; discriminate|]. split; [lra|]. split; [lra|]. vm_compute; split; reflexivity.
Qed.
