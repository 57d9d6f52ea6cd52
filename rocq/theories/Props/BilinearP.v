(** * C75: src/transform.rs, scale with Scale::Bilinear for every factor *)
From Coq Require Import Permutation Lra.
From Flocq Require Import Core BinarySingleNaN.
From Verif.Model Require Import Transform.
From Verif.Spec Require Import ImageS FloatS ResampleS ConvS ColorS BilinearS.
From Verif.Proofs Require Import BaseL ImageL Safe TransformL FloatL FloatL2 DyadL ApproxL ResampleL SrgbL3.
From Verif.Props Require Import ScaleP ResampleP BicubicP.
Open Scope R_scope.

(** ** positions *)
Lemma round_bound (X : f32) r x : fin X r -> (0 <= x < f32_to_int U32 (f32_round X))%Z -> IZR x + / 2 <= r.
Proof.
  intros F Hx. pose proof (nearby_fin (prec := 24) (emax := 128) mode_NA X r F) as E. cbn [round_mode] in E.
  change (Bnearbyint mode_NA X) with (f32_round X) in E.
  unfold f32_to_int in Hx. rewrite (to_int_fin U32 _ _ ltac:(cbn; lia) E) in Hx. rewrite Ztrunc_IZR in Hx. unfold clampZ in Hx. cbn [lo hi U32] in Hx.
  assert (Hz : (x + 1 <= ZnearestA r)%Z) by lia. apply IZR_le in Hz. rewrite plus_IZR in Hz.
  pose proof (Znearest_half (Zle_bool 0) r) as Hh. change (Znearest (Zle_bool 0) r) with (ZnearestA r) in Hh. apply Rabs_bd in Hh. lra.
Qed.

Lemma bil_pos (xf : f32) a w x : fin xf a -> 0 < a -> (1 <= w <= 16777216)%Z -> IZR w * a <= 4194304 ->
  (0 <= x < f32_to_int U32 (f32_round (f32_mul (f32_of_Z w) xf)))%Z ->
  exists q, fin (f32_div (f32_of_Z x) xf) q /\ 0 <= q < IZR w /\ Rabs (q - IZR x / a) <= IZR x / a / 16777216.
Proof.
  intros F Ha Hw Hwa Hx.
  assert (Hw1 : 1 <= IZR w <= 16777216) by (split; [apply (IZR_le 1)|apply (IZR_le w 16777216)]; lia).
  assert (Ha' : 0 < IZR w * a) by (apply Rmult_lt_0_compat; lra).
  assert (Fm : fin (f32_mul (f32_of_Z w) xf) (rnd32 (IZR w * a))).
  { apply mul_fin; [apply of_Z_isZ; lia|exact F|]. rewrite Rabs_pos_eq by lra.
    eapply Rle_trans; [exact Hwa|]. replace 4194304 with (bpow radix2 22) by (cbn; lra). apply bpow_le. lia. }
  pose proof (round_bound _ _ x Fm Hx) as Hr.
  assert (Ew : Rabs (rnd32 (IZR w * a) - IZR w * a) <= IZR (2 ^ 22) * uu).
  { apply rnd_err; [lia|]. rewrite Rabs_pos_eq by lra. change (IZR (2 ^ 22)) with 4194304. exact Hwa. }
  change (IZR (2 ^ 22)) with 4194304 in Ew. unfold uu in Ew. apply Rabs_bd in Ew.
  assert (Hx0 : 0 <= IZR x) by (apply (IZR_le 0); lia).
  assert (HxM : IZR x <= IZR w * a - 3 / 8) by lra.
  assert (HxZ : (x <= 16777216)%Z) by (apply le_IZR; lra).
  assert (Fx : fin (f32_of_Z x) (IZR x)) by (apply of_Z_isZ; lia).
  assert (Hia0 : 0 < / a) by (apply Rinv_0_lt_compat; exact Ha).
  assert (Hq0 : 0 <= IZR x / a) by (apply Rmult_le_pos; lra).
  assert (Hqw : IZR x / a <= IZR w - 3 / 8 * / a).
  { apply Rmult_le_reg_r with a; [exact Ha|]. unfold Rdiv. rewrite Rmult_assoc, Rinv_l, Rmult_minus_distr_r, !Rmult_assoc, Rinv_l by lra. lra. }
  assert (Hia : IZR w / 4194304 <= / a).
  { apply Rmult_le_reg_r with a; [exact Ha|]. rewrite Rinv_l by lra. lra. }
  assert (Erel : Rabs (rnd32 (IZR x / a) - IZR x / a) <= IZR x / a / 16777216).
  { destruct (Z.eq_dec x 0) as [->|Hx1].
    - replace (IZR 0 / a) with 0 by (unfold Rdiv; cbn; ring). replace (rnd32 0) with 0 by (symmetry; apply (rnd_Z (prec := 24) (emax := 128) 0); cbn; lia).
      rewrite Rminus_0_r, Rabs_R0. lra.
    - assert (1 <= IZR x) by (apply (IZR_le 1); lia).
      pose proof (rel_err (IZR x / a)) as R. rewrite (Rabs_pos_eq (IZR x / a)) in R by exact Hq0.
      replace (bpow radix2 (-24)) with (/ 16777216) in R by (cbn; lra).
      eapply Rle_trans; [apply R|right; unfold Rdiv; ring].
      apply Rle_trans with (/ a); [|unfold Rdiv; rewrite <- (Rmult_1_l (/ a)) at 1; apply Rmult_le_compat_r; lra].
      apply Rle_trans with (/ 4194304); [|lra]. replace (/ 4194304) with (bpow radix2 (-22)) by (cbn; lra). apply bpow_le. lia. }
  exists (rnd32 (IZR x / a)). split; [|split; [split|exact Erel]].
  - apply div_fin; [exact Fx|exact F|lra|]. rewrite Rabs_pos_eq by exact Hq0. apply Rle_trans with 16777216; [lra|].
    replace 16777216 with (bpow radix2 24) by (cbn; lra). apply bpow_le. lia.
  - apply (rnd_ge_Z (prec := 24) (emax := 128) _ 0); [exact Hq0|cbn; lia].
  - apply Rabs_bd in Erel. lra.
Qed.

(** ** mixing *)
Lemma bilinear_mix_ap k p1 p2 p3 p4 xw yw (v1 v2 v3 v4 dx dy : R) : (0 <= k <= 90)%Z ->
  fin p1 v1 -> fin p2 v2 -> fin p3 v3 -> fin p4 v4 ->
  Rabs v1 <= IZR (2 ^ k) -> Rabs v2 <= IZR (2 ^ k) -> Rabs v3 <= IZR (2 ^ k) -> Rabs v4 <= IZR (2 ^ k) ->
  approx xw dx uu -> approx yw dy uu -> 0 <= dx <= 1 -> 0 <= dy <= 1 ->
  approx (bilinear_mix p1 p2 p3 p4 xw yw) (bilinear_swapped v1 v2 v3 v4 dx dy) (IZR (2 ^ k) / 524288).
Proof.
  intros Hk F1 F2 F3 F4 B1 B2 B3 B4 Ax Ay Hx Hy. set (K := IZR (2 ^ k)) in *.
  assert (K1 : 1 <= K) by (apply (IZR_le 1); pose proof (Z.pow_pos_nonneg 2 k); lia).
  assert (E1 : IZR (2 ^ (k + 1)) = 2 * K) by (rewrite Z.pow_add_r, mult_IZR by lia; unfold K; cbn; ring).
  assert (E2 : IZR (2 ^ (k + 2)) = 4 * K) by (rewrite Z.pow_add_r, mult_IZR by lia; unfold K; cbn; ring).
  assert (One : approx f32_1 1 0) by (apply fin_ap; apply isZ_1).
  assert (Aox : approx (f32_sub f32_1 xw) (1 - dx) (3 * uu)).
  { apply (ap_sub 1 _ _ _ _ 0 uu); [exact One|exact Ax|lia| |]; change (IZR (2 ^ 1)) with 2; unfold uu; [rewrite Rabs_pos_eq by lra|]; lra. }
  assert (Aoy : approx (f32_sub f32_1 yw) (1 - dy) (3 * uu)).
  { apply (ap_sub 1 _ _ _ _ 0 uu); [exact One|exact Ay|lia| |]; change (IZR (2 ^ 1)) with 2; unfold uu; [rewrite Rabs_pos_eq by lra|]; lra. }
  assert (T : forall P v X dx Y dy, fin P v -> Rabs v <= K -> approx X dx (3 * uu) -> approx Y dy (3 * uu) -> 0 <= dx <= 1 -> 0 <= dy <= 1 ->
    approx (f32_mul (f32_mul P X) Y) (v * dx * dy) (11 * K * uu) /\ Rabs (v * dx * dy) <= K * (dx * dy)).
  { clear - Hk K1 E1. intros P v X dx Y dy F B AX AY Hx Hy.
    assert (A1 : approx (f32_mul P X) (v * dx) (5 * K * uu)).
    { apply (ap_mul (k + 1) K 1 _ _ _ _ 0 (3 * uu)); [apply fin_ap; exact F|exact AX|lia|exact B|rewrite Rabs_pos_eq; lra| |]; rewrite E1; unfold uu; lra. }
    assert (B1 : Rabs (v * dx) <= K).
    { rewrite Rabs_mult, (Rabs_pos_eq dx) by lra. rewrite <- (Rmult_1_r K). apply Rmult_le_compat; try lra. apply Rabs_pos. }
    split.
    - apply (ap_mul (k + 1) K 1 _ _ _ _ (5 * K * uu) (3 * uu)); [exact A1|exact AY|lia|exact B1|rewrite Rabs_pos_eq; lra| |]; rewrite E1; unfold uu; lra.
    - rewrite !Rabs_mult, (Rabs_pos_eq dx), (Rabs_pos_eq dy), Rmult_assoc by lra. apply Rmult_le_compat_r; [apply Rmult_le_pos; lra|exact B]. }
  assert (Ax3 : approx xw dx (3 * uu)) by (apply (ap_weaken _ _ uu); [exact Ax|unfold uu; lra]).
  assert (Ay3 : approx yw dy (3 * uu)) by (apply (ap_weaken _ _ uu); [exact Ay|unfold uu; lra]).
  destruct (T p1 v1 xw dx yw dy F1 B1 Ax3 Ay3 Hx Hy) as [T1 C1].
  destruct (T p2 v2 _ (1 - dx) yw dy F2 B2 Aox Ay3 ltac:(lra) Hy) as [T2 C2].
  destruct (T p3 v3 xw dx _ (1 - dy) F3 B3 Ax3 Aoy Hx ltac:(lra)) as [T3 C3].
  destruct (T p4 v4 _ (1 - dx) _ (1 - dy) F4 B4 Aox Aoy ltac:(lra) ltac:(lra)) as [T4 C4].
  unfold bilinear_mix.
  set (t1 := v1 * dx * dy) in *. set (t2 := v2 * (1 - dx) * dy) in *. set (t3 := v3 * dx * (1 - dy)) in *. set (t4 := v4 * (1 - dx) * (1 - dy)) in *.
  assert (P1 : 0 <= dx * dy <= 1) by nra. assert (P2 : 0 <= (1 - dx) * dy <= 1) by nra. assert (P3 : 0 <= dx * (1 - dy) <= 1) by nra. assert (P4 : 0 <= (1 - dx) * (1 - dy) <= 1) by nra.
  assert (PS : dx * dy + (1 - dx) * dy + dx * (1 - dy) + (1 - dx) * (1 - dy) = 1) by ring.
  set (w1 := dx * dy) in *. set (w2 := (1 - dx) * dy) in *. set (w3 := dx * (1 - dy)) in *. set (w4 := (1 - dx) * (1 - dy)) in *.
  assert (KS : K * w1 + K * w2 + K * w3 + K * w4 = K) by (rewrite <- !Rmult_plus_distr_l, PS; ring).
  assert (Q1 : 0 <= K * w1) by (apply Rmult_le_pos; lra). assert (Q2 : 0 <= K * w2) by (apply Rmult_le_pos; lra).
  assert (Q3 : 0 <= K * w3) by (apply Rmult_le_pos; lra). assert (Q4 : 0 <= K * w4) by (apply Rmult_le_pos; lra).
  assert (Eb : bilinear_swapped v1 v2 v3 v4 dx dy = t1 + t2 + t3 + t4) by (unfold bilinear_swapped, bilinear, blend, t1, t2, t3, t4; ring).
  rewrite Eb. clear Eb T Aox Aoy Ax Ay Ax3 Ay3 P1 P2 P3 P4 PS. clearbody t1 t2 t3 t4 w1 w2 w3 w4.
  apply Rabs_bd in C1, C2, C3, C4.
  assert (S2 : approx (f32_add (f32_mul (f32_mul p1 xw) yw) (f32_mul (f32_mul p2 (f32_sub f32_1 xw)) yw)) (t1 + t2) (24 * K * uu)).
  { apply (ap_add (k + 1) _ _ _ _ (11 * K * uu) (11 * K * uu)); [exact T1|exact T2|lia| |]; rewrite E1; unfold uu; [|lra].
    assert (Rabs (t1 + t2) <= K) by (apply Rabs_le'; lra). lra. }
  assert (S3 : approx (f32_add (f32_add (f32_mul (f32_mul p1 xw) yw) (f32_mul (f32_mul p2 (f32_sub f32_1 xw)) yw)) (f32_mul (f32_mul p3 xw) (f32_sub f32_1 yw))) (t1 + t2 + t3) (37 * K * uu)).
  { apply (ap_add (k + 1) _ _ _ _ (24 * K * uu) (11 * K * uu)); [exact S2|exact T3|lia| |]; rewrite E1; unfold uu; [|lra].
    assert (Rabs (t1 + t2 + t3) <= K) by (apply Rabs_le'; lra). lra. }
  apply (ap_add (k + 1) _ _ _ _ (37 * K * uu) (11 * K * uu)); [exact S3|exact T4|lia| |]; rewrite E1; unfold uu; [|lra].
  assert (Rabs (t1 + t2 + t3 + t4) <= K) by (apply Rabs_le'; lra). lra.
Qed.

Lemma bil_axis (X : f32) q w : fin X q -> 0 <= q < IZR w -> (1 <= w <= 16777216)%Z ->
  f32_to_int U32 (f32_floor X) = Zfloor q /\ f32_to_int U32 (f32_ceil X) = Zceil q
  /\ (0 <= Zfloor q < w)%Z /\ (0 <= Z.min (Zceil q) (w - 1) < w)%Z
  /\ approx (f32_sub X (f32_of_Z (Zfloor q))) (q - IZR (Zfloor q)) uu /\ 0 <= q - IZR (Zfloor q) <= 1.
Proof.
  intros F Hq Hw.
  assert (Hf : (0 <= Zfloor q < w)%Z).
  { split; [apply Zfloor_lub; apply Hq|]. apply lt_IZR. eapply Rle_lt_trans; [apply Zfloor_lb|apply Hq]. }
  assert (Hc : (0 <= Zceil q <= w)%Z).
  { split; [|apply Zceil_glb; lra]. apply le_IZR. pose proof (Zceil_ub q). lra. }
  pose proof (nearby_fin (prec := 24) (emax := 128) mode_DN X q F) as ED. cbn [round_mode] in ED. change (Bnearbyint mode_DN X) with (f32_floor X) in ED.
  pose proof (nearby_fin (prec := 24) (emax := 128) mode_UP X q F) as EU. cbn [round_mode] in EU. change (Bnearbyint mode_UP X) with (f32_ceil X) in EU.
  pose proof (Zfloor_lb q). pose proof (Zfloor_ub q).
  split; [|split; [|split; [exact Hf|split; [lia|split; [|lra]]]]].
  - unfold f32_to_int. rewrite (to_int_fin U32 _ _ ltac:(cbn; lia) ED), Ztrunc_IZR. unfold clampZ. cbn [lo hi U32]. lia.
  - unfold f32_to_int. rewrite (to_int_fin U32 _ _ ltac:(cbn; lia) EU), Ztrunc_IZR. unfold clampZ. cbn [lo hi U32]. lia.
  - exists (rnd32 (q - IZR (Zfloor q))). split.
    + apply sub_fin; [exact F|apply of_Z_isZ; lia|]. rewrite Rabs_pos_eq by lra. apply Rle_trans with 1; [lra|].
      change 1 with (bpow radix2 0). apply bpow_le. lia.
    + pose proof (rnd_err 0 (q - IZR (Zfloor q)) ltac:(lia)) as R. change (IZR (2 ^ 0)) with 1 in R. rewrite Rmult_1_l in R. apply R.
      rewrite Rabs_pos_eq; lra.
Qed.

(** ** the theorem *)
(** every output sample mixes the (up to) four samples around the source position (qx, qy), which is the output
    position divided by the factors (up to rounding); but each neighbour gets the weight of the opposite one *)
Theorem C75_bilinear p lm (img : image f32) (xf yf : f32) (a b : R) k : wf img ->
  (width (info_of img) <= 16777216)%Z -> (height (info_of img) <= 16777216)%Z ->
  fin xf a -> 0 < a -> fin yf b -> 0 < b ->
  IZR (width (info_of img)) * a <= 4194304 -> IZR (height (info_of img)) * b <= 4194304 ->
  info_ok (scaled (info_of img) xf yf) -> (0 <= k <= 90)%Z -> samples_below k img ->
  exists out, scale_seq p lm img xf yf Bilinear = Ret out
    /\ (forall sched, Permutation sched (zrange 0 (width (info_of out) * height (info_of out))) -> scale_par p lm sched img xf yf Bilinear = Ret out)
    /\ wf out /\ info_of out = scaled (info_of img) xf yf
    /\ forall x y c, inside out x y -> (0 <= c < channels (info_of img))%Z ->
       exists s r qx qy, sample out x y c = Some s /\ fin s r
         /\ 0 <= qx < IZR (width (info_of img)) /\ Rabs (qx - IZR x / a) <= IZR x / a / 16777216
         /\ 0 <= qy < IZR (height (info_of img)) /\ Rabs (qy - IZR y / b) <= IZR y / b / 16777216
         /\ let left := Zfloor qx in let right := Z.min (Zceil qx) (width (info_of img) - 1) in
            let upper := Zfloor qy in let lower := Z.min (Zceil qy) (height (info_of img) - 1) in
            Rabs (r - bilinear_swapped (value_at img left upper c) (value_at img right upper c) (value_at img left lower c) (value_at img right lower c)
                        (qx - IZR left) (qy - IZR upper)) <= IZR (2 ^ k) / 524288.
Proof.
  intros Hwf Hw Hh Fx Ha Fy Hb Hwa Hhb Hok Hk Hs.
  assert (Z0 : fin f32_0 0) by apply isZ_0.
  assert (Nx : f32_ltb xf f32_0 = false).
  { change (f32_ltb xf f32_0) with (Bltb xf f32_0). rewrite (ltb_fin xf f32_0 a 0 Fx Z0). apply Rlt_bool_false. lra. }
  assert (Ny : f32_ltb yf f32_0 = false).
  { change (f32_ltb yf f32_0) with (Bltb yf f32_0). rewrite (ltb_fin yf f32_0 b 0 Fy Z0). apply Rlt_bool_false. lra. }
  pose proof (wf_w _ Hwf). pose proof (wf_h _ Hwf). pose proof (wf_c _ Hwf).
  set (w := width (info_of img)) in *. set (h := height (info_of img)) in *.
  assert (Pos : forall x y, (0 <= x < width (scaled (info_of img) xf yf))%Z -> (0 <= y < height (scaled (info_of img) xf yf))%Z ->
    (1 <= w)%Z /\ (1 <= h)%Z /\ exists qx qy, fin (f32_div (f32_of_Z x) xf) qx /\ fin (f32_div (f32_of_Z y) yf) qy
    /\ 0 <= qx < IZR w /\ Rabs (qx - IZR x / a) <= IZR x / a / 16777216 /\ 0 <= qy < IZR h /\ Rabs (qy - IZR y / b) <= IZR y / b / 16777216).
  { intros x y Hx Hy. cbn [scaled width height] in Hx, Hy. fold w in Hx. fold h in Hy.
    assert (W1 : (1 <= w)%Z). { destruct (Z.eq_dec w 0) as [E0|]; [|lia]. exfalso. rewrite E0, scale_zero in Hx. lia. }
    assert (H1' : (1 <= h)%Z). { destruct (Z.eq_dec h 0) as [E0|]; [|lia]. exfalso. rewrite E0, scale_zero in Hy. lia. }
    split; [exact W1|]. split; [exact H1'|].
    destruct (bil_pos xf a w x Fx Ha ltac:(lia) Hwa Hx) as [qx (F1 & R1 & E1)]. destruct (bil_pos yf b h y Fy Hb ltac:(lia) Hhb Hy) as [qy (F2 & R2 & E2)].
    exists qx, qy. tauto. }
  set (at4 := fun x y c => let l := f32_to_int U32 (f32_floor (f32_div (f32_of_Z x) xf)) in let r := Z.min (f32_to_int U32 (f32_ceil (f32_div (f32_of_Z x) xf))) (w - 1) in
    let u := f32_to_int U32 (f32_floor (f32_div (f32_of_Z y) yf)) in let d := Z.min (f32_to_int U32 (f32_ceil (f32_div (f32_of_Z y) yf))) (h - 1) in
    bilinear_mix (nth (Z.to_nat c) (pixel_at img l u) f32_0) (nth (Z.to_nat c) (pixel_at img r u) f32_0)
      (nth (Z.to_nat c) (pixel_at img l d) f32_0) (nth (Z.to_nat c) (pixel_at img r d) f32_0)
      (f32_sub (f32_div (f32_of_Z x) xf) (f32_of_Z l)) (f32_sub (f32_div (f32_of_Z y) yf) (f32_of_Z u))).
  destruct (scale_ok p lm img xf yf Bilinear (scaled (info_of img) xf yf) (fun x y => map (at4 x y) (zrange 0 (channels (info_of img)))))
    as [out (E & Ep & Wo & I & Sh)]; try assumption; try reflexivity.
  { intros x y Hx Hy. cbn [scale_interp]. destruct (Pos x y Hx Hy) as (W1 & H1' & qx & qy & F1 & F2 & R1 & E1 & R2 & E2).
    destruct (bil_axis _ qx w F1 R1 ltac:(lia)) as (Ex1 & Ex2 & Ix1 & Ix2 & _). destruct (bil_axis _ qy h F2 R2 ltac:(lia)) as (Ey1 & Ey2 & Iy1 & Iy2 & _).
    unfold at4. cbv zeta. apply (bilinear_eq p img xf yf x y); try assumption; try reflexivity; try (fold w; lia); try (fold h; lia).
    - split; fold w h; rewrite ?Ex1, ?Ey1; assumption.
    - split; fold w h; rewrite ?Ex2, ?Ey2; assumption. }
  { intros x y _ _. rewrite len_map, len_zrange by lia. cbn [scaled channels]. lia. }
  exists out. split; [exact E|]. split; [rewrite I; exact Ep|]. split; [exact Wo|]. split; [exact I|].
  intros x y c Hin Hc. pose proof Hin as [Hx Hy]. rewrite I in Hx, Hy.
  destruct (Pos x y Hx Hy) as (W1 & H1' & qx & qy & F1 & F2 & R1 & E1 & R2 & E2).
  destruct (bil_axis _ qx w F1 R1 ltac:(lia)) as (Ex1 & Ex2 & Ix1 & Ix2 & Ax & Dx). destruct (bil_axis _ qy h F2 R2 ltac:(lia)) as (Ey1 & Ey2 & Iy1 & Iy2 & Ay & Dy).
  assert (HV : forall i j, (0 <= i < w)%Z -> (0 <= j < h)%Z -> fin (nth (Z.to_nat c) (pixel_at img i j) f32_0) (value_at img i j c) /\ Rabs (value_at img i j c) <= IZR (2 ^ k)).
  { intros i j Hi Hj. apply nth_pixel_sample; try assumption. split; assumption. }
  destruct (HV _ _ Ix1 Iy1) as [V1 U1]. destruct (HV _ _ Ix2 Iy1) as [V2 U2]. destruct (HV _ _ Ix1 Iy2) as [V3 U3]. destruct (HV _ _ Ix2 Iy2) as [V4 U4].
  destruct (bilinear_mix_ap k _ _ _ _ _ _ _ _ _ _ _ _ Hk V1 V2 V3 V4 U1 U2 U3 U4 Ax Ay Dx Dy) as [r [Fr Hr]].
  eexists _, r, qx, qy. split; [|split; [exact Fr|]].
  - unfold sample. rewrite (Sh x y Hin). rewrite nth_error_map. rewrite (nth_error_nth' (zrange 0 (channels (info_of img))) 0%Z) by (rewrite zrange_length; lia).
    cbn [option_map]. rewrite nth_zrange by lia. rewrite Z.add_0_l. unfold at4. cbv zeta. rewrite Ex1, Ex2, Ey1, Ey2. reflexivity.
  - repeat (split; [assumption|]). exact Hr.
Qed.

Lemma bilinear_between ul ur ll lr dx dy lo hi : 0 <= dx <= 1 -> 0 <= dy <= 1 ->
  lo <= ul <= hi -> lo <= ur <= hi -> lo <= ll <= hi -> lo <= lr <= hi -> lo <= bilinear_swapped ul ur ll lr dx dy <= hi.
Proof.
  intros Hx Hy H1 H2 H3 H4. unfold bilinear_swapped, bilinear.
  assert (B : forall t u v, 0 <= t <= 1 -> lo <= u <= hi -> lo <= v <= hi -> lo <= blend t u v <= hi).
  { intros t u v Ht Hu Hv. unfold blend. split; nra. }
  apply B; [lra| |]; apply B; lra.
Qed.
(** so no sample leaves the range of the channel, and flat channels stay flat *)
Theorem C75_no_overshoot p lm (img : image f32) (xf yf : f32) (a b : R) k c lo hi : wf img ->
  (width (info_of img) <= 16777216)%Z -> (height (info_of img) <= 16777216)%Z ->
  fin xf a -> 0 < a -> fin yf b -> 0 < b ->
  IZR (width (info_of img)) * a <= 4194304 -> IZR (height (info_of img)) * b <= 4194304 ->
  info_ok (scaled (info_of img) xf yf) -> (0 <= k <= 90)%Z -> samples_below k img -> (0 <= c < channels (info_of img))%Z ->
  (forall x y, inside img x y -> lo <= value_at img x y c <= hi) ->
  exists out, scale_seq p lm img xf yf Bilinear = Ret out /\ info_of out = scaled (info_of img) xf yf
    /\ forall x y, inside out x y -> exists s r, sample out x y c = Some s /\ fin s r
         /\ lo - IZR (2 ^ k) / 524288 <= r <= hi + IZR (2 ^ k) / 524288.
Proof.
  intros Hwf Hw Hh Fx Ha Fy Hb Hwa Hhb Hok Hk Hs Hc Hv.
  destruct (C75_bilinear p lm img xf yf a b k) as [out (E & _ & _ & I & H)]; try assumption.
  exists out. split; [exact E|]. split; [exact I|]. intros x y Hin.
  destruct (H x y c Hin Hc) as (s & r & qx & qy & Es & Fr & Rx & _ & Ry & _ & Hr). exists s, r. split; [exact Es|]. split; [exact Fr|]. cbv zeta in Hr.
  assert (A : forall q w, 0 <= q < IZR w -> (0 <= Zfloor q < w)%Z /\ (0 <= Z.min (Zceil q) (w - 1) < w)%Z /\ 0 <= q - IZR (Zfloor q) <= 1).
  { intros q w Hq. assert (0 <= Zfloor q < w)%Z.
    { split; [apply Zfloor_lub; apply Hq|]. apply lt_IZR. eapply Rle_lt_trans; [apply Zfloor_lb|apply Hq]. }
    assert (0 <= Zceil q)%Z. { apply le_IZR. pose proof (Zceil_ub q). lra. }
    pose proof (Zfloor_lb q). pose proof (Zfloor_ub q). split; [lia|]. split; [lia|lra]. }
  destruct (A qx _ Rx) as (X1 & X2 & X3). destruct (A qy _ Ry) as (Y1 & Y2 & Y3).
  apply Rabs_bd in Hr.
  match type of Hr with context [bilinear_swapped ?u1 ?u2 ?u3 ?u4 ?dx ?dy] => pose proof (bilinear_between u1 u2 u3 u4 dx dy lo hi X3 Y3
    (Hv _ _ (conj X1 Y1)) (Hv _ _ (conj X2 Y1)) (Hv _ _ (conj X1 Y2)) (Hv _ _ (conj X2 Y2))) end. lra.
Qed.

(** ** the size bound is needed: stretching a 4177 pixel wide line 1064.7685546875 times panics *)
Definition factor_1064 : f32 := binary_normalize 24 128 _ _ mode_NE 2180646 (-11) false.
Theorem C75_bound_needed p lm (img : image f32) : wf img -> width (info_of img) = 4177%Z -> height (info_of img) = 1%Z ->
  fin factor_1064 (2180646 / 2048) /\ 4194304 < 4177 * (2180646 / 2048) /\ width (scaled (info_of img) factor_1064 f32_1) = 4447539%Z
  /\ scale_panics p lm img factor_1064 f32_1 Bilinear.
Proof.
  intros Hwf Hw Hh. pose proof (wf_c _ Hwf).
  assert (Es : scale_info img factor_1064 f32_1 = Info 4447539 1 (channels (info_of img)) (alpha (info_of img))).
  { unfold scale_info. cbv zeta. rewrite Hw, Hh. f_equal; vm_compute; reflexivity. }
  split; [const_val|]. split; [lra|]. split; [change (scaled (info_of img) factor_1064 f32_1) with (scale_info img factor_1064 f32_1); rewrite Es; reflexivity|].
  apply (scale_panic p lm img factor_1064 f32_1 Bilinear 4447538 0); try assumption.
  - vm_compute. reflexivity.
  - vm_compute. reflexivity.
  - rewrite Es. unfold info_ok, u32_max. cbn [width height channels alpha]. lia.
  - rewrite Es. cbn [width]. lia.
  - rewrite Es. cbn [height]. lia.
  - cbn [scale_interp]. unfold interpolate_bilinear. cbv zeta. rewrite Hw, Hh.
    rewrite isub_ok by (cbn; lia). cbn [bind]. rewrite isub_ok by (cbn; lia). cbn [bind].
    assert (E1 : f32_to_int U32 (f32_floor (f32_div (f32_of_Z 4447538) factor_1064)) = 4177%Z) by (vm_compute; reflexivity).
    assert (E2 : f32_to_int U32 (f32_floor (f32_div (f32_of_Z 0) f32_1)) = 0%Z) by (vm_compute; reflexivity).
    rewrite E1, E2. rewrite (get_pixel_panic img p 4177 0); [reflexivity|lia|lia|]. intros [Hx _]. lia.
Qed.

(** ** a case meeting the hypotheses: 3/2 times wider, 3/4 as high *)
Definition ex_bil : image f32 := Image (Info 4 4 1 false) (map f32_of_Z [10; 20; 30; 40; 50; 60; 70; 80; 90; 100; 110; 120; 130; 140; 150; 160]%Z).
Example C75_example : wf ex_bil /\ fin (f32_dec 15 1) (3/2) /\ fin (f32_dec 75 2) (3/4) /\ samples_below 8 ex_bil
  /\ info_ok (scaled (info_of ex_bil) (f32_dec 15 1) (f32_dec 75 2)) /\ 4 * (3/2) <= 4194304
  /\ match scale_seq Debug (Libm (fun x _ => x) (fun x => x) (fun x => x)) ex_bil (f32_dec 15 1) (f32_dec 75 2) Bilinear with
     | Ret out => info_of out = Info 6 3 1 false /\ map (f32_to_int I32) (data out) = [10; 13; 26; 30; 33; 40; 76; 80; 93; 96; 100; 106; 103; 106; 120; 123; 126; 133]%Z | _ => False end.
Proof.
  split; [apply wfb_wf; vm_compute; reflexivity|]. split; [const_val|]. split; [const_val|].
  split; [|split; [vm_compute; repeat split; discriminate|split; [lra|vm_compute; split; try reflexivity]]].
  { unfold samples_below, samples, ex_bil. cbn [data]. apply Forall_forall. intros s Hs. apply in_map_iff in Hs as [z [<- Hz]].
    assert (0 <= z <= 255)%Z by (cbn [In] in Hz; repeat (destruct Hz as [<-|Hz]; [lia|]); destruct Hz).
    destruct (of_Z_isZ z ltac:(lia)) as [Hf ->]. split; [exact Hf|]. change (IZR (2 ^ 8)) with 256.
    apply Rabs_le'; [apply Rle_trans with 0; [lra|apply (IZR_le 0)]|apply (IZR_le z 256)]; lia. }
Qed.
