(** * C67: src/transform.rs, scale with Scale::Bicubic is B-spline smoothing. *)
From Coq Require Import Permutation Lra.
From Flocq Require Import Core BinarySingleNaN.
From Verif.Model Require Import Transform.
From Verif.Spec Require Import ImageS FloatS SumS ConvS ResampleS BsplineS ColorS.
From Verif.Proofs Require Import BaseL ImageL Safe TransformL FloatL FloatL2 DyadL ApproxL ResampleL.
From Verif.Props Require Import ScaleP ResampleP.
Open Scope R_scope.

(** ** specification *)
Definition offsets : list Z := [-1; 0; 1; 2]%Z.
Definition offset_pairs : list (Z * Z) := list_prod offsets offsets.
(** real value of sample c of the pixel at (x, y) *)
Definition value_at (img : image f32) (x y c : Z) : R := B2R (nth (Z.to_nat c) (pixel_at img x y) f32_0).
(** the B-spline smoothing of channel c around the position (px, py), whose fractional parts
    are dx and dy *)
Definition smoothed (img : image f32) (px py : f32) (dx dy : R) (c : Z) : R :=
  sum_over offset_pairs (fun mn =>
    value_at img (tap (width (info_of img)) px (fst mn)) (tap (height (info_of img)) py (snd mn)) c
    * (bspline (IZR (fst mn) - dx) * bspline (IZR (snd mn) - dy))).

(** ** positions *)
Lemma round_ge_1 (x : f32) r : fin x r -> (0 < f32_to_int U32 (f32_round x))%Z -> / 2 <= r.
Proof.
  intros F H. destruct (Rle_lt_dec (/ 2) r) as [G|L]; [exact G|exfalso].
  pose proof (nearby_fin (prec := 24) (emax := 128) mode_NA x r F) as E. cbn [round_mode] in E.
  change (Bnearbyint mode_NA x) with (f32_round x) in E.
  assert (HZ : (ZnearestA r <= 0)%Z).
  { destruct (Rle_lt_dec 0 r) as [P|N].
    - assert (Zfloor r = 0)%Z by (apply Zfloor_imp; cbn; lra).
      unfold ZnearestA, Znearest. rewrite H0. cbn [IZR]. rewrite Rminus_0_r.
      rewrite Rcompare_Lt by lra. lia.
    - assert (Zceil r <= 0)%Z by (apply Zceil_glb; cbn; lra).
      pose proof (Znearest_DN_or_UP (Zle_bool 0) r) as [D|D].
      + change (ZnearestA r) with (Znearest (Zle_bool 0) r). rewrite D.
        assert (Zfloor r <= 0)%Z; [|lia]. apply le_IZR. pose proof (Zfloor_lb r). cbn. lra.
      + change (ZnearestA r) with (Znearest (Zle_bool 0) r). rewrite D. exact H0. }
  unfold f32_to_int in H. rewrite (to_int_fin U32 _ _ ltac:(cbn; lia) E) in H.
  rewrite Ztrunc_IZR in H. unfold clampZ in H. cbn [lo hi U32] in H. lia.
Qed.

Lemma pos_fin (xf : f32) a w x : fin xf a -> 0 < a -> (0 <= w <= 16777216)%Z ->
  (0 <= x < f32_to_int U32 (f32_round (f32_mul (f32_of_Z w) xf)))%Z ->
  exists q, fin (f32_div (f32_of_Z x) xf) q /\ 0 <= q.
Proof.
  intros F Ha Hw Hx.
  assert (HxU : (x <= 4294967295)%Z) by (pose proof (u32_range (f32_round (f32_mul (f32_of_Z w) xf))); lia).
  assert (Hwa : / 4 <= IZR w * a).
  { assert (Hw0 : 0 <= IZR w) by (apply (IZR_le 0); lia).
    destruct (Rle_lt_dec (IZR w * a) 1) as [S|S]; [|lra].
    assert (Fm : fin (f32_mul (f32_of_Z w) xf) (rnd32 (IZR w * a))).
    { apply mul_fin; [apply of_Z_isZ; lia|exact F|]. rewrite Rabs_pos_eq by (apply Rmult_le_pos; lra).
      eapply Rle_trans; [exact S|]. change 1 with (bpow radix2 0). apply bpow_le. lia. }
    pose proof (round_ge_1 _ _ Fm ltac:(lia)) as G.
    destruct (Rle_lt_dec (/ 4) (IZR w * a)) as [G4|L4]; [exact G4|exfalso].
    assert (rnd32 (IZR w * a) <= / 4).
    { apply rnd_le_fmt; [lra|]. change (/ 4) with (bpow radix2 (-2)). apply generic_format_bpow. cbn. lia. }
    lra. }
  assert (Hwb : IZR w <= 16777216) by (apply (IZR_le w 16777216); lia).
  assert (Hia : / a <= 67108864).
  { apply Rmult_le_reg_r with a; [exact Ha|]. rewrite Rinv_l by lra.
    assert (IZR w * a <= 16777216 * a) by (apply Rmult_le_compat_r; lra). lra. }
  assert (Fx : fin (f32_of_Z x) (rnd32 (IZR x))).
  { apply of_Z_fin. rewrite Z.abs_eq by lia. assert (2 ^ 32 <= 2 ^ (128 - 1))%Z by (apply Z.pow_le_mono_r; lia).
    change (2 ^ 32)%Z with 4294967296%Z in *. lia. }
  assert (Hr0 : 0 <= rnd32 (IZR x)) by (apply (rnd_ge_Z (prec := 24) (emax := 128) (IZR x) 0); [apply (IZR_le 0); lia|cbn; lia]).
  assert (Hr1 : rnd32 (IZR x) <= 4294967296).
  { apply rnd_le_fmt; [apply IZR_le; lia|]. replace 4294967296 with (bpow radix2 32) by (cbn; lra). apply generic_format_bpow. cbn. lia. }
  assert (Hia0 : 0 < / a) by (apply Rinv_0_lt_compat; exact Ha).
  assert (Hq : 0 <= rnd32 (IZR x) / a) by (apply Rmult_le_pos; lra).
  exists (rnd32 (rnd32 (IZR x) / a)). split.
  - apply div_fin; [exact Fx|exact F|lra|]. rewrite Rabs_pos_eq by exact Hq.
    apply Rle_trans with (4294967296 * 67108864); [apply Rmult_le_compat; lra|].
    apply Rle_trans with (bpow radix2 58); [cbn; lra|apply bpow_le; lia].
  - apply (rnd_ge_Z (prec := 24) (emax := 128) _ 0); [exact Hq|cbn; lia].
Qed.

Lemma frac_fin (t : f32) q : fin t q -> 0 <= q -> exists d, fin (frac t) d /\ 0 <= d <= 1.
Proof.
  intros F Hq. unfold frac.
  pose proof (nearby_fin (prec := 24) (emax := 128) mode_DN t q F) as E. cbn [round_mode] in E.
  change (Bnearbyint mode_DN t) with (f32_floor t) in E.
  pose proof (Zfloor_lb q). pose proof (Zfloor_ub q).
  exists (rnd32 (q - IZR (Zfloor q))). split.
  - apply sub_fin; [exact F|exact E|]. rewrite Rabs_pos_eq by lra. apply Rle_trans with 1; [lra|].
    change 1 with (bpow radix2 0). apply bpow_le. lia.
  - split; [apply (rnd_ge_Z (prec := 24) (emax := 128) _ 0)|apply (rnd_le_Z (prec := 24) (emax := 128) _ 1)]; cbn; try lia; lra.
Qed.

(** ** one pixel *)
Lemma sum_over_ext {A} (l : list A) f g : (forall i, In i l -> f i = g i) -> sum_over l f = sum_over l g.
Proof.
  unfold sum_over. induction l as [|i l IH]; intros H; [reflexivity|]. cbn. rewrite (H i) by (left; reflexivity).
  f_equal. apply IH. intros j Hj. apply H. right. exact Hj.
Qed.
Lemma sum_over_le {A} (l : list A) f g : (forall i, In i l -> f i <= g i) -> sum_over l f <= sum_over l g.
Proof.
  unfold sum_over. induction l as [|i l IH]; intros H; [cbn; lra|]. cbn.
  pose proof (H i (or_introl eq_refl)). specialize (IH (fun j Hj => H j (or_intror Hj))). lra.
Qed.

Lemma window_ap pow k (s : Z -> Z -> f32) (v : Z -> Z -> R) (DX DY : f32) dx dy : cubes_ok pow -> (0 <= k <= 90)%Z ->
  (forall m n, fin (s m n) (v m n) /\ Rabs (v m n) <= IZR (2 ^ k)) ->
  fin DX dx -> fin DY dy -> 0 <= dx <= 1 -> 0 <= dy <= 1 ->
  approx (window_sum offsets (fun m n => f32_mul (s m n) (f32_mul (b_spline pow (f32_sub (f32_of_Z m) DX)) (b_spline pow (f32_sub DY (f32_of_Z n))))))
    (sum_over offset_pairs (fun mn => v (fst mn) (snd mn) * (bspline (IZR (fst mn) - dx) * bspline (IZR (snd mn) - dy))))
    (IZR (2 ^ k) / 2048).
Proof.
  intros HP Hk Hs FX FY Hdx Hdy. set (M := IZR (2 ^ k)) in *.
  assert (HM : 1 <= M). { unfold M. apply (IZR_le 1). assert (0 < 2 ^ k)%Z by (apply Z.pow_pos_nonneg; lia). lia. }
  set (W := 1660 * uu).
  assert (WX : forall m, In m offsets -> approx (b_spline pow (f32_sub (f32_of_Z m) DX)) (bspline (IZR m - dx)) W).
  { intros m Hm. apply ap_b_spline; [exact HP| |].
    - apply (ap_sub 1 _ _ _ _ 0 0); [apply ap_Z|apply fin_ap; exact FX|lia| |unfold uu; cbn; lra].
      + destruct Hm as [<-|[<-|[<-|[<-|[]]]]]; lia.
      + cbn. destruct Hm as [<-|[<-|[<-|[<-|[]]]]]; rewrite Rplus_0_r, Rplus_0_r; apply Rabs_le'; lra.
    - destruct Hm as [<-|[<-|[<-|[<-|[]]]]]; lra. }
  assert (WY : forall n, In n offsets -> approx (b_spline pow (f32_sub DY (f32_of_Z n))) (bspline (IZR n - dy)) W).
  { intros n Hn. rewrite <- bspline_even. replace (- (IZR n - dy)) with (dy - IZR n) by ring. apply ap_b_spline; [exact HP| |].
    - apply (ap_sub 1 _ _ _ _ 0 0); [apply fin_ap; exact FY|apply ap_Z|lia| |unfold uu; cbn; lra].
      + destruct Hn as [<-|[<-|[<-|[<-|[]]]]]; lia.
      + cbn. destruct Hn as [<-|[<-|[<-|[<-|[]]]]]; rewrite Rplus_0_r, Rplus_0_r; apply Rabs_le'; lra.
    - destruct Hn as [<-|[<-|[<-|[<-|[]]]]]; lra. }
  set (bx := fun m => bspline (IZR m - dx)). set (by_ := fun n => bspline (IZR n - dy)).
  set (ep := fun mn : Z * Z => M * ((bx (fst mn) + by_ (snd mn)) * W + W * W + 2 * uu)).
  assert (TT : forall mn, In mn offset_pairs ->
    approx (f32_mul (s (fst mn) (snd mn)) (f32_mul (b_spline pow (f32_sub (f32_of_Z (fst mn)) DX)) (b_spline pow (f32_sub DY (f32_of_Z (snd mn))))))
      (v (fst mn) (snd mn) * (bspline (IZR (fst mn) - dx) * bspline (IZR (snd mn) - dy))) (ep mn)).
  { intros [m n] Hmn. apply in_prod_iff in Hmn. destruct Hmn as [Hm Hn]. cbn [fst snd]. destruct (Hs m n) as [Fv Hv].
    pose proof (bspline_range (IZR m - dx)) as Bx. pose proof (bspline_range (IZR n - dy)) as By.
    change (0 <= bx m <= 2 / 3) in Bx. change (0 <= by_ n <= 2 / 3) in By.
    change (bspline (IZR m - dx)) with (bx m). change (bspline (IZR n - dy)) with (by_ n).
    assert (Bxy : 0 <= bx m * by_ n <= 4 / 9).
    { split; [apply Rmult_le_pos; lra|]. replace (4 / 9) with (2 / 3 * (2 / 3)) by field. apply Rmult_le_compat; lra. }
    assert (Pr : approx (f32_mul (b_spline pow (f32_sub (f32_of_Z m) DX)) (b_spline pow (f32_sub DY (f32_of_Z n)))) (bx m * by_ n)
              ((bx m + by_ n) * W + W * W + uu)).
    { apply (ap_mul 0 (bx m) (by_ n) _ _ _ _ W W _ (WX m Hm) (WY n Hn)); [lia|apply Req_le, Rabs_pos_eq, Bx|apply Req_le, Rabs_pos_eq, By| |].
      - replace ((bx m + W) * (by_ n + W)) with (bx m * by_ n + (bx m + by_ n + W) * W) by ring.
        assert ((bx m + by_ n + W) * W <= 2 * W) by (apply Rmult_le_compat_r; unfold W, uu; lra). cbn. unfold W, uu in *. lra.
      - cbn. rewrite Rmult_1_l. ring_simplify. lra. }
    apply (ap_mul k M (bx m * by_ n) _ _ _ _ 0 ((bx m + by_ n) * W + W * W + uu) _ (fin_ap _ _ Fv) Pr); [lia|exact Hv|rewrite Rabs_pos_eq; lra| |].
    - fold M. rewrite Rplus_0_r. rewrite <- (Rmult_1_r M) at 2. apply Rmult_le_compat_l; [lra|].
      assert ((bx m + by_ n) * W <= 2 * W) by (apply Rmult_le_compat_r; unfold W, uu; lra). unfold W, uu in *. lra.
    - fold M. unfold ep. cbn [fst snd]. apply Req_le. ring. }
  pose proof (bspline_sum dx Hdx) as Sx. pose proof (bspline_sum dy Hdy) as Sy.
  change (bx (-1)%Z + bx 0%Z + bx 1%Z + bx 2%Z = 1) in Sx. change (by_ (-1)%Z + by_ 0%Z + by_ 1%Z + by_ 2%Z = 1) in Sy.
  assert (SumEp : sum_over offset_pairs ep = M * (8 * W + 16 * W * W + 32 * uu)).
  { unfold ep. cbn [offset_pairs offsets list_prod sum_over fold_right map app fst snd].
    replace (8 * W) with (4 * ((bx (-1)%Z + bx 0%Z + bx 1%Z + bx 2%Z) + (by_ (-1)%Z + by_ 0%Z + by_ 1%Z + by_ 2%Z)) * W) by (rewrite Sx, Sy; ring).
    ring. }
  assert (SumBB : sum_over offset_pairs (fun mn => bx (fst mn) * by_ (snd mn)) = 1).
  { cbn [offset_pairs offsets list_prod sum_over fold_right map app fst snd].
    transitivity ((bx (-1)%Z + bx 0%Z + bx 1%Z + bx 2%Z) * (by_ (-1)%Z + by_ 0%Z + by_ 1%Z + by_ 2%Z)); [ring|rewrite Sx, Sy; ring]. }
  assert (SumAbs : sum_over offset_pairs (fun mn => Rabs (v (fst mn) (snd mn) * (bx (fst mn) * by_ (snd mn)))) <= M).
  { apply Rle_trans with (sum_over offset_pairs (fun mn => M * (bx (fst mn) * by_ (snd mn)))).
    - apply sum_over_le. intros [m n] _. cbn [fst snd]. rewrite Rabs_mult.
      assert (0 <= bx m * by_ n) by (apply Rmult_le_pos; apply bspline_range).
      rewrite (Rabs_pos_eq (bx m * by_ n)) by assumption. apply Rmult_le_compat_r; [assumption|apply Hs].
    - assert (E : sum_over offset_pairs (fun mn => M * (bx (fst mn) * by_ (snd mn))) = M * sum_over offset_pairs (fun mn => bx (fst mn) * by_ (snd mn))).
      { cbn [offset_pairs offsets list_prod sum_over fold_right map app fst snd]. ring. }
      rewrite E, SumBB. lra. }
  assert (Mk : IZR (2 ^ (k + 1)) = 2 * M).
  { unfold M. rewrite <- mult_IZR. f_equal. rewrite Z.pow_add_r by lia. lia. }
  assert (SumU : forall g : Z * Z -> R, sum_over offset_pairs (fun mn => g mn + IZR (2 ^ (k + 1)) * uu) = sum_over offset_pairs g + 32 * M * uu).
  { intros g. rewrite Mk. cbn [offset_pairs offsets list_prod sum_over fold_right map app]. ring. }
  eapply ap_weaken; [eapply ap_eq; [apply (fold_ap (k + 1) _ _ ep offset_pairs ltac:(lia) TT f32_0 0 0)|]|].
  - apply fin_ap. apply isZ_0.
  - rewrite (SumU (fun i => Rabs (v (fst i) (snd i) * (bspline (IZR (fst i) - dx) * bspline (IZR (snd i) - dy))) + ep i)).
    assert (E2 : sum_over offset_pairs (fun i => Rabs (v (fst i) (snd i) * (bspline (IZR (fst i) - dx) * bspline (IZR (snd i) - dy))) + ep i)
      = sum_over offset_pairs (fun mn => Rabs (v (fst mn) (snd mn) * (bx (fst mn) * by_ (snd mn)))) + sum_over offset_pairs ep).
    { fold bx by_. cbn [offset_pairs offsets list_prod sum_over fold_right map app fst snd]. unfold bx, by_. ring. }
    rewrite E2, SumEp, Mk, Rabs_R0.
    assert (M * (8 * W + 16 * W * W + 32 * uu) <= M * (1 / 2)) by (apply Rmult_le_compat_l; unfold W, uu; lra).
    assert (32 * M * uu <= M * (1 / 4)) by (unfold uu; lra). lra.
  - ring.
  - rewrite (SumU ep), SumEp. unfold W, uu in *.
    apply Rle_trans with (M * (/ 2048)); [|unfold Rdiv; lra].
    match goal with |- 0 + (M * ?A + 32 * M * ?B) <= _ => replace (0 + (M * A + 32 * M * B)) with (M * (A + 32 * B)) by ring end.
    apply Rmult_le_compat_l; lra.
Qed.

(** ** C67 *)
(** samples of at most 2^k in absolute value *)
Definition samples_below (k : Z) (img : image f32) : Prop :=
  samples (fun s : f32 => is_finite s = true /\ Rabs (B2R s) <= IZR (2 ^ k)) img.

Lemma nth_pixel_sample (img : image f32) k x y c : wf img -> samples_below k img -> inside img x y -> (0 <= c < channels (info_of img))%Z ->
  fin (nth (Z.to_nat c) (pixel_at img x y) f32_0) (value_at img x y c) /\ Rabs (value_at img x y c) <= IZR (2 ^ k).
Proof.
  intros Hwf Hs Hin Hc.
  assert (HI : In (nth (Z.to_nat c) (pixel_at img x y) f32_0) (data img)).
  { assert (HIn : In (nth (Z.to_nat c) (pixel_at img x y) f32_0) (pixel_at img x y)).
    { apply nth_In. pose proof (pixel_at_len img Hwf x y Hin) as L. unfold len in L. lia. }
    unfold pixel_at in HIn.
    match type of HIn with In ?z (firstn ?n (skipn ?m ?l)) =>
      rewrite <- (firstn_skipn m l); apply in_or_app; right; rewrite <- (firstn_skipn n (skipn m l)); apply in_or_app; left; exact HIn end. }
  unfold samples_below, samples in Hs. rewrite Forall_forall in Hs. destruct (Hs _ HI) as [A B]. split; [split; [exact A|reflexivity]|exact B].
Qed.

(** Every sample of the result is within 2^k / 2048 of the B-spline smoothing of the input
    (2^k: a bound of the samples), for every power function that gets third powers right. *)
Theorem C67_bicubic_accuracy p lm (img : image f32) (xf yf : f32) (a b : R) k : wf img ->
  (width (info_of img) <= 16777216)%Z -> (height (info_of img) <= 16777216)%Z ->
  fin xf a -> 0 < a -> fin yf b -> 0 < b -> info_ok (scaled (info_of img) xf yf) ->
  cubes_ok (powf lm) -> (0 <= k <= 90)%Z -> samples_below k img ->
  exists out, scale_seq p lm img xf yf Bicubic = Ret out
    /\ (forall sched, Permutation sched (zrange 0 (width (info_of out) * height (info_of out))) -> scale_par p lm sched img xf yf Bicubic = Ret out)
    /\ wf out /\ info_of out = scaled (info_of img) xf yf
    /\ forall x y c, inside out x y -> (0 <= c < channels (info_of img))%Z ->
       exists s r dx dy, sample out x y c = Some s /\ fin s r
         /\ fin (frac (#x / xf)%F) dx /\ fin (frac (#y / yf)%F) dy /\ 0 <= dx <= 1 /\ 0 <= dy <= 1
         /\ Rabs (r - smoothed img (#x / xf)%F (#y / yf)%F dx dy c) <= IZR (2 ^ k) / 2048.
Proof.
  intros Hwf Hw Hh Fx Ha Fy Hb Hok HP Hk Hs.
  assert (Z0 : fin f32_0 0) by apply isZ_0.
  assert (Nx : f32_ltb xf f32_0 = false).
  { change (f32_ltb xf f32_0) with (Bltb xf f32_0). rewrite (ltb_fin xf f32_0 a 0 Fx Z0). apply Rlt_bool_false. lra. }
  assert (Ny : f32_ltb yf f32_0 = false).
  { change (f32_ltb yf f32_0) with (Bltb yf f32_0). rewrite (ltb_fin yf f32_0 b 0 Fy Z0). apply Rlt_bool_false. lra. }
  destruct (C66_bicubic p lm img xf yf Hwf Hw Hh Nx Ny Hok) as [out [E [Ep [W [I Sh]]]]].
  exists out. split; [exact E|]. split; [rewrite I; exact Ep|]. split; [exact W|]. split; [exact I|].
  intros x y c Hin Hc. pose proof Hin as [Hx Hy]. rewrite I in Hx, Hy. cbn [scaled width height] in Hx, Hy.
  pose proof (wf_w _ Hwf). pose proof (wf_h _ Hwf).
  destruct (pos_fin xf a (width (info_of img)) x Fx Ha ltac:(lia) Hx) as [qx [Fqx Hqx]].
  destruct (pos_fin yf b (height (info_of img)) y Fy Hb ltac:(lia) Hy) as [qy [Fqy Hqy]].
  destruct (frac_fin _ _ Fqx Hqx) as [dx [Fdx Hdx]]. destruct (frac_fin _ _ Fqy Hqy) as [dy [Fdy Hdy]].
  assert (W1 : (1 <= width (info_of img))%Z).
  { destruct (Z.eq_dec (width (info_of img)) 0) as [E0|]; [|lia]. exfalso. rewrite E0, scale_zero in Hx. lia. }
  assert (H1 : (1 <= height (info_of img))%Z).
  { destruct (Z.eq_dec (height (info_of img)) 0) as [E0|]; [|lia]. exfalso. rewrite E0, scale_zero in Hy. lia. }
  destruct (window_ap (powf lm) k
     (fun m n => nth (Z.to_nat c) (pixel_at img (tap (width (info_of img)) (#x / xf)%F m) (tap (height (info_of img)) (#y / yf)%F n)) f32_0)
     (fun m n => value_at img (tap (width (info_of img)) (#x / xf)%F m) (tap (height (info_of img)) (#y / yf)%F n) c)
     (frac (#x / xf)%F) (frac (#y / yf)%F) dx dy HP Hk) as [r [Fr Hr]]; try assumption.
  { intros m n. apply nth_pixel_sample; auto. split; apply tap_inside; assumption. }
  eexists _, r, dx, dy. split; [|split; [exact Fr|]].
  - unfold sample. rewrite (Sh x y Hin). unfold resampled. cbv zeta.
    rewrite nth_error_map. rewrite (nth_error_nth' (zrange 0 (channels (info_of img))) 0%Z) by (rewrite zrange_length; lia).
    cbn [option_map]. rewrite nth_zrange by lia. rewrite Z.add_0_l. reflexivity.
  - repeat (split; [assumption|]). exact Hr.
Qed.

(** the smoothing is a weighted mean: non-negative weights that add up to 1 *)
Lemma smoothed_bounds img px py dx dy c lo hi : 0 <= dx <= 1 -> 0 <= dy <= 1 ->
  (1 <= width (info_of img))%Z -> (1 <= height (info_of img))%Z ->
  (forall x y, inside img x y -> lo <= value_at img x y c <= hi) ->
  lo <= smoothed img px py dx dy c <= hi.
Proof.
  intros Hdx Hdy Hw Hh Hv. unfold smoothed.
  pose proof (bspline_sum dx Hdx) as Sx. pose proof (bspline_sum dy Hdy) as Sy.
  set (wt := fun mn : Z * Z => bspline (IZR (fst mn) - dx) * bspline (IZR (snd mn) - dy)).
  assert (S1 : sum_over offset_pairs wt = 1).
  { unfold wt. cbn [offset_pairs offsets list_prod sum_over fold_right map app fst snd].
    transitivity ((bspline (-1 - dx) + bspline (0 - dx) + bspline (1 - dx) + bspline (2 - dx))
                  * (bspline (-1 - dy) + bspline (0 - dy) + bspline (1 - dy) + bspline (2 - dy))); [ring|rewrite Sx, Sy; ring]. }
  assert (SL : forall q, sum_over offset_pairs (fun mn => q * wt mn) = q).
  { intros q. transitivity (q * sum_over offset_pairs wt); [|rewrite S1; ring].
    cbn [offset_pairs offsets list_prod sum_over fold_right map app fst snd]. ring. }
  split.
  - rewrite <- (SL lo). apply sum_over_le. intros [m n] _. cbn [fst snd].
    apply Rmult_le_compat_r; [apply Rmult_le_pos; apply bspline_range|]. apply Hv. split; apply tap_inside; assumption.
  - rewrite <- (SL hi). apply sum_over_le. intros [m n] _. cbn [fst snd].
    apply Rmult_le_compat_r; [apply Rmult_le_pos; apply bspline_range|]. apply Hv. split; apply tap_inside; assumption.
Qed.

(** no overshoot: the samples of a channel stay between its smallest and its largest input
    sample (up to the tolerance); a constant channel stays constant *)
Theorem C67_no_overshoot p lm (img : image f32) (xf yf : f32) (a b : R) k c lo hi : wf img ->
  (width (info_of img) <= 16777216)%Z -> (height (info_of img) <= 16777216)%Z ->
  fin xf a -> 0 < a -> fin yf b -> 0 < b -> info_ok (scaled (info_of img) xf yf) ->
  cubes_ok (powf lm) -> (0 <= k <= 90)%Z -> samples_below k img -> (0 <= c < channels (info_of img))%Z ->
  (forall x y, inside img x y -> lo <= value_at img x y c <= hi) ->
  exists out, scale_seq p lm img xf yf Bicubic = Ret out /\ info_of out = scaled (info_of img) xf yf
    /\ forall x y, inside out x y -> exists s r, sample out x y c = Some s /\ fin s r
         /\ lo - IZR (2 ^ k) / 2048 <= r <= hi + IZR (2 ^ k) / 2048.
Proof.
  intros Hwf Hw Hh Fx Ha Fy Hb Hok HP Hk Hs Hc Hv.
  destruct (C67_bicubic_accuracy p lm img xf yf a b k) as [out [E [_ [W [I H]]]]]; try assumption.
  exists out. split; [exact E|]. split; [exact I|]. intros x y Hin.
  destruct (H x y c Hin Hc) as (s & r & dx & dy & Es & Fr & _ & _ & Hdx & Hdy & Hr).
  exists s, r. split; [exact Es|]. split; [exact Fr|]. apply Rabs_bd in Hr.
  destruct Hin as [Hx Hy]. rewrite I in Hx, Hy. cbn [scaled width height] in Hx, Hy.
  pose proof (wf_w _ Hwf). pose proof (wf_h _ Hwf).
  assert (W1 : (1 <= width (info_of img))%Z).
  { destruct (Z.eq_dec (width (info_of img)) 0) as [E0|]; [|lia]. exfalso. rewrite E0, scale_zero in Hx. lia. }
  assert (Hh1 : (1 <= height (info_of img))%Z).
  { destruct (Z.eq_dec (height (info_of img)) 0) as [E0|]; [|lia]. exfalso. rewrite E0, scale_zero in Hy. lia. }
  pose proof (smoothed_bounds img (#x / xf)%F (#y / yf)%F dx dy c lo hi Hdx Hdy W1 Hh1 Hv). lra.
Qed.

Theorem C67_constant p lm (img : image f32) (xf yf : f32) (a b : R) k c v : wf img ->
  (width (info_of img) <= 16777216)%Z -> (height (info_of img) <= 16777216)%Z ->
  fin xf a -> 0 < a -> fin yf b -> 0 < b -> info_ok (scaled (info_of img) xf yf) ->
  cubes_ok (powf lm) -> (0 <= k <= 90)%Z -> samples_below k img -> (0 <= c < channels (info_of img))%Z ->
  (forall x y, inside img x y -> value_at img x y c = v) ->
  exists out, scale_seq p lm img xf yf Bicubic = Ret out /\ info_of out = scaled (info_of img) xf yf
    /\ forall x y, inside out x y -> exists s r, sample out x y c = Some s /\ fin s r
         /\ Rabs (r - v) <= IZR (2 ^ k) / 2048.
Proof.
  intros Hwf Hw Hh Fx Ha Fy Hb Hok HP Hk Hs Hc Hv.
  destruct (C67_no_overshoot p lm img xf yf a b k c v v) as [out [E [I H]]]; try assumption.
  { intros x y Hin. rewrite (Hv x y Hin). lra. }
  exists out. split; [exact E|]. split; [exact I|]. intros x y Hin.
  destruct (H x y Hin) as (s & r & Es & Fr & Hr). exists s, r. split; [exact Es|]. split; [exact Fr|]. apply Rabs_le'; lra.
Qed.

(** ** a power function that qualifies: two f32 multiplications *)
Definition ex_pow (t _ : f32) : f32 := f32_mul (f32_mul t t) t.
Lemma ex_pow_ok : cubes_ok ex_pow.
Proof.
  intros t r F Hr. unfold ex_pow.
  assert (Hrr : 0 <= r * r <= 25) by (split; [apply Rmult_le_pos; lra|replace 25 with (5 * 5) by ring; apply Rmult_le_compat; lra]).
  assert (A : approx (f32_mul t t) (r * r) (32 * uu)).
  { apply (ap_mul 5 5 5 _ _ _ _ 0 0 _ (fin_ap _ _ F) (fin_ap _ _ F)); [lia| | | |]; try (rewrite Rabs_pos_eq by lra); unfold uu; cbn; lra. }
  assert (B : approx (f32_mul (f32_mul t t) t) (r * r * r) (512 * uu)).
  { apply (ap_mul 7 25 5 _ _ _ _ (32 * uu) 0 _ A (fin_ap _ _ F)); [lia| | | |]; try (rewrite Rabs_pos_eq by lra); unfold uu; cbn; lra. }
  destruct B as [q [Fq Hq]]. exists q. split; [exact Fq|]. replace (r ^ 3) with (r * r * r) by ring. unfold uu in Hq. lra.
Qed.

(** ** scaling by 1 is not the identity: the B-spline smooths *)
Definition ex_step : image f32 := Image (Info 2 1 1 false) [f32_of_Z 0; f32_of_Z 36].

Lemma ex_step_wf : wf ex_step. Proof. constructor; cbn; unfold u32_max; lia. Qed.
Lemma ex_step_samples : samples_below 6 ex_step.
Proof.
  unfold samples_below, samples. cbn [data ex_step].
  repeat apply Forall_cons; [| |apply Forall_nil].
  - destruct (of_Z_isZ 0 ltac:(lia)) as [A B]. split; [exact A|]. rewrite B, Rabs_R0. cbn. lra.
  - destruct (of_Z_isZ 36 ltac:(lia)) as [A B]. split; [exact A|]. rewrite B, Rabs_pos_eq by (cbn; lra). cbn. lra.
Qed.

Theorem C67_identity_refuted p lm : cubes_ok (powf lm) ->
  exists out s r, scale_seq p lm ex_step (f32_of_Z 1) (f32_of_Z 1) Bicubic = Ret out
    /\ info_of out = info_of ex_step
    /\ sample ex_step 0 0 0 = Some (f32_of_Z 0)
    /\ sample out 0 0 0 = Some s /\ fin s r /\ 5 <= r <= 7.
Proof.
  intros HP.
  assert (F1 : fin (f32_of_Z 1) 1) by (apply (of_Z_isZ 1); lia).
  assert (Esc : scaled (info_of ex_step) (f32_of_Z 1) (f32_of_Z 1) = Info 2 1 1 false).
  { unfold scaled. cbn [info_of ex_step width height channels alpha].
    assert (f32_to_int U32 (f32_round (f32_mul (f32_of_Z 2) (f32_of_Z 1))) = 2%Z) as -> by (vm_compute; reflexivity).
    assert (f32_to_int U32 (f32_round (f32_mul (f32_of_Z 1) (f32_of_Z 1))) = 1%Z) as -> by (vm_compute; reflexivity).
    reflexivity. }
  destruct (C67_bicubic_accuracy p lm ex_step (f32_of_Z 1) (f32_of_Z 1) 1 1 6 ex_step_wf) as [out [E [_ [W [I H]]]]]; try assumption; try lra; try (cbn; lia).
  { rewrite Esc. unfold info_ok. cbn. unfold u32_max. lia. }
  { apply ex_step_samples. }
  rewrite Esc in I.
  destruct (H 0%Z 0%Z 0%Z) as (s & r & dx & dy & Es & Fr & Fdx & Fdy & Hdx & Hdy & Hr).
  { unfold inside. rewrite I. cbn. lia. }
  { cbn. lia. }
  assert (Hd0 : forall d, fin (frac (f32_div (f32_of_Z 0) (f32_of_Z 1))) d -> d = 0).
  { intros d [_ <-]. assert (Ei : frac (f32_div (f32_of_Z 0) (f32_of_Z 1)) = B754_zero false) by (vm_compute; reflexivity).
    rewrite Ei. reflexivity. }
  pose proof (Hd0 _ Fdx) as ->. pose proof (Hd0 _ Fdy) as ->.
  exists out, s, r. split; [exact E|]. split; [exact I|]. split; [reflexivity|]. split; [exact Es|]. split; [exact Fr|].
  assert (Sm : smoothed ex_step (f32_div (f32_of_Z 0) (f32_of_Z 1)) (f32_div (f32_of_Z 0) (f32_of_Z 1)) 0 0 0 = 6).
  { unfold smoothed.
    assert (T : forall m, tap 2 (f32_div (f32_of_Z 0) (f32_of_Z 1)) (-1) = 0%Z /\ tap 2 (f32_div (f32_of_Z 0) (f32_of_Z 1)) 0 = 0%Z
       /\ tap 2 (f32_div (f32_of_Z 0) (f32_of_Z 1)) 1 = 1%Z /\ tap 2 (f32_div (f32_of_Z 0) (f32_of_Z 1)) 2 = 1%Z
       /\ (In m offsets -> tap 1 (f32_div (f32_of_Z 0) (f32_of_Z 1)) m = 0%Z)).
    { intros m. repeat (split; [vm_compute; reflexivity|]). intros [<-|[<-|[<-|[<-|[]]]]]; vm_compute; reflexivity. }
    destruct (T 0%Z) as (T1 & T2 & T3 & T4 & _).
    assert (V0 : value_at ex_step 0 0 0 = 0) by (apply (of_Z_isZ 0); lia).
    assert (V1 : value_at ex_step 1 0 0 = 36) by (apply (of_Z_isZ 36); lia).
    pose proof (bspline_sum 0 ltac:(lra)) as Sy.
    assert (B1 : bspline (1 - 0) = 1 / 6). { unfold bspline. rewrite Rabs_pos_eq by lra. destruct (Rle_dec (1 - 0) 1); [cbn; field|lra]. }
    assert (B2 : bspline (2 - 0) = 0). { unfold bspline. rewrite Rabs_pos_eq by lra. destruct (Rle_dec (2 - 0) 1); [lra|]. destruct (Rle_dec (2 - 0) 2); [cbn; field|reflexivity]. }
    cbn [offset_pairs offsets list_prod sum_over fold_right map app fst snd info_of ex_step width height].
    fold ex_step.
    rewrite T1, T2, T3, T4.
    rewrite !(proj2 (proj2 (proj2 (proj2 (T _))))) by (cbn; tauto).
    rewrite V0, V1. rewrite B1, B2.
    match goal with |- ?L = 6 => replace L with (36 * (1 / 6) * (bspline (-1 - 0) + bspline (0 - 0) + bspline (1 - 0) + bspline (2 - 0))) end.
    - rewrite Sy. field.
    - rewrite B1, B2. field. }
  rewrite Sm in Hr. apply Rabs_bd in Hr. cbn in Hr. lra.
Qed.

Example C67_example : cubes_ok ex_pow /\ samples_below 6 ex_step /\ wf ex_step.
Proof. split; [apply ex_pow_ok|]. split; [apply ex_step_samples|apply ex_step_wf]. Qed.
