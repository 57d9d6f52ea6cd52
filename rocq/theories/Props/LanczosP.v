(** * C79: src/transform.rs, scale with Scale::Lanczos and scale_lanczos against the real kernel. *)
From Coq Require Import Permutation Lra.
From Flocq Require Import Core BinarySingleNaN.
From Verif.Model Require Import Transform.
From Verif.Spec Require Import ImageS FloatS SumS ConvS ResampleS BsplineS ColorS SincS.
From Verif.Proofs Require Import BaseL ImageL ImageOps Safe TransformL FloatL FloatL2 DyadL ApproxL ResampleL ExpPiL SrgbL3 SincL.
From Verif.Props Require Import ScaleP ResampleP BicubicP FloatP.
Open Scope R_scope.

(** ** specification *)
(** the 2a window offsets *)
Definition window (a : Z) : list Z := zrange (1 - a) (a + 1).
(** the Lanczos resampling of channel c around the position (px, py), whose fractional parts are
    dx and dy *)
Definition lanczos_sum (img : image f32) (a : Z) (px py : f32) (dx dy : R) (c : Z) : R :=
  sum_over (list_prod (window a) (window a)) (fun mn =>
    value_at img (tap (width (info_of img)) px (fst mn)) (tap (height (info_of img)) py (snd mn)) c
    * (lanczos_r (IZR a) (dx - IZR (fst mn)) * lanczos_r (IZR a) (dy - IZR (snd mn)))).
(** the tolerance for kernel size a and samples up to 2^k *)
Definition lanczos_tol (a k : Z) : R := IZR (2 ^ k) * (IZR (4 * a * a) * (155 + IZR (16 * a * a)) / 33554432).

(** ** sums *)
Lemma sum_over_app {A} (l l' : list A) f : sum_over (l ++ l') f = sum_over l f + sum_over l' f.
Proof. unfold sum_over. induction l as [|i l IH]; [cbn; ring|]. cbn. rewrite IH. ring. Qed.
Lemma sum_over_map {A B} (h : A -> B) (l : list A) f : sum_over (map h l) f = sum_over l (fun a => f (h a)).
Proof. unfold sum_over. induction l as [|i l IH]; [reflexivity|]. cbn. rewrite IH. reflexivity. Qed.
Lemma sum_over_prod {A B} (l : list A) (l' : list B) f :
  sum_over (list_prod l l') f = sum_over l (fun a => sum_over l' (fun b => f (a, b))).
Proof.
  induction l as [|i l IH]; [reflexivity|]. cbn [list_prod]. rewrite sum_over_app, sum_over_map, IH. reflexivity.
Qed.
Lemma sum_over_scal {A} (l : list A) q f : sum_over l (fun i => q * f i) = q * sum_over l f.
Proof. unfold sum_over. induction l as [|i l IH]; [cbn; ring|]. cbn. rewrite IH. ring. Qed.
Lemma sum_over_const {A} (l : list A) q : sum_over l (fun _ => q) = IZR (len l) * q.
Proof.
  unfold sum_over. induction l as [|i l IH]; [cbn; ring|]. cbn [fold_right]. rewrite IH.
  replace (len (i :: l)) with (len l + 1)%Z by (unfold len; cbn [length]; lia). rewrite plus_IZR. ring.
Qed.
Lemma sum_over_zero {A} (l : list A) f : (forall i, In i l -> f i = 0) -> sum_over l f = 0.
Proof. intros H. rewrite (sum_over_ext l f (fun _ => 0) H), sum_over_const. ring. Qed.
Lemma sum_over_single {A} (l : list A) f e : NoDup l -> In e l -> (forall i, In i l -> i <> e -> f i = 0) -> sum_over l f = f e.
Proof.
  intros N. induction N as [|i l Ni N IH]; intros HI H; [destruct HI|]. unfold sum_over. cbn [fold_right].
  change (f i + sum_over l f = f e). destruct HI as [->|HI].
  - rewrite (sum_over_zero l f); [ring|]. intros j Hj. apply H; [right; exact Hj|]. intros ->. contradiction.
  - rewrite IH; [|exact HI|intros j Hj; apply H; right; exact Hj].
    rewrite (H i); [ring|left; reflexivity|]. intros ->. contradiction.
Qed.

(** ** one pixel *)
Lemma window_pow a k : (1 <= a <= 32)%Z -> (0 <= k <= 80)%Z ->
  exists K, (0 <= K <= 100)%Z /\ 2 * (IZR (2 ^ k) * IZR (4 * a * a)) <= IZR (2 ^ K) <= 4 * (IZR (2 ^ k) * IZR (4 * a * a)).
Proof.
  intros Ha Hk. set (N := (4 * a * a)%Z). assert (HN : (4 <= N <= 4096)%Z) by (unfold N; nia).
  exists (k + Z.log2_up N + 1)%Z.
  pose proof (Z.log2_up_spec N ltac:(lia)) as L. pose proof (Z.log2_up_pos N ltac:(lia)) as L0.
  assert (L12 : (Z.log2_up N <= 12)%Z). { change 12%Z with (Z.log2_up 4096). apply Z.log2_up_le_mono. lia. }
  split; [lia|].
  rewrite !Z.pow_add_r by lia. rewrite !mult_IZR. change (2 ^ 1)%Z with 2%Z.
  assert (P : (2 ^ Z.log2_up N = 2 * 2 ^ Z.pred (Z.log2_up N))%Z).
  { replace (Z.log2_up N) with (1 + Z.pred (Z.log2_up N))%Z at 1 by lia. rewrite Z.pow_add_r by lia. reflexivity. }
  assert (A1 : IZR N <= IZR (2 ^ Z.log2_up N)) by (apply IZR_le; lia).
  assert (A2 : IZR (2 ^ Z.log2_up N) <= 2 * IZR N) by (rewrite <- mult_IZR; apply IZR_le; lia).
  assert (M : 0 <= IZR (2 ^ k)) by (apply (IZR_le 0), Z.pow_nonneg; lia).
  set (m := IZR (2 ^ k)) in *. set (g := IZR (2 ^ Z.log2_up N)) in *. set (n := IZR N) in *. clearbody m g n. clear -A1 A2 M. nra.
Qed.

Lemma in_window a m : In m (window a) <-> (1 - a <= m <= a)%Z.
Proof. unfold window. rewrite in_zrange. lia. Qed.
Lemma len_window2 a : (0 <= a)%Z -> len (list_prod (window a) (window a)) = (4 * a * a)%Z.
Proof.
  intros Ha. unfold len. rewrite prod_length, Nat2Z.inj_mul. unfold window. rewrite zrange_length. lia.
Qed.

Lemma lanczos_window_ap lm a k (s : Z -> Z -> f32) (v : Z -> Z -> R) (DX DY : f32) dx dy : sin_ok (sinf lm) -> (1 <= a <= 32)%Z -> (0 <= k <= 80)%Z ->
  (forall m n, fin (s m n) (v m n) /\ Rabs (v m n) <= IZR (2 ^ k)) ->
  fin DX dx -> fin DY dy -> 0 <= dx <= 1 -> 0 <= dy <= 1 ->
  approx (window_sum (window a) (fun m n => f32_mul (s m n) (f32_mul (lanczos_weight lm a DX m) (lanczos_weight lm a DY n))))
    (sum_over (list_prod (window a) (window a)) (fun mn => v (fst mn) (snd mn)
       * (lanczos_r (IZR a) (dx - IZR (fst mn)) * lanczos_r (IZR a) (dy - IZR (snd mn)))))
    (lanczos_tol a k).
Proof.
  intros HS Ha Hk Hs FX FY Hdx Hdy. set (M := IZR (2 ^ k)) in *.
  assert (HM : 1 <= M). { unfold M. apply (IZR_le 1). assert (0 < 2 ^ k)%Z by (apply Z.pow_pos_nonneg; lia). lia. }
  set (W := 75 * uu).
  assert (WW : forall (D : f32) d m, fin D d -> 0 <= d <= 1 -> In m (window a) ->
            approx (lanczos_weight lm a D m) (lanczos_r (IZR a) (d - IZR m)) W).
  { intros D d m FD Hd Hm. apply in_window in Hm. unfold lanczos_weight.
    assert (Fm : fin (f32_of_Z m) (IZR m)) by (apply of_Z_isZ; lia).
    assert (B : Rabs (d - IZR m) <= IZR a).
    { assert (1 - IZR a <= IZR m <= IZR a) by (split; [rewrite <- (minus_IZR 1)|]; apply IZR_le; lia). apply Rabs_le'; lra. }
    apply ap_lanczos; [exact HS|lia| |exact B].
    apply sub_fin; [exact FD|exact Fm|]. apply (small_bpow 6); [lia|]. eapply Rle_trans; [exact B|]. apply (IZR_le a 64). lia. }
  set (bx := fun m : Z => lanczos_r (IZR a) (dx - IZR m)). set (by_ := fun n : Z => lanczos_r (IZR a) (dy - IZR n)).
  set (pairs := list_prod (window a) (window a)).
  set (ep := fun _ : Z * Z => M * (155 * uu)).
  assert (TT : forall mn, In mn pairs ->
    approx (f32_mul (s (fst mn) (snd mn)) (f32_mul (lanczos_weight lm a DX (fst mn)) (lanczos_weight lm a DY (snd mn))))
      (v (fst mn) (snd mn) * (bx (fst mn) * by_ (snd mn))) (ep mn)).
  { intros [m n] Hmn. apply in_prod_iff in Hmn. destruct Hmn as [Hm Hn]. cbn [fst snd]. destruct (Hs m n) as [Fv Hv].
    assert (Bx : Rabs (bx m) <= 1) by apply lanczos_le1. assert (By : Rabs (by_ n) <= 1) by apply lanczos_le1.
    assert (Pr : approx (f32_mul (lanczos_weight lm a DX m) (lanczos_weight lm a DY n)) (bx m * by_ n) (153 * uu)).
    { apply (ap_mul 1 1 1 _ _ _ _ W W _ (WW DX dx m FX Hdx Hm) (WW DY dy n FY Hdy Hn)); [lia|exact Bx|exact By| |]; unfold W, uu; cbn; lra. }
    assert (Bxy : Rabs (bx m * by_ n) <= 1).
    { rewrite Rabs_mult. rewrite <- (Rmult_1_l 1). apply Rmult_le_compat; try apply Rabs_pos; assumption. }
    assert (Mk : IZR (2 ^ (k + 1)) = 2 * M).
    { unfold M. rewrite <- mult_IZR. f_equal. rewrite Z.pow_add_r by lia. lia. }
    apply (ap_mul (k + 1) M 1 _ _ _ _ 0 (153 * uu) _ (fin_ap _ _ Fv) Pr); [lia|exact Hv|exact Bxy| |]; rewrite Mk; [|unfold ep; apply Req_le; ring].
    rewrite Rplus_0_r, (Rmult_comm 2). apply Rmult_le_compat_l; unfold uu; lra. }
  destruct (window_pow a k Ha Hk) as [K [HK HP]]. fold M in HP. set (P := IZR (2 ^ K)) in *. set (N := IZR (4 * a * a)) in *.
  assert (HN : 4 <= N <= 4096) by (unfold N; split; [apply (IZR_le 4)|apply (IZR_le _ 4096)]; nia).
  assert (LN : IZR (len pairs) = N) by (unfold pairs; rewrite len_window2 by lia; reflexivity).
  assert (Tol : lanczos_tol a k = M * (N * (155 + 4 * N) * uu)).
  { unfold lanczos_tol, uu. fold M N. replace (16 * a * a)%Z with (4 * (4 * a * a))%Z by ring. rewrite (mult_IZR 4 (4 * a * a)). fold N. field. }
  rewrite Tol.
  assert (MN : 0 <= M * N) by (apply Rmult_le_pos; lra).
  assert (MN2 : M * N * N <= M * N * 4096) by (apply Rmult_le_compat_l; lra).
  assert (U : 0 < uu) by (unfold uu; lra).
  assert (NPu : N * (P * uu) <= N * (4 * (M * N) * uu)).
  { apply Rmult_le_compat_l; [lra|]. apply Rmult_le_compat_r; lra. }
  eapply ap_weaken; [eapply ap_eq; [apply (fold_ap K _ _ ep pairs HK TT f32_0 0 0)|]|].
  - apply fin_ap. apply isZ_0.
  - rewrite Rabs_R0. fold P.
    apply Rle_trans with (0 + 0 + sum_over pairs (fun _ => M + M * (155 * uu) + P * uu)).
    + apply Rplus_le_compat_l. apply sum_over_le. intros [m n] _. cbn [fst snd]. unfold ep. apply Rplus_le_compat_r, Rplus_le_compat_r.
      rewrite Rabs_mult, Rabs_mult. destruct (Hs m n) as [_ Hv].
      assert (Rabs (bx m) * Rabs (by_ n) <= 1 * 1) by (apply Rmult_le_compat; try apply Rabs_pos; apply lanczos_le1).
      assert (0 <= Rabs (bx m) * Rabs (by_ n)) by (apply Rmult_le_pos; apply Rabs_pos).
      rewrite <- (Rmult_1_r M). apply Rmult_le_compat; try apply Rabs_pos; lra.
    + rewrite sum_over_const, LN.
      replace (0 + 0 + N * (M + M * (155 * uu) + P * uu)) with (M * N * (1 + 155 * uu) + N * (P * uu)) by ring.
      assert (M * N * (1 + 155 * uu) <= M * N * (1 + / 10)) by (apply Rmult_le_compat_l; unfold uu; lra).
      replace (N * (4 * (M * N) * uu)) with (4 * uu * (M * N * N)) in NPu by ring.
      assert (4 * uu * (M * N * N) <= 4 * uu * (M * N * 4096)) by (apply Rmult_le_compat_l; lra).
      replace (4 * uu * (M * N * 4096)) with (M * N * (16384 * uu)) in * by ring.
      assert (M * N * (16384 * uu) <= M * N * / 10) by (apply Rmult_le_compat_l; unfold uu; lra). lra.
  - apply Rplus_0_l.
  - rewrite Rplus_0_l. unfold ep. fold P. rewrite (sum_over_const pairs (M * (155 * uu) + P * uu)), LN.
    apply Rle_trans with (N * (M * (155 * uu)) + N * (4 * (M * N) * uu)); [rewrite Rmult_plus_distr_l; lra|].
    apply Req_le. ring.
Qed.

(** what the code shows is the Lanczos resampling *)
Lemma lanczos_shown lm (img out : image f32) (xf yf : f32) (a b : R) sz k : wf img ->
  (width (info_of img) <= 16777216)%Z -> (height (info_of img) <= 16777216)%Z ->
  fin xf a -> 0 < a -> fin yf b -> 0 < b ->
  sin_ok (sinf lm) -> (1 <= sz <= 32)%Z -> (0 <= k <= 80)%Z -> samples_below k img ->
  info_of out = scaled (info_of img) xf yf ->
  shows out (resampled img xf yf (window sz) (lanczos_weight lm sz) (lanczos_weight lm sz)) ->
  forall x y c, inside out x y -> (0 <= c < channels (info_of img))%Z ->
       exists s r dx dy, sample out x y c = Some s /\ fin s r
         /\ fin (frac (#x / xf)%F) dx /\ fin (frac (#y / yf)%F) dy /\ 0 <= dx <= 1 /\ 0 <= dy <= 1
         /\ Rabs (r - lanczos_sum img sz (#x / xf)%F (#y / yf)%F dx dy c) <= lanczos_tol sz k.
Proof.
  intros Hwf Hw Hh Fx Ha Fy Hb HP Hsz Hk Hs I Sh x y c Hin Hc.
  pose proof Hin as [Hx Hy]. rewrite I in Hx, Hy. cbn [scaled width height] in Hx, Hy.
  pose proof (wf_w _ Hwf). pose proof (wf_h _ Hwf).
  destruct (pos_fin xf a (width (info_of img)) x Fx Ha ltac:(lia) Hx) as [qx [Fqx Hqx]].
  destruct (pos_fin yf b (height (info_of img)) y Fy Hb ltac:(lia) Hy) as [qy [Fqy Hqy]].
  destruct (frac_fin _ _ Fqx Hqx) as [dx [Fdx Hdx]]. destruct (frac_fin _ _ Fqy Hqy) as [dy [Fdy Hdy]].
  assert (W1 : (1 <= width (info_of img))%Z).
  { destruct (Z.eq_dec (width (info_of img)) 0) as [E0|]; [|lia]. exfalso. rewrite E0, scale_zero in Hx. lia. }
  assert (H1 : (1 <= height (info_of img))%Z).
  { destruct (Z.eq_dec (height (info_of img)) 0) as [E0|]; [|lia]. exfalso. rewrite E0, scale_zero in Hy. lia. }
  destruct (lanczos_window_ap lm sz k
     (fun m n => nth (Z.to_nat c) (pixel_at img (tap (width (info_of img)) (#x / xf)%F m) (tap (height (info_of img)) (#y / yf)%F n)) f32_0)
     (fun m n => value_at img (tap (width (info_of img)) (#x / xf)%F m) (tap (height (info_of img)) (#y / yf)%F n) c)
     (frac (#x / xf)%F) (frac (#y / yf)%F) dx dy HP Hsz Hk) as [r [Fr Hr]]; try assumption.
  { intros m n. apply nth_pixel_sample; auto. split; apply tap_inside; assumption. }
  eexists _, r, dx, dy. split; [|split; [exact Fr|]].
  - unfold sample. rewrite (Sh x y Hin). unfold resampled. cbv zeta.
    rewrite nth_error_map. rewrite (nth_error_nth' (zrange 0 (channels (info_of img))) 0%Z) by (rewrite zrange_length; lia).
    cbn [option_map]. rewrite nth_zrange by lia. rewrite Z.add_0_l. reflexivity.
  - repeat (split; [assumption|]). exact Hr.
Qed.

Lemma pos_not_neg (xf : f32) a : fin xf a -> 0 < a -> f32_ltb xf f32_0 = false.
Proof.
  intros Fx Ha. assert (Z0 : fin f32_0 0) by apply isZ_0.
  change (f32_ltb xf f32_0) with (Bltb xf f32_0). rewrite (ltb_fin xf f32_0 a 0 Fx Z0). apply Rlt_bool_false. lra.
Qed.

(** ** C79 *)
(** Every sample of the result is within lanczos_tol of the Lanczos resampling of the input, for
    every kernel size up to 32 and every accurate sine function. *)
Theorem C79_scale_lanczos_accuracy p lm (img : image f32) (xf yf : f32) (a b : R) sz k : wf img ->
  (width (info_of img) <= 16777216)%Z -> (height (info_of img) <= 16777216)%Z ->
  fin xf a -> 0 < a -> fin yf b -> 0 < b -> info_ok (scaled (info_of img) xf yf) ->
  sin_ok (sinf lm) -> (1 <= sz <= 32)%Z -> (0 <= k <= 80)%Z -> samples_below k img ->
  exists out, scale_lanczos_seq p lm img xf yf sz = Ret out
    /\ (forall sched, Permutation sched (zrange 0 (width (info_of out) * height (info_of out))) -> scale_lanczos_par p lm sched img xf yf sz = Ret out)
    /\ wf out /\ info_of out = scaled (info_of img) xf yf
    /\ forall x y c, inside out x y -> (0 <= c < channels (info_of img))%Z ->
       exists s r dx dy, sample out x y c = Some s /\ fin s r
         /\ fin (frac (#x / xf)%F) dx /\ fin (frac (#y / yf)%F) dy /\ 0 <= dx <= 1 /\ 0 <= dy <= 1
         /\ Rabs (r - lanczos_sum img sz (#x / xf)%F (#y / yf)%F dx dy c) <= lanczos_tol sz k.
Proof.
  intros Hwf Hw Hh Fx Ha Fy Hb Hok HP Hsz Hk Hs.
  destruct (C66_scale_lanczos p lm img xf yf sz Hwf Hw Hh (pos_not_neg xf a Fx Ha) (pos_not_neg yf b Fy Hb) Hok ltac:(lia)) as [out [E [Ep [W [I Sh]]]]].
  exists out. split; [exact E|]. split; [rewrite I; exact Ep|]. split; [exact W|]. split; [exact I|].
  apply (lanczos_shown lm img out xf yf a b sz k); assumption.
Qed.

Lemma tol_3 k : (0 <= k)%Z -> lanczos_tol 3 k <= IZR (2 ^ k) / 2048.
Proof.
  intros Hk. unfold lanczos_tol. assert (0 <= IZR (2 ^ k)) by (apply (IZR_le 0), Z.pow_nonneg; lia).
  unfold Rdiv at 2. apply Rmult_le_compat_l; [assumption|]. cbn. lra.
Qed.

(** Scale::Lanczos is size 3 *)
Theorem C79_lanczos_accuracy p lm (img : image f32) (xf yf : f32) (a b : R) k : wf img ->
  (width (info_of img) <= 16777216)%Z -> (height (info_of img) <= 16777216)%Z ->
  fin xf a -> 0 < a -> fin yf b -> 0 < b -> info_ok (scaled (info_of img) xf yf) ->
  sin_ok (sinf lm) -> (0 <= k <= 80)%Z -> samples_below k img ->
  exists out, scale_seq p lm img xf yf Lanczos = Ret out
    /\ (forall sched, Permutation sched (zrange 0 (width (info_of out) * height (info_of out))) -> scale_par p lm sched img xf yf Lanczos = Ret out)
    /\ wf out /\ info_of out = scaled (info_of img) xf yf
    /\ forall x y c, inside out x y -> (0 <= c < channels (info_of img))%Z ->
       exists s r dx dy, sample out x y c = Some s /\ fin s r
         /\ fin (frac (#x / xf)%F) dx /\ fin (frac (#y / yf)%F) dy /\ 0 <= dx <= 1 /\ 0 <= dy <= 1
         /\ Rabs (r - lanczos_sum img 3 (#x / xf)%F (#y / yf)%F dx dy c) <= IZR (2 ^ k) / 2048.
Proof.
  intros Hwf Hw Hh Fx Ha Fy Hb Hok HP Hk Hs.
  destruct (C66_lanczos p lm img xf yf Hwf Hw Hh (pos_not_neg xf a Fx Ha) (pos_not_neg yf b Fy Hb) Hok) as [out [E [Ep [W [I Sh]]]]].
  exists out. split; [exact E|]. split; [rewrite I; exact Ep|]. split; [exact W|]. split; [exact I|].
  intros x y c Hin Hc.
  destruct (lanczos_shown lm img out xf yf a b 3 k Hwf Hw Hh Fx Ha Fy Hb HP ltac:(lia) Hk Hs I Sh x y c Hin Hc) as (s & r & dx & dy & H1 & H2 & H3 & H4 & H5 & H6 & H7).
  exists s, r, dx, dy. repeat (split; [assumption|]). pose proof (tol_3 k ltac:(lia)). lra.
Qed.

(** ** interpolation *)
Lemma frac_Z (t : f32) i d : isZ t i -> fin (frac t) d -> d = 0.
Proof.
  intros F [_ <-]. unfold frac.
  pose proof (nearby_fin (prec := 24) (emax := 128) mode_DN t (IZR i) F) as E. cbn [round_mode] in E.
  change (Bnearbyint mode_DN t) with (f32_floor t) in E. rewrite Zfloor_IZR in E.
  assert (G : fin (f32_sub t (f32_floor t)) (rnd32 (IZR i - IZR i))).
  { apply sub_fin; [exact F|exact E|]. rewrite Rminus_diag_eq, Rabs_R0 by reflexivity. apply bpow_ge_0. }
  destruct G as [_ ->]. rewrite Rminus_diag_eq by reflexivity. unfold rnd32. rewrite (rnd_Z 0) by (cbn; lia). reflexivity.
Qed.
Lemma tap_Z w (t : f32) i : isZ t i -> (0 <= i < w)%Z -> (w <= 16777216)%Z -> tap w t 0 = i.
Proof.
  intros F Hi Hw. unfold tap. assert (G : isZ (f32_add t (f32_of_Z 0)) i).
  { replace i with (i + 0)%Z by lia. apply add_isZ; [exact F|apply of_Z_isZ; lia|lia]. }
  rewrite (to_int_isZ U32 _ i) by (cbn [lo hi U32]; try lia; exact G). lia.
Qed.
Lemma lanczos_sum_Z (img : image f32) a (px py : f32) i j c : (1 <= a)%Z ->
  (width (info_of img) <= 16777216)%Z -> (height (info_of img) <= 16777216)%Z ->
  isZ px i -> isZ py j -> inside img i j -> lanczos_sum img a px py 0 0 c = value_at img i j c.
Proof.
  intros Ha Hw Hh Fx Fy [Hi Hj]. unfold lanczos_sum. rewrite sum_over_prod.
  assert (In0 : In 0%Z (window a)) by (apply in_window; lia).
  assert (Pa : 0 < IZR a) by (apply (IZR_lt 0); lia).
  assert (Vz : forall m, (m <> 0)%Z -> lanczos_r (IZR a) (0 - IZR m) = 0).
  { intros m Hm. replace (0 - IZR m) with (IZR (- m)) by (rewrite opp_IZR; ring). apply lanczos_Z. lia. }
  rewrite (sum_over_single _ _ 0%Z); [|apply NoDup_zrange|exact In0|].
  - rewrite (sum_over_single _ _ 0%Z); [|apply NoDup_zrange|exact In0|].
    + cbn [fst snd]. rewrite Rminus_0_r, lanczos_0 by exact Pa. rewrite (tap_Z _ px i) by assumption. rewrite (tap_Z _ py j) by assumption. ring.
    + intros n _ Hn. cbn [fst snd]. rewrite (Vz n Hn). ring.
  - intros m _ Hm. apply sum_over_zero. intros n _. cbn [fst snd]. rewrite (Vz m Hm). ring.
Qed.

(** Where the source position is a pixel of the input, the result is that pixel (within the
    tolerance): the resampling interpolates. *)
Theorem C79_interpolates p lm (img : image f32) (xf yf : f32) (a b : R) k : wf img ->
  (width (info_of img) <= 16777216)%Z -> (height (info_of img) <= 16777216)%Z ->
  fin xf a -> 0 < a -> fin yf b -> 0 < b -> info_ok (scaled (info_of img) xf yf) ->
  sin_ok (sinf lm) -> (0 <= k <= 80)%Z -> samples_below k img ->
  exists out, scale_seq p lm img xf yf Lanczos = Ret out /\ wf out /\ info_of out = scaled (info_of img) xf yf
    /\ forall x y c i j, inside out x y -> (0 <= c < channels (info_of img))%Z -> inside img i j ->
       isZ (#x / xf)%F i -> isZ (#y / yf)%F j ->
       exists s r, sample out x y c = Some s /\ fin s r /\ Rabs (r - value_at img i j c) <= IZR (2 ^ k) / 2048.
Proof.
  intros Hwf Hw Hh Fx Ha Fy Hb Hok HP Hk Hs.
  destruct (C79_lanczos_accuracy p lm img xf yf a b k) as [out [E [_ [W [I H]]]]]; try assumption.
  exists out. split; [exact E|]. split; [exact W|]. split; [exact I|]. intros x y c i j Hin Hc Hij Ix Iy.
  destruct (H x y c Hin Hc) as (s & r & dx & dy & Es & Fr & Fdx & Fdy & _ & _ & Hr).
  pose proof (frac_Z _ _ _ Ix Fdx) as ->. pose proof (frac_Z _ _ _ Iy Fdy) as ->.
  rewrite (lanczos_sum_Z img 3 _ _ i j c) in Hr by (assumption || lia).
  exists s, r. repeat (split; [assumption|]). exact Hr.
Qed.

(** upscaling by whole numbers n, m: the pixel at (n i, m j) of the result is the pixel (i, j) of the input *)
Lemma div_isZ x n i : (1 <= n)%Z -> (0 <= i)%Z -> x = (n * i)%Z -> (n <= 16777216)%Z -> (x <= 16777216)%Z -> isZ (f32_div (f32_of_Z x) (f32_of_Z n)) i.
Proof.
  intros Hn Hi -> Hn2 Hx. assert (N0 : IZR n <> 0) by (apply not_0_IZR; lia).
  assert (Hi2 : (i <= 16777216)%Z) by nia.
  assert (Q : IZR (n * i) / IZR n = IZR i) by (rewrite mult_IZR; field; exact N0).
  unfold isZ. rewrite <- (rnd_Z (prec := 24) (emax := 128) i) by (change (2 ^ 24)%Z with 16777216%Z; lia). rewrite <- Q.
  apply div_fin; [apply of_Z_isZ; lia|apply of_Z_isZ; lia|exact N0|].
  rewrite Q, Rabs_pos_eq by (apply (IZR_le 0); lia). apply Rle_trans with (bpow radix2 24); [|apply bpow_le; lia].
  apply (IZR_le i 16777216). exact Hi2.
Qed.
Lemma scale_exact w n : (0 <= w)%Z -> (1 <= n)%Z -> (w * n <= 16777216)%Z -> (w <= 16777216)%Z -> (n <= 16777216)%Z ->
  f32_to_int U32 (f32_round (f32_mul (f32_of_Z w) (f32_of_Z n))) = (w * n)%Z.
Proof.
  intros Hw Hn Hwn Hw2 Hn2. assert (F : isZ (f32_mul (f32_of_Z w) (f32_of_Z n)) (w * n)).
  { apply mul_isZ; [apply of_Z_isZ; lia|apply of_Z_isZ; lia|nia]. }
  pose proof (nearby_fin (prec := 24) (emax := 128) mode_NA _ _ F) as G. cbn [round_mode] in G.
  change (Bnearbyint mode_NA (f32_mul (f32_of_Z w) (f32_of_Z n))) with (f32_round (f32_mul (f32_of_Z w) (f32_of_Z n))) in G.
  assert (EZ : ZnearestA (IZR (w * n)) = (w * n)%Z) by apply (rmode_Z mode_NA). rewrite EZ in G.
  apply to_int_isZ; cbn [lo hi U32]; try exact G; try lia; nia.
Qed.

Theorem C79_upscale p lm (img : image f32) n m k : wf img ->
  (1 <= n)%Z -> (1 <= m)%Z -> (width (info_of img) * n <= 16777216)%Z -> (height (info_of img) * m <= 16777216)%Z ->
  (n <= 16777216)%Z -> (m <= 16777216)%Z ->
  info_ok (Info (width (info_of img) * n) (height (info_of img) * m) (channels (info_of img)) (alpha (info_of img))) ->
  sin_ok (sinf lm) -> (0 <= k <= 80)%Z -> samples_below k img ->
  exists out, scale_seq p lm img (f32_of_Z n) (f32_of_Z m) Lanczos = Ret out /\ wf out
    /\ info_of out = Info (width (info_of img) * n) (height (info_of img) * m) (channels (info_of img)) (alpha (info_of img))
    /\ forall i j c, inside img i j -> (0 <= c < channels (info_of img))%Z ->
       exists s r, sample out (n * i) (m * j) c = Some s /\ fin s r /\ Rabs (r - value_at img i j c) <= IZR (2 ^ k) / 2048.
Proof.
  intros Hwf Hn Hm Hw Hh Hn2 Hm2 Hok HS Hk Hs. pose proof (wf_w _ Hwf). pose proof (wf_h _ Hwf).
  assert (Hw1 : (width (info_of img) <= 16777216)%Z) by nia. assert (Hh1 : (height (info_of img) <= 16777216)%Z) by nia.
  assert (Esc : scaled (info_of img) (f32_of_Z n) (f32_of_Z m)
     = Info (width (info_of img) * n) (height (info_of img) * m) (channels (info_of img)) (alpha (info_of img))).
  { unfold scaled. rewrite !scale_exact by lia. reflexivity. }
  destruct (C79_interpolates p lm img (f32_of_Z n) (f32_of_Z m) (IZR n) (IZR m) k) as [out [E [W [I H1]]]]; try assumption.
  - apply of_Z_isZ. lia.
  - apply (IZR_lt 0). lia.
  - apply of_Z_isZ. lia.
  - apply (IZR_lt 0). lia.
  - rewrite Esc. exact Hok.
  - rewrite Esc in I. exists out. split; [exact E|]. split; [exact W|]. split; [exact I|].
    intros i j c Hij Hc. pose proof Hij as [Hi Hj]. apply (H1 (n * i)%Z (m * j)%Z c i j).
    + unfold inside. rewrite I. cbn [width height]. nia.
    + exact Hc.
    + exact Hij.
    + apply div_isZ; nia.
    + apply div_isZ; nia.
Qed.

(** an 8-bit image scaled by 1: to f32, scaled and back is the image itself *)
Lemma byte_near (X : f32) r z : fin X r -> is_u8 z -> Rabs (r - IZR z) <= / 4 -> byte_of X = z.
Proof.
  intros [F E] Hz H. unfold is_u8 in Hz.
  assert (B : byte_of X = byte_of_real r) by (destruct X as [s|s| |s m e B]; try discriminate F; cbn [byte_of]; rewrite E; reflexivity).
  rewrite B. unfold byte_of_real. apply Rabs_bd in H.
  assert (Ez : Zfloor (r + / 2) = z) by (apply Zfloor_imp; rewrite plus_IZR; lra). lia.
Qed.
Theorem C79_u8_identity p lm (img : image Z) : wf img -> samples is_u8 img ->
  (width (info_of img) <= 16777216)%Z -> (height (info_of img) <= 16777216)%Z -> info_ok (info_of img) -> sin_ok (sinf lm) ->
  (let! f := from_u8_f32 p img in
   let! g := scale_seq p lm f f32_1 f32_1 Lanczos in
   from_f32_u8 p g) = Ret img.
Proof.
  intros Hwf Hs Hw Hh Hok HS. unfold from_u8_f32. rewrite map_channels_pure by exact Hwf. cbn [bind].
  set (f := Image (info_of img) (map f32_of_Z (data img))).
  assert (Wf : wf f) by (apply map_data_wf; exact Hwf).
  assert (Sf : samples_below 8 f).
  { unfold samples_below, samples. cbn [data f]. rewrite Forall_map. eapply Forall_impl; [|exact Hs]. intros z Hz. unfold is_u8 in Hz.
    destruct (of_Z_isZ z ltac:(lia)) as [A B]. split; [exact A|]. rewrite B.
    rewrite Rabs_pos_eq by (apply (IZR_le 0); lia). apply IZR_le. cbn. lia. }
  assert (F1 : f32_1 = f32_of_Z 1) by reflexivity. rewrite F1. clear F1.
  destruct (C79_upscale p lm f 1 1 8 Wf) as [out [E [W [I H]]]]; try assumption; try lia; cbn [f info_of]; rewrite ?Z.mul_1_r; try lia.
  { destruct (info_of img); exact Hok. }
  rewrite E. cbn [bind]. rewrite C13_f32_to_u8 by exact W.
  assert (Io : info_of out = info_of img).
  { rewrite I, !Z.mul_1_r. cbn [f info_of]. destruct (info_of img). reflexivity. }
  f_equal. apply image_ext.
  - apply map_data_wf. exact W.
  - exact Hwf.
  - cbn [info_of]. exact Io.
  - intros x y Hin. rewrite pixel_at_map.
    assert (Hino : inside out x y) by exact Hin.
    assert (Hini : inside img x y) by (unfold inside in *; rewrite Io in Hino; exact Hino).
    pose proof (pixel_at_len _ W x y Hino) as L1. pose proof (pixel_at_len _ Hwf x y Hini) as L2. rewrite Io in L1.
    pose proof (wf_c _ Hwf) as Hch. unfold len in L1, L2.
    apply (list_ext _ _ 0%Z); [rewrite map_length; lia|].
    intros c Hc. rewrite map_length in Hc.
    destruct (H x y (Z.of_nat c)) as (s & r & Es & Fr & Hr); [exact Hini|cbn [f info_of]; lia|].
    rewrite !Z.mul_1_l in Es. unfold sample in Es. rewrite Nat2Z.id in Es.
    rewrite (nth_indep _ 0%Z (byte_of s)) by (rewrite map_length; lia). rewrite map_nth. rewrite (nth_error_nth _ _ s Es).
    set (z := nth c (pixel_at img x y) 0%Z).
    assert (Hz : is_u8 z).
    { assert (Iz : In z (pixel_at img x y)) by (apply nth_In; lia).
      unfold samples in Hs. rewrite Forall_forall in Hs. apply Hs. unfold pixel_at in Iz.
      match type of Iz with In ?z0 (firstn ?n (skipn ?m ?l)) =>
        rewrite <- (firstn_skipn m l); apply in_or_app; right; rewrite <- (firstn_skipn n (skipn m l)); apply in_or_app; left; exact Iz end. }
    apply (byte_near s r z Fr Hz).
    assert (V : value_at f x y (Z.of_nat c) = IZR z).
    { unfold value_at. rewrite Nat2Z.id. unfold f. rewrite pixel_at_map. rewrite (nth_indep _ f32_0 (f32_of_Z 0)) by (rewrite map_length; lia).
      rewrite map_nth. fold z. apply of_Z_isZ. unfold is_u8 in Hz. lia. }
    rewrite V in Hr. cbn in Hr. lra.
Qed.

(** ** flat areas and steps *)
(** the sum of the weights of a position with fractional part d *)
Definition row_sum (a : Z) (d : R) : R := sum_over (window a) (fun k => lanczos_r (IZR a) (d - IZR k)).

Lemma lanczos_sum_sep (img : image f32) a (px py : f32) dx dy c (v : Z -> R) :
  (forall m n, In m (window a) -> In n (window a) ->
     value_at img (tap (width (info_of img)) px m) (tap (height (info_of img)) py n) c = v m) ->
  lanczos_sum img a px py dx dy c = sum_over (window a) (fun m => v m * lanczos_r (IZR a) (dx - IZR m)) * row_sum a dy.
Proof.
  intros H. unfold lanczos_sum. rewrite sum_over_prod.
  rewrite (sum_over_ext (window a) _ (fun m => row_sum a dy * (v m * lanczos_r (IZR a) (dx - IZR m)))).
  - rewrite sum_over_scal. ring.
  - intros m Hm. unfold row_sum. rewrite Rmult_comm, <- sum_over_scal. apply sum_over_ext. intros n Hn. cbn [fst snd]. rewrite H by assumption. ring.
Qed.
Lemma row_sum_0 a : (1 <= a)%Z -> row_sum a 0 = 1.
Proof.
  intros Ha. assert (Pa : 0 < IZR a) by (apply (IZR_lt 0); lia). unfold row_sum.
  rewrite (sum_over_single _ _ 0%Z); [|apply NoDup_zrange|apply in_window; lia|].
  - rewrite Rminus_0_r. apply lanczos_0. exact Pa.
  - intros m _ Hm. replace (0 - IZR m) with (IZR (- m)) by (rewrite opp_IZR; ring). apply lanczos_Z. lia.
Qed.

(** a flat channel: every sample is the flat value times the two weight sums *)
Theorem C79_flat p lm (img : image f32) (xf yf : f32) (a b : R) k c v : wf img ->
  (width (info_of img) <= 16777216)%Z -> (height (info_of img) <= 16777216)%Z ->
  fin xf a -> 0 < a -> fin yf b -> 0 < b -> info_ok (scaled (info_of img) xf yf) ->
  sin_ok (sinf lm) -> (0 <= k <= 80)%Z -> samples_below k img -> (0 <= c < channels (info_of img))%Z ->
  (forall x y, inside img x y -> value_at img x y c = v) ->
  exists out, scale_seq p lm img xf yf Lanczos = Ret out /\ info_of out = scaled (info_of img) xf yf
    /\ forall x y, inside out x y -> exists s r dx dy, sample out x y c = Some s /\ fin s r
         /\ fin (frac (#x / xf)%F) dx /\ fin (frac (#y / yf)%F) dy
         /\ Rabs (r - v * row_sum 3 dx * row_sum 3 dy) <= IZR (2 ^ k) / 2048.
Proof.
  intros Hwf Hw Hh Fx Ha Fy Hb Hok HP Hk Hs Hc Hv.
  destruct (C79_lanczos_accuracy p lm img xf yf a b k) as [out [E [_ [W [I H]]]]]; try assumption.
  exists out. split; [exact E|]. split; [exact I|]. intros x y Hin.
  destruct (H x y c Hin Hc) as (s & r & dx & dy & Es & Fr & Fdx & Fdy & _ & _ & Hr).
  exists s, r, dx, dy. repeat (split; [assumption|]).
  destruct Hin as [Hx Hy]. rewrite I in Hx, Hy. cbn [scaled width height] in Hx, Hy.
  pose proof (wf_w _ Hwf). pose proof (wf_h _ Hwf).
  assert (W1 : (1 <= width (info_of img))%Z).
  { destruct (Z.eq_dec (width (info_of img)) 0) as [E0|]; [|lia]. exfalso. rewrite E0, scale_zero in Hx. lia. }
  assert (Hh1 : (1 <= height (info_of img))%Z).
  { destruct (Z.eq_dec (height (info_of img)) 0) as [E0|]; [|lia]. exfalso. rewrite E0, scale_zero in Hy. lia. }
  rewrite (lanczos_sum_sep img 3 _ _ dx dy c (fun _ => v)) in Hr.
  - rewrite sum_over_scal in Hr. exact Hr.
  - intros m n _ _. apply Hv. split; apply tap_inside; assumption.
Qed.

(** the weights at distances 1/2, 3/2 and 5/2 *)
Lemma lanczos_half : lanczos_r 3 (1 / 2) = 6 / (PI * PI).
Proof.
  pose proof PI_RGT_0 as P. unfold lanczos_r. rewrite Rabs_pos_eq by lra. destruct (Rlt_dec (1 / 2) 3); [|lra].
  unfold sinc_r. destruct (Req_EM_T (1 / 2) 0); [lra|]. destruct (Req_EM_T (1 / 2 / 3) 0); [lra|].
  replace (PI * (1 / 2)) with (PI / 2) by field. replace (PI * (1 / 2 / 3)) with (PI / 6) by field. rewrite sin_PI2, sin_PI6. field. lra.
Qed.
Lemma lanczos_3half : lanczos_r 3 (3 / 2) = - (4 / 3) / (PI * PI).
Proof.
  pose proof PI_RGT_0 as P. unfold lanczos_r. rewrite Rabs_pos_eq by lra. destruct (Rlt_dec (3 / 2) 3); [|lra].
  unfold sinc_r. destruct (Req_EM_T (3 / 2) 0); [lra|]. destruct (Req_EM_T (3 / 2 / 3) 0); [lra|].
  replace (PI * (3 / 2)) with (PI / 2 + PI) by field. rewrite neg_sin.
  replace (PI * (3 / 2 / 3)) with (PI / 2) by field. rewrite sin_PI2. field. lra.
Qed.
Lemma lanczos_5half : lanczos_r 3 (5 / 2) = 24 / 100 / (PI * PI).
Proof.
  pose proof PI_RGT_0 as P. unfold lanczos_r. rewrite Rabs_pos_eq by lra. destruct (Rlt_dec (5 / 2) 3); [|lra].
  unfold sinc_r. destruct (Req_EM_T (5 / 2) 0); [lra|]. destruct (Req_EM_T (5 / 2 / 3) 0); [lra|].
  replace (PI * (5 / 2)) with (PI / 2 + PI + PI) by field. rewrite !neg_sin.
  replace (PI * (5 / 2 / 3)) with (PI - PI / 6) by field. rewrite sin_PI_x, sin_PI2, sin_PI6. field. lra.
Qed.
Lemma window_3 : window 3 = [-2; -1; 0; 1; 2; 3]%Z. Proof. reflexivity. Qed.
Lemma half_weights : lanczos_r 3 (1 / 2 - -2) = 24 / 100 / (PI * PI) /\ lanczos_r 3 (1 / 2 - -1) = - (4 / 3) / (PI * PI)
  /\ lanczos_r 3 (1 / 2 - 0) = 6 / (PI * PI) /\ lanczos_r 3 (1 / 2 - 1) = 6 / (PI * PI)
  /\ lanczos_r 3 (1 / 2 - 2) = - (4 / 3) / (PI * PI) /\ lanczos_r 3 (1 / 2 - 3) = 24 / 100 / (PI * PI).
Proof.
  replace (1 / 2 - -2) with (5 / 2) by field. replace (1 / 2 - -1) with (3 / 2) by field. replace (1 / 2 - 0) with (1 / 2) by field.
  replace (1 / 2 - 1) with (- (1 / 2)) by field. replace (1 / 2 - 2) with (- (3 / 2)) by field. replace (1 / 2 - 3) with (- (5 / 2)) by field.
  rewrite !lanczos_even, lanczos_half, lanczos_3half, lanczos_5half. repeat split.
Qed.
Lemma PI2_bounds : 9.8696 <= PI * PI <= 9.8697.
Proof. pose proof pi_bounds as P. split; nra. Qed.
Lemma row_sum_half : row_sum 3 (1 / 2) = 736 / 75 / (PI * PI).
Proof.
  pose proof PI_RGT_0 as P. unfold row_sum. rewrite window_3. cbn [sum_over fold_right].
  destruct half_weights as (A & B & C & D & E & F). rewrite A, B, C, D, E, F. field. lra.
Qed.

(** Flat images do not stay flat: whatever the size of a flat image of 255, doubling its width
    darkens the sample at column 1, row 0 to about 253.5. *)
Theorem C79_flat_refuted p lm (img : image f32) c : wf img ->
  (1 <= width (info_of img) <= 8388608)%Z -> (1 <= height (info_of img) <= 16777216)%Z -> (0 <= c < channels (info_of img))%Z ->
  info_ok (Info (width (info_of img) * 2) (height (info_of img) * 1) (channels (info_of img)) (alpha (info_of img))) ->
  sin_ok (sinf lm) -> samples (fun s : f32 => s = f32_of_Z 255) img ->
  exists out s r, scale_seq p lm img (f32_of_Z 2) (f32_of_Z 1) Lanczos = Ret out /\ inside out 1 0
    /\ sample out 1 0 c = Some s /\ fin s r /\ 253.3 <= r <= 253.7.
Proof.
  intros Hwf Hw Hh Hc Hok HS Hv.
  assert (Esc : scaled (info_of img) (f32_of_Z 2) (f32_of_Z 1)
     = Info (width (info_of img) * 2) (height (info_of img) * 1) (channels (info_of img)) (alpha (info_of img))).
  { unfold scaled. rewrite !scale_exact by lia. reflexivity. }
  assert (F255 : isZ (f32_of_Z 255) 255) by (apply of_Z_isZ; lia).
  destruct (C79_flat p lm img (f32_of_Z 2) (f32_of_Z 1) 2 1 8 c 255 Hwf) as [out [E [I H]]]; try assumption; try lia; try lra.
  - apply (of_Z_isZ 2). lia.
  - apply (of_Z_isZ 1). lia.
  - rewrite Esc. exact Hok.
  - unfold samples_below, samples in *. eapply Forall_impl; [|exact Hv]. cbv beta. intros s ->. destruct F255 as [A B].
    split; [exact A|]. rewrite B. rewrite Rabs_pos_eq by (cbn; lra). cbn. lra.
  - intros x y Hin. assert (Hs8 : samples_below 8 img).
    { unfold samples_below, samples in *. eapply Forall_impl; [|exact Hv]. cbv beta. intros s ->. destruct F255 as [A B].
      split; [exact A|]. rewrite B. rewrite Rabs_pos_eq by (cbn; lra). cbn. lra. }
    assert (HI : In (nth (Z.to_nat c) (pixel_at img x y) f32_0) (data img)).
    { assert (HIn : In (nth (Z.to_nat c) (pixel_at img x y) f32_0) (pixel_at img x y)).
      { apply nth_In. pose proof (pixel_at_len img Hwf x y Hin) as L. unfold len in L. lia. }
      unfold pixel_at in HIn.
      match type of HIn with In ?z (firstn ?n (skipn ?m ?l)) =>
        rewrite <- (firstn_skipn m l); apply in_or_app; right; rewrite <- (firstn_skipn n (skipn m l)); apply in_or_app; left; exact HIn end. }
    unfold value_at. unfold samples in Hv. rewrite Forall_forall in Hv. rewrite (Hv _ HI). apply F255.
  - rewrite Esc in I.
    assert (Hin : inside out 1 0) by (unfold inside; rewrite I; cbn [width height]; lia).
    destruct (H 1%Z 0%Z Hin) as (s & r & dx & dy & Es & Fr & Fdx & Fdy & Hr).
    exists out, s, r. repeat (split; [assumption|]).
    assert (Dy : dy = 0).
    { apply (frac_Z (f32_div (f32_of_Z 0) (f32_of_Z 1)) 0 dy); [apply div_isZ; lia|exact Fdy]. }
    assert (Dx : dx = 1 / 2).
    { destruct Fdx as [_ <-].
      assert (Ei : B2SF (frac (f32_div (f32_of_Z 1) (f32_of_Z 2))) = SpecFloat.S754_finite false 8388608 (-24)) by (vm_compute; reflexivity).
      rewrite <- SF2R_B2SF, Ei. unfold SF2R, F2R. cbn. lra. }
    rewrite Dx, Dy, row_sum_0, Rmult_1_r, row_sum_half in Hr by lia.
    pose proof PI2_bounds as B. set (q := 736 / 75 / (PI * PI)) in *.
    assert (Eq : q * (PI * PI) = 736 / 75) by (unfold q; field; pose proof PI_RGT_0; lra).
    clearbody q. set (z := PI * PI) in *. clearbody z. apply Rabs_bd in Hr. cbn in Hr. clear -Hr B Eq. split; nra.
Qed.

(** Steps overshoot: a row 0 0 255 255 doubled in width has a negative sample. *)
Definition ex_edge : image f32 := Image (Info 4 1 1 false) [f32_of_Z 0; f32_of_Z 0; f32_of_Z 255; f32_of_Z 255].
Lemma ex_edge_wf : wf ex_edge. Proof. constructor; cbn; unfold u32_max; lia. Qed.
Lemma ex_edge_samples : samples_below 8 ex_edge.
Proof.
  assert (A0 : is_finite (f32_of_Z 0) = true /\ Rabs (B2R (f32_of_Z 0)) <= IZR (2 ^ 8)).
  { destruct (of_Z_isZ 0 ltac:(lia)) as [A B]. split; [exact A|]. rewrite B, Rabs_R0. cbn. lra. }
  assert (A1 : is_finite (f32_of_Z 255) = true /\ Rabs (B2R (f32_of_Z 255)) <= IZR (2 ^ 8)).
  { destruct (of_Z_isZ 255 ltac:(lia)) as [A B]. split; [exact A|]. rewrite B, Rabs_pos_eq by (cbn; lra). cbn. lra. }
  unfold samples_below, samples. cbn [data ex_edge]. repeat apply Forall_cons; try apply Forall_nil; assumption.
Qed.

Theorem C79_overshoot_refuted p lm : sin_ok (sinf lm) ->
  (forall x y, inside ex_edge x y -> value_at ex_edge x y 0 = 0 \/ value_at ex_edge x y 0 = 255)
  /\ exists out s r, scale_seq p lm ex_edge (f32_of_Z 2) (f32_of_Z 1) Lanczos = Ret out
    /\ sample out 1 0 0 = Some s /\ fin s r /\ -28.5 <= r <= -28.
Proof.
  intros HS.
  assert (V0 : value_at ex_edge 0 0 0 = 0) by (apply (of_Z_isZ 0); lia).
  assert (V1 : value_at ex_edge 1 0 0 = 0) by (apply (of_Z_isZ 0); lia).
  assert (V2 : value_at ex_edge 2 0 0 = 255) by (apply (of_Z_isZ 255); lia).
  assert (V3 : value_at ex_edge 3 0 0 = 255) by (apply (of_Z_isZ 255); lia).
  split.
  { intros x y [Hx Hy]. cbn in Hx, Hy. assert (y = 0)%Z as -> by lia.
    assert (x = 0 \/ x = 1 \/ x = 2 \/ x = 3)%Z as [->|[->|[->| ->]]] by lia; auto. }
  assert (Esc : scaled (info_of ex_edge) (f32_of_Z 2) (f32_of_Z 1) = Info 8 1 1 false).
  { unfold scaled. cbn [info_of ex_edge width height channels alpha]. rewrite !scale_exact by lia. reflexivity. }
  destruct (C79_lanczos_accuracy p lm ex_edge (f32_of_Z 2) (f32_of_Z 1) 2 1 8 ex_edge_wf) as [out [E [_ [W [I H]]]]]; try assumption; try lra; try (cbn; lia).
  - apply (of_Z_isZ 2). lia.
  - apply (of_Z_isZ 1). lia.
  - rewrite Esc. unfold info_ok. cbn. unfold u32_max. lia.
  - apply ex_edge_samples.
  - rewrite Esc in I.
    destruct (H 1%Z 0%Z 0%Z) as (s & r & dx & dy & Es & Fr & Fdx & Fdy & _ & _ & Hr).
    { unfold inside. rewrite I. cbn. lia. }
    { cbn. lia. }
    exists out, s, r. repeat (split; [assumption|]).
    assert (Dy : dy = 0).
    { apply (frac_Z (f32_div (f32_of_Z 0) (f32_of_Z 1)) 0 dy); [apply div_isZ; lia|exact Fdy]. }
    assert (Dx : dx = 1 / 2).
    { destruct Fdx as [_ <-].
      assert (Ei : B2SF (frac (f32_div (f32_of_Z 1) (f32_of_Z 2))) = SpecFloat.S754_finite false 8388608 (-24)) by (vm_compute; reflexivity).
      rewrite <- SF2R_B2SF, Ei. unfold SF2R, F2R. cbn. lra. }
    rewrite (lanczos_sum_sep ex_edge 3 _ _ dx dy 0 (fun m => if (m <? 2)%Z then 0 else 255)) in Hr.
    + rewrite Dx, Dy, row_sum_0, Rmult_1_r in Hr by lia. rewrite window_3 in Hr. cbn [sum_over fold_right] in Hr.
      destruct half_weights as (A & B & C & D & E5 & F). rewrite A, B, C, D, E5, F in Hr. cbn in Hr.
      pose proof PI2_bounds as PB. set (z := PI * PI) in *.
      set (q := 1 / z). assert (Eq : q * z = 1) by (unfold q; field; lra).
      unfold Rdiv in Hr. assert (Eiz : / z = q) by (unfold q; field; lra). rewrite Eiz in Hr. clearbody q. clearbody z.
      apply Rabs_bd in Hr. clear -Hr PB Eq. split; nra.
    + intros m n Hm Hn. cbn [info_of ex_edge width height].
      assert (Tn : tap 1 (f32_div (f32_of_Z 0) (f32_of_Z 1)) n = 0%Z).
      { pose proof (tap_inside 1 (f32_div (f32_of_Z 0) (f32_of_Z 1)) n ltac:(lia)). lia. }
      rewrite Tn. rewrite window_3 in Hm. fold ex_edge.
      destruct Hm as [<-|[<-|[<-|[<-|[<-|[<-|[]]]]]]]; cbn [Z.ltb Z.compare Pos.compare Pos.compare_cont];
        match goal with |- value_at _ (tap 4 ?p ?k) _ _ = _ => let t := eval vm_compute in (tap 4 p k) in
          assert (Et : tap 4 p k = t) by (vm_compute; reflexivity); rewrite Et; assumption end.
Qed.

(** ** a sine function that qualifies: the correctly rounded sine *)
Definition ideal_sin (t : f32) : f32 := round_to_f32 (sin (B2R t)).
Lemma ideal_sin_ok : sin_ok ideal_sin.
Proof.
  intros t r F Hr. assert (Er : B2R t = r) by apply F. unfold ideal_sin. rewrite Er.
  pose proof (SIN_bound r) as SB. assert (S1 : Rabs (sin r) <= 1) by (apply Rabs_le'; lra).
  exists (rnd32 (sin r)). split.
  { apply round_to_fin. apply Rle_trans with 1; [exact S1|]. change 1 with (bpow radix2 0). apply bpow_le. lia. }
  pose proof (sin_le_abs r) as SL. pose proof (Rabs_pos r) as R0.
  assert (NP : forall g, generic_format radix2 (SpecFloat.fexp 24 128) g -> Rabs (rnd32 (sin r) - sin r) <= Rabs (g - sin r)).
  { intros g Hg. unfold rnd32, rnd. apply (round_N_pt radix2 (SpecFloat.fexp 24 128) (fun x => negb (Z.even x)) (sin r)). exact Hg. }
  destruct (Rle_lt_dec (Rabs r) (/ 4194304)) as [L|G].
  - eapply Rle_trans; [apply (NP r); rewrite <- Er; apply generic_format_B2R|].
    destruct (Req_dec r 0) as [->|N0]; [rewrite sin_0, Rminus_0_r, Rabs_R0; lra|].
    replace (r - sin r) with (- (r * (S r - 1))) by (rewrite (S_n r N0); field; exact N0). rewrite Rabs_Ropp, Rabs_mult.
    unfold Rdiv. apply Rmult_le_compat_l; [exact R0|]. pose proof (S_near1 r). lra.
  - destruct (Rle_lt_dec (bpow radix2 (-126)) (Rabs (sin r))) as [B|B].
    + eapply Rle_trans; [apply rel_err; exact B|]. change (bpow radix2 (-24)) with (/ 16777216). lra.
    + eapply Rle_trans; [apply (NP 0), generic_format_0|]. rewrite Rminus_0_l, Rabs_Ropp.
      apply Rle_trans with (bpow radix2 (-44)); [left; eapply Rlt_le_trans; [exact B|apply bpow_le; lia]|].
      change (bpow radix2 (-44)) with (/ 17592186044416). lra.
Qed.
Example C79_example : sin_ok ideal_sin /\ samples_below 8 ex_edge /\ wf ex_edge.
Proof. split; [apply ideal_sin_ok|]. split; [apply ex_edge_samples|apply ex_edge_wf]. Qed.
