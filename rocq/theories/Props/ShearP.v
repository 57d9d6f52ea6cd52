(** * C77: shear by any factors *)
From Coq Require Import Lra.
From Flocq Require Import Core BinarySingleNaN.
From Verif.Model Require Import MathM Transform.
From Verif.Spec Require Import ImageS FloatS ShearS.
From Verif.Proofs Require Import BaseL ImageL FloatL FloatL2 ApproxL WriteL RotL2 SrgbL3 Safe.
From Verif.Props Require Import FloatP RotateP.
Open Scope Z_scope.

Section Axis.
  Context (n m k : Z) (s : f32) (a : R) (Fs : fin s a) (Hn : 0 <= n) (Hm : 0 <= m) (Hk : 0 <= k <= 22).
  Let K := IZR (2 ^ k).
  Context (Hfit : (IZR n + Rabs a * IZR m + 1 <= K)%R).
  Let off := f32_abs (f32_mul (f32_of_Z m) s).

  Lemma axis_K : (1 <= K <= 4194304)%R.
  Proof.
    unfold K. split; [apply (IZR_le 1)|apply (IZR_le _ 4194304)]; [pose proof (Z.pow_pos_nonneg 2 k); lia|].
    change 4194304 with (2 ^ 22). apply Z.pow_le_mono_r; lia.
  Qed.
  Lemma axis_am : (0 <= IZR n /\ 0 <= IZR m /\ 0 <= Rabs a * IZR m /\ 0 <= Rabs a)%R.
  Proof.
    pose proof (Rabs_pos a). assert (0 <= IZR m)%R by (apply (IZR_le 0); lia). assert (0 <= IZR n)%R by (apply (IZR_le 0); lia).
    repeat split; try assumption. apply Rmult_le_pos; assumption.
  Qed.
  Context (Hn24 : n <= 16777216) (Hm24 : m <= 16777216).

  Lemma off_fin : fin off (Rabs (rnd32 (IZR m * a))).
  Proof.
    destruct axis_am as (A1 & A2 & A3 & A4). pose proof axis_K as AK.
    apply abs_fin. apply mul_fin; [apply of_Z_isZ; lia|exact Fs|]. apply (small_bpow k); [lia|].
    rewrite Rabs_mult, (Rabs_pos_eq (IZR m)) by lra. fold K. lra.
  Qed.
  Lemma off_err : (Rabs (Rabs (rnd32 (IZR m * a)) - Rabs a * IZR m) <= K * uu)%R.
  Proof.
    destruct axis_am as (A1 & A2 & A3 & A4).
    replace (Rabs a * IZR m)%R with (Rabs (IZR m * a)) by (rewrite Rabs_mult, (Rabs_pos_eq (IZR m)) by lra; ring).
    eapply Rle_trans; [apply Rabs_triang_inv2|]. apply rnd_err; [lia|]. rewrite Rabs_mult, (Rabs_pos_eq (IZR m)) by lra. fold K. lra.
  Qed.
  (** the size *)
  Lemma off_floor : room a m (8 * K * uu) -> f32_to_int U32 off = Zfloor (Rabs a * IZR m).
  Proof using All.
    intros Hr. destruct axis_am as (A1 & A2 & A3 & A4). pose proof axis_K as AK. pose proof off_err as OE. apply Rabs_bd in OE.
    unfold room in Hr. set (N := Zfloor (Rabs a * IZR m)) in *.
    assert (HN : 0 <= N) by (apply Zfloor_lub; exact A3).
    assert (LN : (IZR N <= Rabs a * IZR m)%R) by apply Zfloor_lb.
    assert (N24 : N <= 16777216). { apply le_IZR. lra. }
    unfold f32_to_int. rewrite (to_int_fin U32 _ _ ltac:(cbn; lia) off_fin). rewrite Ztrunc_floor by apply Rabs_pos.
    assert (E : Zfloor (Rabs (rnd32 (IZR m * a))) = N).
    { apply Zfloor_imp. rewrite plus_IZR. split; [|unfold uu in *; lra].
      destruct (Rle_lt_dec 0 a) as [P|P].
      - rewrite (Rabs_pos_eq a) in LN by lra. eapply Rle_trans; [|apply Rle_abs]. apply rnd_ge_Z; [lra|cbn; lia].
      - rewrite (Rabs_left a) in LN by lra. rewrite <- Rabs_Ropp. eapply Rle_trans; [|apply Rle_abs].
        assert (rnd32 (IZR m * a) <= IZR (- N))%R; [|rewrite opp_IZR in *; lra]. apply rnd_le_Z; [rewrite opp_IZR; lra|cbn; lia]. }
    rewrite E. unfold clampZ. cbn [lo hi U32]. lia.
  Qed.

  Context (x y : Z) (Hx : 0 <= x < n) (Hy : 0 <= y < m).
  Lemma axis_xy : (0 <= IZR x <= IZR n - 1 /\ 0 <= IZR y <= IZR m - 1 /\ Rabs (a * IZR y) <= Rabs a * IZR m)%R.
  Proof.
    destruct axis_am as (A1 & A2 & A3 & A4).
    assert (0 <= IZR x <= IZR n - 1)%R. { split; [apply (IZR_le 0); lia|]. rewrite <- minus_IZR. apply IZR_le. lia. }
    assert (0 <= IZR y <= IZR m - 1)%R. { split; [apply (IZR_le 0); lia|]. rewrite <- minus_IZR. apply IZR_le. lia. }
    repeat split; try lra. rewrite Rabs_mult, (Rabs_pos_eq (IZR y)) by lra. apply Rmult_le_compat_l; lra.
  Qed.
  Lemma move_ap : approx (f32_mul (f32_neg s) (f32_of_Z y)) (- a * IZR y) (K * uu).
  Proof.
    destruct axis_am as (A1 & A2 & A3 & A4). pose proof axis_K as AK. destruct axis_xy as (X1 & X2 & X3).
    assert (F : fin (f32_mul (f32_neg s) (f32_of_Z y)) (rnd32 (- a * IZR y))).
    { apply mul_fin; [apply opp_fin; exact Fs|apply of_Z_isZ; lia|]. apply (small_bpow k); [lia|].
      rewrite <- Ropp_mult_distr_l, Rabs_Ropp. fold K. lra. }
    exists (rnd32 (- a * IZR y)). split; [exact F|]. apply rnd_err; [lia|]. rewrite <- Ropp_mult_distr_l, Rabs_Ropp. fold K. lra.
  Qed.
  Lemma own_Z : isZ (f32_mul f32_1 (f32_of_Z x)) x.
  Proof. replace x with (1 * x) at 2 by lia. apply mul_isZ; [apply isZ_1|apply of_Z_isZ; lia|lia]. Qed.
  Lemma axis_sum_bd : (Rabs (IZR x + - a * IZR y) <= IZR n - 1 + Rabs a * IZR m)%R.
  Proof.
    destruct axis_xy as (X1 & X2 & X3). eapply Rle_trans; [apply Rabs_triang|]. rewrite <- Ropp_mult_distr_l, Rabs_Ropp, (Rabs_pos_eq (IZR x)) by lra. lra.
  Qed.
  Lemma axis_first : approx (f32_add (f32_add f32_0 (f32_mul f32_1 (f32_of_Z x))) (f32_mul (f32_neg s) (f32_of_Z y))) (IZR x - a * IZR y) (3 * K * uu).
  Proof using All.
    pose proof axis_K as AK. pose proof axis_sum_bd as SB.
    apply (ap_eq _ (IZR x + - a * IZR y)); [|ring].
    assert (Z1 : isZ (f32_add f32_0 (f32_mul f32_1 (f32_of_Z x))) x).
    { replace x with (0 + x) at 2 by lia. apply add_isZ; [apply isZ_0|apply own_Z|lia]. }
    apply (ap_add k _ _ _ _ 0 (K * uu)); [apply fin_ap; exact Z1|exact move_ap|lia| |]; fold K; unfold uu in *; lra.
  Qed.
  Lemma axis_second : approx (f32_add (f32_add f32_0 (f32_mul (f32_neg s) (f32_of_Z y))) (f32_mul f32_1 (f32_of_Z x))) (IZR x - a * IZR y) (3 * K * uu).
  Proof using All.
    pose proof axis_K as AK. pose proof axis_sum_bd as SB. destruct axis_xy as (X1 & X2 & X3). destruct axis_am as (A1 & A2 & A3 & A4).
    apply (ap_eq _ ((0 + - a * IZR y) + IZR x)); [|ring].
    assert (S1 : approx (f32_add f32_0 (f32_mul (f32_neg s) (f32_of_Z y))) (0 + - a * IZR y) (2 * K * uu)).
    { apply (ap_add k _ _ _ _ 0 (K * uu)); [apply fin_ap; apply isZ_0|exact move_ap|lia| |]; fold K; [|unfold uu; lra].
      rewrite Rplus_0_l, <- Ropp_mult_distr_l, Rabs_Ropp. unfold uu in *. lra. }
    apply (ap_add k _ _ _ _ (2 * K * uu) 0); [exact S1|apply fin_ap; exact own_Z|lia| |]; fold K; [|unfold uu; lra].
    replace (0 + - a * IZR y + IZR x)%R with (IZR x + - a * IZR y)%R by ring. unfold uu in *. lra.
  Qed.
  Lemma shear_pos_bd : (0 <= shear_pos a m x y <= IZR n - 1 + Rabs a * IZR m)%R.
  Proof.
    destruct axis_xy as (X1 & X2 & X3). destruct axis_am as (A1 & A2 & A3 & A4). unfold shear_pos.
    destruct (Rle_lt_dec a 0) as [P|P].
    - rewrite Rmax_right by lra. rewrite (Rabs_left1 a) in * by lra.
      assert (0 <= - a * IZR y)%R by (apply Rmult_le_pos; lra). assert (- a * IZR y <= - a * IZR m)%R by (apply Rmult_le_compat_l; lra). lra.
    - rewrite Rmax_left by lra. rewrite (Rabs_pos_eq a) in * by lra.
      assert (0 <= a * IZR y)%R by (apply Rmult_le_pos; lra). assert (a * IZR y <= a * IZR m)%R by (apply Rmult_le_compat_l; lra). lra.
  Qed.
  Lemma axis_pos (c : f32) : approx c (IZR x - a * IZR y) (3 * K * uu) ->
    approx (if f32_gtb s f32_0 then f32_add c off else c) (shear_pos a m x y) (8 * K * uu).
  Proof using All.
    intros Hc. pose proof axis_K as AK. pose proof shear_pos_bd as SB. pose proof off_fin as OF. pose proof off_err as OE. destruct axis_am as (A1 & A2 & A3 & A4).
    unfold f32_gtb. rewrite (ltb_fin f32_0 s 0 a isZ_0 Fs). destruct (Rlt_bool_spec 0 a) as [P|P].
    - unfold shear_pos in *. rewrite Rmax_left in * by lra. rewrite (Rabs_pos_eq a) in * by lra.
      apply (ap_add k _ _ _ _ (3 * K * uu) (K * uu)); [exact Hc| |lia| |]; fold K.
      + exists (Rabs (rnd32 (IZR m * a))). split; [exact OF|exact OE].
      + rewrite Rabs_pos_eq by lra. unfold uu in *. lra.
      + unfold uu. lra.
    - unfold shear_pos. rewrite Rmax_right by lra. apply (ap_eq _ (IZR x - a * IZR y)); [|ring]. apply (ap_weaken _ _ _ _ Hc). unfold uu. lra.
  Qed.
  Lemma axis_lands (c : f32) : room a m (8 * K * uu) -> approx c (shear_pos a m x y) (8 * K * uu) ->
    0 <= f32_to_int U32 c < sheared_size a n m /\ falls_on (shear_pos a m x y) (8 * K * uu) (f32_to_int U32 c).
  Proof using All.
    intros Hr [r [F E]]. apply Rabs_bd in E. pose proof axis_K as AK. pose proof shear_pos_bd as SB. destruct axis_am as (A1 & A2 & A3 & A4).
    unfold room in Hr. set (N := Zfloor (Rabs a * IZR m)) in *.
    assert (HN : 0 <= N) by (apply Zfloor_lub; exact A3).
    assert (LN : (IZR N <= Rabs a * IZR m)%R) by apply Zfloor_lb.
    assert (N24 : N <= 16777216). { apply le_IZR. lra. }
    assert (P : (0 <= 8 * K * uu)%R) by (unfold uu; lra).
    destruct (to_u32_fin c r (n + N) F) as [I V]; [rewrite plus_IZR; lra|lia|].
    unfold sheared_size. fold N. split; [exact I|]. unfold falls_on. split; [lra|]. eapply Rle_trans; [apply V|]. apply Rmax_lub; lra.
  Qed.
End Axis.

(** ** Factors of any size: where the pixels go *)

(** With K = 2^k a bound for the size of the result (at most 2^22) and e = K/2^22: unless the growth of the image is just
    below an integer, shear returns an image of the size of the sheared rectangle; every pixel of it is zero or an input
    pixel that is sheared to it, and the position of every input pixel shows an input pixel that is sheared to it. *)
Theorem C77_shear p (img : image f32) (sx sy : f32) (a b : R) k :
  wf img -> fin sx a -> fin sy b -> 0 <= k <= 22 ->
  let w := width (info_of img) in let h := height (info_of img) in
  let e := (IZR (2 ^ k) / 4194304)%R in
  (IZR w + Rabs a * IZR h + 1 <= IZR (2 ^ k))%R -> (IZR h + Rabs b * IZR w + 1 <= IZR (2 ^ k))%R ->
  let inf := Info (sheared_size a w h) (sheared_size b h w) (channels (info_of img)) (alpha (info_of img)) in
  info_ok inf -> room a h e -> room b w e ->
  exists out, shear p img sx sy = Ret out /\ wf out /\ info_of out = inf
    /\ (forall X Y, inside out X Y ->
          pixel_at out X Y = repeat f32_0 (Z.to_nat (channels (info_of img)))
          \/ exists x y, inside img x y /\ pixel_at out X Y = pixel_at img x y /\ sheared_to a b w h e x y X Y)
    /\ (forall x y, inside img x y -> exists X Y x' y', inside out X Y /\ sheared_to a b w h e x y X Y
          /\ inside img x' y' /\ sheared_to a b w h e x' y' X Y /\ pixel_at out X Y = pixel_at img x' y').
Proof.
  intros Hwf Fx Fy Hk w h e Bw Bh inf Hok Rx Ry. pose proof Hwf as [Hw0 Hh0 HC Hsz Hfull Hd]. fold w in Hw0. fold h in Hh0.
  assert (He : e = (8 * IZR (2 ^ k) * uu)%R) by (unfold e, uu; lra). clearbody e. subst e.
  destruct (axis_am w h a ltac:(lia) ltac:(lia)) as (A1 & A2 & A3 & A4). destruct (axis_am h w b ltac:(lia) ltac:(lia)) as (_ & _ & B3 & B4).
  pose proof (axis_K k Hk) as AK.
  assert (w24 : w <= 16777216) by (apply le_IZR; lra). assert (h24 : h <= 16777216) by (apply le_IZR; lra).
  unfold shear. fold w h. cbv zeta.
  rewrite (off_floor w h k sx a Fx ltac:(lia) ltac:(lia) Hk Bw ltac:(lia) ltac:(lia) Rx).
  rewrite (off_floor h w k sy b Fy ltac:(lia) ltac:(lia) Hk Bh ltac:(lia) ltac:(lia) Ry).
  pose proof Hok as Hok'. unfold info_ok in Hok'. cbn [inf width height channels] in Hok'. unfold sheared_size, u32_max in Hok'.
  assert (N1 : 0 <= Zfloor (Rabs a * IZR h)) by (apply Zfloor_lub; exact A3).
  assert (N2 : 0 <= Zfloor (Rabs b * IZR w)) by (apply Zfloor_lub; exact B3).
  rewrite iadd_ok by (cbn; lia). cbn [bind]. rewrite iadd_ok by (cbn; lia). cbn [bind].
  rewrite (Z.add_comm (Zfloor (Rabs b * IZR w)) h). change (w + Zfloor (Rabs a * IZR h)) with (sheared_size a w h).
  change (h + Zfloor (Rabs b * IZR w)) with (sheared_size b h w). fold inf.
  rewrite (blank_ok p num_f32 inf Hok). cbn [bind].
  match goal with |- context [mfold _ _ ?bb] => set (bl := bb) in * end.
  assert (Wb : wf bl) by (apply (blank_wf num_f32), Hok).
  assert (Ib : info_of bl = inf) by reflexivity.
  set (ox := f32_abs (f32_mul (f32_of_Z h) sx)) in *. set (oy := f32_abs (f32_mul (f32_of_Z w) sy)) in *.
  set (C0 := fun x y => let c := f32_add (f32_add f32_0 (f32_mul f32_1 (f32_of_Z x))) (f32_mul (f32_neg sx) (f32_of_Z y)) in
                        if f32_gtb sx f32_0 then f32_add c ox else c).
  set (C1 := fun x y => let c := f32_add (f32_add f32_0 (f32_mul (f32_neg sy) (f32_of_Z x))) (f32_mul f32_1 (f32_of_Z y)) in
                        if f32_gtb sy f32_0 then f32_add c oy else c).
  set (wr := fun x y => (f32_to_int U32 (C0 x y), f32_to_int U32 (C1 x y), pixel_at img x y)).
  assert (HW : forall x y, 0 <= x < w -> 0 <= y < h ->
    (0 <= f32_to_int U32 (C0 x y) < sheared_size a w h /\ 0 <= f32_to_int U32 (C1 x y) < sheared_size b h w)
    /\ sheared_to a b w h (8 * IZR (2 ^ k) * uu) x y (f32_to_int U32 (C0 x y)) (f32_to_int U32 (C1 x y))).
  { intros x y Hx Hy.
    pose proof (axis_first w h k sx a Fx ltac:(lia) ltac:(lia) Hk Bw ltac:(lia) ltac:(lia) x y Hx Hy) as P1.
    pose proof (axis_second h w k sy b Fy ltac:(lia) ltac:(lia) Hk Bh ltac:(lia) ltac:(lia) y x Hy Hx) as P2.
    apply (axis_pos w h k sx a Fx ltac:(lia) ltac:(lia) Hk Bw ltac:(lia) ltac:(lia) x y Hx Hy) in P1.
    apply (axis_pos h w k sy b Fy ltac:(lia) ltac:(lia) Hk Bh ltac:(lia) ltac:(lia) y x Hy Hx) in P2.
    destruct (axis_lands w h k sx a Fx ltac:(lia) ltac:(lia) Hk Bw ltac:(lia) ltac:(lia) x y Hx Hy (C0 x y) Rx P1) as [I1 L1].
    destruct (axis_lands h w k sy b Fy ltac:(lia) ltac:(lia) Hk Bh ltac:(lia) ltac:(lia) y x Hy Hx (C1 x y) Ry P2) as [I2 L2].
    split; [split; assumption|split; assumption]. }
  edestruct (loop_writes p (fun x y => [wr x y])) as [out (E & Wo & I & P)]; cycle 3.
  - exists out. split; [exact E|]. split; [exact Wo|]. split; [rewrite I; exact Ib|].
    split.
    2: {
      intros x y [Hx Hy]. fold w h in Hx, Hy. destruct (HW x y Hx Hy) as ((Q1 & Q2) & Q4).
      set (X := f32_to_int U32 (C0 x y)) in *. set (Y := f32_to_int U32 (C1 x y)) in *.
      assert (Hin : inside bl X Y) by (unfold inside; rewrite Ib; split; assumption).
      pose proof (P X Y Hin) as PX.
      destruct (last_write_hit (flat_map (fun j => flat_map (fun i => [wr i j]) (zrange 0 w)) (zrange 0 h)) X Y (pixel_at bl X Y) (X, Y, pixel_at img x y)) as [wr' (Hwr & Hh & El)].
      - apply in_flat_map. exists y. split; [apply in_zrange; exact Hy|]. apply in_flat_map. exists x. split; [apply in_zrange; exact Hx|]. left. reflexivity.
      - unfold hits. cbn [fst snd]. rewrite !Z.eqb_refl. reflexivity.
      - apply in_flat_map in Hwr as [y' [Hy' Hwr]]. apply in_flat_map in Hwr as [x' [Hx' Hwr]]. apply in_zrange in Hx', Hy'.
        destruct Hwr as [<-|[]]. destruct (HW x' y' Hx' Hy') as [_ HV]. unfold hits, wr in Hh. cbn [fst snd] in Hh. apply andb_true_iff in Hh as [H1 H2]. apply Z.eqb_eq in H1, H2. rewrite H1, H2 in HV.
        exists X, Y, x', y'. split; [unfold inside; rewrite I; exact Hin|]. split; [exact Q4|]. split; [split; fold w h; lia|]. split; [exact HV|].
        etransitivity; [exact PX|]; exact El. }
    intros X Y HXY.
    assert (Hin : inside bl X Y) by (unfold inside in *; rewrite I in HXY; exact HXY).
    pose proof (P X Y Hin) as PX. destruct (last_write_in (flat_map (fun j => flat_map (fun i => [wr i j]) (zrange 0 w)) (zrange 0 h)) X Y (pixel_at bl X Y)) as [El|[wr' (Hwr & Hh & El)]].
    + left. transitivity (pixel_at bl X Y); [etransitivity; [exact PX|exact El]|]. unfold bl. apply (pixel_at_blank f32_0 inf); [exact Hok|apply Hin|apply Hin].
    + right. apply in_flat_map in Hwr as [y [Hy Hwr]]. apply in_flat_map in Hwr as [x [Hx Hwr]]. apply in_zrange in Hx, Hy. destruct Hwr as [<-|[]].
      exists x, y. split; [split; fold w h; lia|]. destruct (HW x y Hx Hy) as [_ HV]. split; [etransitivity; [exact PX|exact El]|].
      unfold hits, wr in Hh. cbn [fst snd] in Hh. apply andb_true_iff in Hh as [H1 H2]. apply Z.eqb_eq in H1, H2. rewrite H1, H2 in HV. exact HV.
  - exact Wb.
  - intros im x y Hx Hy Him Wim. cbv beta.
    rewrite vec2_mut. cbn [bind]. rewrite vget_0, bind_Ret, vget_1, bind_Ret.
    rewrite (get_pixel_ok img Hwf p x y) by (split; assumption). cbn [bind mfold wr fst snd].
    fold (C0 x y). unfold C0, C1. cbv zeta.
    match goal with |- ?s = bind ?t _ => change s with t; destruct t; reflexivity end.
  - intros x y wr' Hx Hy [<-|[]]. destruct (HW x y Hx Hy) as ((Q1 & Q2) & _). unfold wr, inside. rewrite Ib. cbn [fst snd inf width height channels].
    split; [split; assumption|]. apply pixel_at_len; [exact Hwf|split; assumption].
Qed.

(** ** Factors whose growth is just below an integer *)

(** rounding carries a value just below an integer M >= 2^j up to it *)
Lemma carried j M (t : R) : 0 <= j -> 2 ^ j <= M <= 16777216 -> (IZR M - bpow radix2 (j - 25) < t)%R -> (IZR M <= rnd32 t)%R.
Proof.
  intros Hj HM Ht.
  assert (B : (bpow radix2 j <= IZR M)%R) by (rewrite <- (IZR_Zpower radix2) by lia; apply IZR_le; exact (proj1 HM)).
  assert (P : (0 < IZR M)%R) by (eapply Rlt_le_trans; [apply bpow_gt_0|exact B]).
  assert (Fm : generic_format radix2 (SpecFloat.fexp 24 128) (IZR M)) by (apply (fin_fmt (f32_of_Z M)); apply of_Z_isZ; lia).
  unfold rnd32, rnd. apply round_N_ge_midp; [apply vexp|exact Fm|].
  eapply Rle_lt_trans; [|exact Ht].
  assert (pred radix2 (SpecFloat.fexp 24 128) (IZR M) <= IZR M - bpow radix2 (j - 24))%R.
  { rewrite pred_eq_pos by lra. unfold pred_pos.
    assert (Hmag : (j + 1 <= mag radix2 (IZR M))%Z) by (apply mag_ge_bpow; rewrite Rabs_pos_eq by lra; replace (j + 1 - 1)%Z with j by lia; exact B).
    destruct (Req_bool (IZR M) (bpow radix2 (mag radix2 (IZR M) - 1))).
    - apply Rplus_le_compat_l, Ropp_le_contravar, bpow_le. unfold SpecFloat.fexp. lia.
    - rewrite ulp_neq_0 by lra. apply Rplus_le_compat_l, Ropp_le_contravar, bpow_le. unfold cexp, SpecFloat.fexp. lia. }
  replace (j - 24) with (j - 25 + 1) in H by lia. rewrite bpow_plus in H. change (bpow radix2 1) with 2%R in H. lra.
Qed.

(** Let o be the f32 number nearest to h*a (a > 0), and M the width of the output. If o is less than 2^(j-25) below the
    next integer, where 2^j <= M, then every build panics: the last pixel of the first row is put into column M. *)
Theorem C77_no_room_panics p (img : image f32) (sx sy : f32) (a : R) j :
  wf img -> fin sx a -> (0 < a)%R ->
  let w := width (info_of img) in let h := height (info_of img) in
  1 <= w -> 1 <= h <= 16777216 -> (IZR h * a <= 16777216)%R ->
  let o := rnd32 (IZR h * a) in
  let M := w + Zfloor o in 0 <= j -> 2 ^ j <= M <= 16777216 ->
  (IZR (Zfloor o) + 1 - o < bpow radix2 (j - 25))%R ->
  shear p img sx sy = Panic.
Proof.
  intros Hwf Fx Ha w h Hw Hh Hha o M Hj HM Hgap. pose proof Hwf as [Hw0 Hh0 HC Hsz Hfull Hd]. fold w in Hw0. fold h in Hh0.
  assert (R1 : (1 <= IZR h)%R) by (apply (IZR_le 1); lia). assert (Rw : (1 <= IZR w)%R) by (apply (IZR_le 1); lia).
  assert (Pa : (0 <= IZR h * a)%R) by (apply Rmult_le_pos; lra).
  assert (O0 : (0 <= o)%R) by (apply (rnd_ge_Z (prec := 24) (emax := 128) _ 0); [exact Pa|cbn; lia]).
  assert (O1 : (o <= 16777216)%R) by (apply (rnd_le_Z (prec := 24) (emax := 128) _ 16777216); [exact Hha|cbn; lia]).
  assert (Fo : fin (f32_abs (f32_mul (f32_of_Z h) sx)) o).
  { rewrite <- (Rabs_pos_eq o) by exact O0. apply abs_fin, mul_fin; [apply of_Z_isZ; lia|exact Fx|]. apply (small_bpow 24); [lia|].
    rewrite Rabs_pos_eq by exact Pa. exact Hha. }
  assert (N0 : 0 <= Zfloor o) by (apply Zfloor_lub; exact O0).
  assert (Ew : f32_to_int U32 (f32_abs (f32_mul (f32_of_Z h) sx)) = Zfloor o).
  { unfold f32_to_int. rewrite (to_int_fin U32 _ _ ltac:(cbn; lia) Fo). rewrite Ztrunc_floor by exact O0. unfold clampZ. cbn [lo hi U32]. unfold M in HM. lia. }
  unfold shear. fold w h. cbv zeta. rewrite Ew. rewrite iadd_ok by (unfold M in HM; cbn; lia). cbn [bind]. fold M.
  set (ox := f32_abs (f32_mul (f32_of_Z h) sx)) in *. set (oy := f32_abs (f32_mul (f32_of_Z w) sy)) in *.
  destruct (iadd p U32 (f32_to_int U32 oy) h) as [ho|er| |] eqn:Eh.
  2,3,4: pose proof (safe_arith p U32 (f32_to_int U32 oy + h)) as SA; unfold iadd in Eh; rewrite Eh in SA; cbn in SA; (contradiction || reflexivity).
  cbn [bind]. set (inf := Info M ho (channels (info_of img)) (alpha (info_of img))).
  assert (Hb : blank p num_f32 inf = Panic \/ exists bl, blank p num_f32 inf = Ret bl /\ info_of bl = inf).
  { unfold blank, full_size. pose proof (safe_arith p U32 (width inf * height inf)) as S1. unfold imul.
    destruct (arith p U32 (width inf * height inf)) as [z| | |]; cbn in S1 |- *; try contradiction; [|left; reflexivity].
    pose proof (safe_arith p U32 (z * channels (info_of img))) as S2.
    destruct (arith p U32 (z * channels (info_of img))) as [z'| | |]; cbn in S2 |- *; try contradiction; [|left; reflexivity].
    right. eexists. split; reflexivity. }
  destruct Hb as [->|[bl [-> Ib]]]; [reflexivity|]. cbn [bind].
  assert (Gx : f32_gtb sx f32_0 = true).
  { unfold f32_gtb. rewrite (ltb_fin f32_0 sx 0 a isZ_0 Fx). apply Rlt_bool_true. exact Ha. }
  rewrite Gx.
  assert (Step : forall im x y, info_of im = inf -> 0 <= x < w -> 0 <= y < h -> forall X Y : Z,
     (exists im', set_pixel p im X Y (pixel_at img x y) = Ret im' /\ info_of im' = inf) \/ set_pixel p im X Y (pixel_at img x y) = Panic).
  { intros im x y Him _ _ X Y. pose proof (safe_set_pixel p im X Y (pixel_at img x y)) as S1.
    destruct (set_pixel p im X Y (pixel_at img x y)) as [im'| | |]; cbn in S1; try contradiction; [left; exists im'; split; [reflexivity|congruence]|right; reflexivity]. }
  apply (mfold_panic (fun im => info_of im = inf) _ _ _ 0); [apply in_zrange; lia|exact Ib| |].
  - intros im y Him Hy. apply in_zrange in Hy.
    match goal with |- context [mfold ?f (zrange 0 w) im] =>
      assert (SF : safe (fun im => info_of im = inf) (mfold f (zrange 0 w) im)) end.
    { apply safe_mfold; [exact Him|]. intros im0 x Him0 Hx. apply in_zrange in Hx. rewrite vec2_mut. cbn [bind]. rewrite vget_0, bind_Ret, vget_1, bind_Ret.
      rewrite (get_pixel_ok img Hwf p x y) by (split; assumption). cbn [bind].
      match goal with |- context [set_pixel p im0 ?X ?Y _] => destruct (Step im0 x y Him0 Hx Hy X Y) as [[im1 [-> I1]]| ->] end; [exact I1|exact I]. }
    match type of SF with safe _ ?t => destruct t as [im'| | |] end; cbn in SF; try contradiction; [left; exists im'; split; [reflexivity|exact SF]|right; reflexivity].
  - intros im Him. apply (mfold_panic (fun im => info_of im = inf) _ _ _ (w - 1)); [apply in_zrange; lia|exact Him| |].
    + intros im0 x Him0 Hx. apply in_zrange in Hx. rewrite vec2_mut. cbn [bind]. rewrite vget_0, bind_Ret, vget_1, bind_Ret.
      rewrite (get_pixel_ok img Hwf p x 0) by (split; lia). cbn [bind].
      match goal with |- context [set_pixel p im0 ?X ?Y _] => exact (Step im0 x 0 Him0 Hx ltac:(lia) X Y) end.
    + intros im0 Him0. rewrite vec2_mut. cbn [bind]. rewrite vget_0, bind_Ret, vget_1, bind_Ret.
      rewrite (get_pixel_ok img Hwf p (w - 1) 0) by (split; lia). cbn [bind].
      set (c := f32_add (f32_add f32_0 (f32_mul f32_1 (f32_of_Z (w - 1)))) (f32_mul (f32_neg sx) (f32_of_Z 0))).
      assert (Fc : fin c (IZR (w - 1))).
      { assert (Z1 : isZ (f32_add f32_0 (f32_mul f32_1 (f32_of_Z (w - 1)))) (w - 1)).
        { replace (w - 1) with (0 + 1 * (w - 1)) at 2 by lia. apply add_isZ; [apply isZ_0|apply mul_isZ; [apply isZ_1|apply of_Z_isZ; unfold M in HM; lia|unfold M in HM; lia]|unfold M in HM; lia]. }
        assert (Z2 : isZ (f32_mul (f32_neg sx) (f32_of_Z 0)) 0).
        { assert (F0 : fin (f32_mul (f32_neg sx) (f32_of_Z 0)) (rnd32 (- a * 0))).
          { apply mul_fin; [apply opp_fin; exact Fx|apply of_Z_isZ; lia|]. rewrite Rmult_0_r, Rabs_R0. apply bpow_ge_0. }
          rewrite Rmult_0_r in F0. unfold rnd32 in F0. rewrite (rnd_Z (prec := 24) (emax := 128) 0) in F0 by (cbn; lia). exact F0. }
        unfold c. replace (w - 1) with (w - 1 + 0) at 2 by lia. apply add_isZ; [exact Z1|exact Z2|unfold M in HM; lia]. }
      clearbody c.
      assert (LM : (IZR M <= rnd32 (IZR (w - 1) + o))%R).
      { apply (carried j M); [exact Hj|exact HM|]. unfold M. rewrite minus_IZR, plus_IZR. lra. }
      assert (Fs : fin (f32_add c ox) (rnd32 (IZR (w - 1) + o))).
      { apply add_fin; [exact Fc|exact Fo|]. apply (small_bpow 26); [lia|]. change (IZR (2 ^ 26)) with 67108864%R.
        rewrite minus_IZR. assert (IZR w <= 16777216)%R by (apply (IZR_le w 16777216); unfold M in HM; lia). apply Rabs_le'; lra. }
      assert (LX : M <= f32_to_int U32 (f32_add c ox)).
      { unfold f32_to_int. rewrite (to_int_fin U32 _ _ ltac:(cbn; lia) Fs).
        assert (0 <= IZR M)%R by (apply (IZR_le 0); lia).
        rewrite Ztrunc_floor by lra. pose proof (Zfloor_lub M _ LM) as LF. unfold clampZ. cbn [lo hi U32]. lia. }
      unfold set_pixel, check_channels, check_xy. rewrite Him0. cbn [inf width].
      destruct (Z.leb_spec M (f32_to_int U32 (f32_add c ox))); [|lia]. destruct (_ =? _); reflexivity.
Qed.

(** The factor 1 - 2^-24 (the largest f32 below 1): every image with one row of four or more pixels. *)
Lemma below_one_fin : fin below_one (1 - / 16777216).
Proof.
  assert (D1 : fin (f32_div f32_1 (f32_of_Z 16777216)) (/ 16777216)) by const_val.
  unfold below_one.
  assert (G : generic_format radix2 (SpecFloat.fexp 24 128) (1 - / 16777216)).
  { apply (generic_format_FLT radix2 (-149) 24). exists (Float radix2 16777215 (-24)); [|cbn; lia|cbn; lia].
    unfold F2R. cbn [Fnum Fexp]. replace (bpow radix2 (-24)) with (/ 16777216)%R by (cbn; lra). lra. }
  rewrite <- (rnd_fmt (prec := 24) (emax := 128) _ G). apply sub_fin; [apply isZ_1|exact D1|].
  rewrite Rabs_pos_eq by lra. apply Rle_trans with 1%R; [lra|]. replace 1%R with (bpow radix2 0) by reflexivity. apply bpow_le. lia.
Qed.
Theorem C77_below_one_refuted p (img : image f32) sy : wf img ->
  height (info_of img) = 1 -> 4 <= width (info_of img) <= 16777216 -> shear p img below_one sy = Panic.
Proof.
  intros Hwf H1 Hw.
  assert (G : generic_format radix2 (SpecFloat.fexp 24 128) (1 * (1 - / 16777216))).
  { rewrite Rmult_1_l. apply (fin_fmt below_one). exact below_one_fin. }
  assert (E : Zfloor (rnd32 (IZR 1 * (1 - / 16777216))) = 0).
  { unfold rnd32. rewrite (rnd_fmt (prec := 24) (emax := 128) _ G). apply Zfloor_imp. cbn. lra. }
  apply (C77_no_room_panics p img below_one sy (1 - / 16777216) 2 Hwf below_one_fin); rewrite ?H1, ?E; try lra; try lia.
  unfold rnd32. rewrite (rnd_fmt (prec := 24) (emax := 128) _ G). cbn. lra.
Qed.

(** ** a case meeting the hypotheses of C77_shear: 2 x 3 pixels, factors 1/2 and -1/4 *)
Lemma example_room : room (1/2) 3 (IZR (2 ^ 3) / 4194304) /\ room (- (1/4)) 2 (IZR (2 ^ 3) / 4194304)
  /\ sheared_size (1/2) 2 3 = 3 /\ sheared_size (- (1/4)) 3 2 = 3.
Proof.
  assert (A : Rabs (1/2) = (1/2)%R) by (apply Rabs_pos_eq; lra). assert (B : Rabs (- (1/4)) = (1/4)%R) by (rewrite Rabs_Ropp; apply Rabs_pos_eq; lra).
  assert (FA : Zfloor (1 / 2 * 3) = 1) by (apply Zfloor_imp; cbn; lra). assert (FB : Zfloor (1 / 4 * 2) = 0) by (apply Zfloor_imp; cbn; lra).
  unfold room, sheared_size. rewrite A, B, FA, FB. cbn. repeat split; lra.
Qed.
Example C77_example : wf ex_rot /\ fin (f32_dec 5 1) (1/2) /\ fin (f32_neg (f32_dec 25 2)) (- (1/4))
  /\ (IZR 2 + Rabs (1/2) * IZR 3 + 1 <= IZR (2 ^ 3))%R /\ (IZR 3 + Rabs (- (1/4)) * IZR 2 + 1 <= IZR (2 ^ 3))%R
  /\ match shear Debug ex_rot (f32_dec 5 1) (f32_neg (f32_dec 25 2)) with
     | Ret out => info_of out = Info 3 3 1 false /\ map (f32_to_int I32) (data out) = [0; 1; 2; 0; 3; 4; 5; 6; 0] | _ => False end.
Proof.
  assert (F2 : fin (f32_dec 25 2) (1/4)) by const_val.
  split; [apply wfb_wf; vm_compute; reflexivity|]. split; [const_val|]. split; [apply opp_fin; exact F2|].
  rewrite (Rabs_Ropp (1/4)), !Rabs_pos_eq by lra. split; [cbn; lra|]. split; [cbn; lra|]. vm_compute. split; reflexivity.
Qed.
