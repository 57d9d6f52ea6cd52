(** * C74: rotate by any angle *)
From Coq Require Import Lra.
From Flocq Require Import Core BinarySingleNaN.
From Verif.Model Require Import MathM Transform.
From Verif.Spec Require Import ImageS FloatS RotateS.
From Verif.Proofs Require Import BaseL ImageL FloatL FloatL2 ApproxL WriteL RotL RotL2 SrgbL3.
From Verif.Props Require Import FloatP RotateP.
Open Scope Z_scope.

Lemma weighted_le c s w h : (Rabs c <= 1)%R -> (Rabs s <= 1)%R -> (0 <= w)%R -> (0 <= h)%R -> (0 <= Rabs c * w + Rabs s * h <= w + h)%R.
Proof. intros. pose proof (Rabs_pos c). pose proof (Rabs_pos s). nra. Qed.

(** For every angle whose sine and cosine are as good as they should be, rotate returns an image (no panic): its size is
    the size of the rotated rectangle, rounded down; every pixel is zero or an input pixel, shown where the rotation puts
    it (up to the truncation, the second write one column to the left, and rounding errors). *)
Theorem C74_rotate p lm (img : image f32) degrees c s k R0 T0 :
  wf img -> 1 <= width (info_of img) -> 1 <= height (info_of img) -> 0 <= k <= 22 ->
  width (info_of img) + height (info_of img) + 2 <= 2 ^ k ->
  (width (info_of img) + height (info_of img) + 1) * (width (info_of img) + height (info_of img) + 1) * channels (info_of img) <= u32_max ->
  1 <= channels (info_of img) ->
  fin (cosf lm (f32_to_radians degrees)) c -> fin (sinf lm (f32_to_radians degrees)) s ->
  (Rabs c <= 1)%R -> (Rabs s <= 1)%R -> (1 <= Rabs c + Rabs s <= 1.45)%R ->
  greatest (fun '(a, b) => rot_x c s a b) (corners (width (info_of img)) (height (info_of img))) R0 ->
  greatest (fun '(a, b) => rot_y c s a b) (corners (width (info_of img)) (height (info_of img))) T0 ->
  let w := IZR (width (info_of img)) in let h := IZR (height (info_of img)) in
  let e := (IZR (2 ^ k) / 2 ^ 21)%R in
  let goes_to := lands c s R0 T0 (width (info_of img)) (height (info_of img)) in
  exists out, rotate p lm img degrees = Ret out /\ wf out
    /\ channels (info_of out) = channels (info_of img) /\ alpha (info_of out) = alpha (info_of img)
    /\ (w * Rabs c + h * Rabs s - e - 1 < IZR (width (info_of out)) <= w * Rabs c + h * Rabs s + e)%R
    /\ (w * Rabs s + h * Rabs c - e - 1 < IZR (height (info_of out)) <= w * Rabs s + h * Rabs c + e)%R
    /\ (forall X Y, inside out X Y ->
         pixel_at out X Y = repeat f32_0 (Z.to_nat (channels (info_of img)))
         \/ exists i j, inside img i j /\ pixel_at out X Y = pixel_at img i j /\ goes_to e i j X Y)
    /\ forall i j, inside img i j -> exists X Y i' j',
         inside out X Y /\ goes_to e i j X Y /\ inside img i' j' /\ goes_to e i' j' X Y /\ pixel_at out X Y = pixel_at img i' j'.
Proof.
  intros Hwf Hw1 Hh1 Hk Hwh Hfit Hch Fc Fs Bc Bs BS HR HT W H e goes_to.
  pose proof Hwf as [Hw0 Hh0 HC Hsz Hfull Hd]. unfold u32_max in *.
  unfold rotate. set (cs := cosf lm (f32_to_radians degrees)) in *. set (sn := sinf lm (f32_to_radians degrees)) in *.
  unfold rotate_by. set (w := width (info_of img)) in *. set (h := height (info_of img)) in *.
  destruct (half_w w k Hw1 Hk) as (A1 & A2 & A3). destruct (half_h h k Hh1 Hk) as (D1 & D2 & D3).
  assert (HK22 : 2 ^ k <= 4194304) by (change 4194304 with (2 ^ 22); apply Z.pow_le_mono_r; lia).
  destruct (reals w h k Hw1 Hh1 Hk) as (r1 & r2 & r3 & r4 & r5 & r6).
  pose proof (K_wh w h k Hk Hwh) as HK.
  set (x := w / 2) in *. set (y := h / 2) in *.
  rewrite vec2, bind_Ret. rewrite isub_ok by (cbn; lia). rewrite bind_Ret. rewrite vec2, bind_Ret, vec2, bind_Ret, vec2, bind_Ret.
  rewrite !vget_0, !bind_Ret, !vget_1, !bind_Ret.
  set (F := f32_of_Z).
  assert (ZF : forall z, Z.abs z <= 16777216 -> fin (F z) (IZR z)) by (intros; apply of_Z_isZ; assumption).
  assert (Fx : fin (f32_neg (F x)) (- IZR x)) by (apply opp_fin, ZF; lia).
  assert (Fwx : fin (F (w - x)) (IZR (w - x))) by (apply ZF; lia).
  assert (Fy : fin (F y) (IZR y)) by (apply ZF; lia).
  assert (Fyh : fin (f32_sub (F y) (F h)) (- IZR (h - y))).
  { rewrite <- opp_IZR. replace (- (h - y)) with (y - h) by lia. apply sub_isZ; try apply ZF; lia. }
  assert (Fms : fin (f32_neg sn) (- s)) by (apply opp_fin; exact Fs).
  assert (Bms : (Rabs (- s) <= 1)%R) by (rewrite Rabs_Ropp; exact Bs).
  assert (EWX : (IZR w = IZR x + IZR (w - x))%R) by (rewrite <- plus_IZR; f_equal; lia).
  assert (EHY : (IZR h = IZR y + IZR (h - y))%R) by (rewrite <- plus_IZR; f_equal; lia).
  assert (ab : forall a b, (- IZR x <= a <= IZR (w - x))%R -> (- IZR (h - y) <= b <= IZR y)%R -> (Rabs a + Rabs b <= 16777216)%R).
  { intros a b Ha Hb. assert (Rabs a <= IZR w)%R by (apply Rabs_le'; lra). assert (Rabs b <= IZR h)%R by (apply Rabs_le'; lra). lra. }
  pose proof (row_fin cs (f32_neg sn) _ _ c (- s) _ _ Fc Fms Fx Fy Bc Bms (ab (- IZR x)%R (IZR y) ltac:(lra) ltac:(lra))) as X1.
  pose proof (row_fin cs (f32_neg sn) _ _ c (- s) _ _ Fc Fms Fwx Fy Bc Bms (ab (IZR (w - x))%R (IZR y) ltac:(lra) ltac:(lra))) as X2.
  pose proof (row_fin cs (f32_neg sn) _ _ c (- s) _ _ Fc Fms Fx Fyh Bc Bms (ab (- IZR x)%R (- IZR (h - y))%R ltac:(lra) ltac:(lra))) as X3.
  pose proof (row_fin cs (f32_neg sn) _ _ c (- s) _ _ Fc Fms Fwx Fyh Bc Bms (ab (IZR (w - x))%R (- IZR (h - y))%R ltac:(lra) ltac:(lra))) as X4.
  pose proof (row_fin sn cs _ _ s c _ _ Fs Fc Fx Fy Bs Bc (ab (- IZR x)%R (IZR y) ltac:(lra) ltac:(lra))) as Y1.
  pose proof (row_fin sn cs _ _ s c _ _ Fs Fc Fwx Fy Bs Bc (ab (IZR (w - x))%R (IZR y) ltac:(lra) ltac:(lra))) as Y2.
  pose proof (row_fin sn cs _ _ s c _ _ Fs Fc Fx Fyh Bs Bc (ab (- IZR x)%R (- IZR (h - y))%R ltac:(lra) ltac:(lra))) as Y3.
  pose proof (row_fin sn cs _ _ s c _ _ Fs Fc Fwx Fyh Bs Bc (ab (IZR (w - x))%R (- IZR (h - y))%R ltac:(lra) ltac:(lra))) as Y4.
  destruct (max_4_fin _ _ _ _ _ _ _ _ X1 X2 X3 X4) as [M (FM & M1 & M2 & M3 & M4 & ME)].
  destruct (min_4_fin _ _ _ _ _ _ _ _ X1 X2 X3 X4) as [N (FN & N1 & N2 & N3 & N4 & NE)].
  destruct (max_4_fin _ _ _ _ _ _ _ _ Y1 Y2 Y3 Y4) as [M' (FM' & M1' & M2' & M3' & M4' & ME')].
  destruct (min_4_fin _ _ _ _ _ _ _ _ Y1 Y2 Y3 Y4) as [N' (FN' & N1' & N2' & N3' & N4' & NE')].
  clear X1 X2 X3 X4 Y1 Y2 Y3 Y4.
  match type of FM with fin ?m _ => set (xM := m) in * end. match type of FN with fin ?m _ => set (xm := m) in * end.
  match type of FM' with fin ?m _ => set (yM := m) in * end. match type of FN' with fin ?m _ => set (ym := m) in * end.
  clearbody xM xm yM ym.
  assert (BSx : (1 <= Rabs c + Rabs (- s) <= 1.45)%R) by (rewrite Rabs_Ropp; exact BS).
  assert (BSy : (1 <= Rabs s + Rabs c <= 1.45)%R) by lra.
  assert (Gc : fmt c) by (apply (fin_fmt cs); exact Fc). assert (Gs : fmt s) by (apply (fin_fmt sn); exact Fs).
  assert (Gms : fmt (- s)) by (apply generic_format_opp; exact Gs).
  (* the extents *)
  pose proof (M_nonneg w h k Hw1 Hh1 Hk c (- s) M N M1 M2 M3 M4 N1 N2 N3 N4) as PM. pose proof (N_nonpos w h k Hw1 Hh1 Hk c (- s) M N M1 M2 M3 M4 N1 N2 N3 N4) as PN.
  pose proof (M_nonneg w h k Hw1 Hh1 Hk s c M' N' M1' M2' M3' M4' N1' N2' N3' N4') as PM'. pose proof (N_nonpos w h k Hw1 Hh1 Hk s c M' N' M1' M2' M3' M4' N1' N2' N3' N4') as PN'.
  pose proof (width_ge_1 w h k Hw1 Hh1 Hk c (- s) Gc Gms BSx M N M1 M2 M3 M4 ME N1 N2 N3 N4 NE) as L1.
  pose proof (width_ge_1 w h k Hw1 Hh1 Hk s c Gs Gc BSy M' N' M1' M2' M3' M4' ME' N1' N2' N3' N4' NE') as L1'.
  pose proof (width_le w h k Hw1 Hh1 Hk Hwh c (- s) Bc Bms M N M1 M2 M3 M4 ME N1 N2 N3 N4 NE) as U1.
  pose proof (width_le w h k Hw1 Hh1 Hk Hwh s c Bs Bc M' N' M1' M2' M3' M4' ME' N1' N2' N3' N4' NE') as U1'.
  pose proof (small_M w h k Hw1 Hh1 Hk c (- s) Bms BSx M N M1 M2 M3 M4 ME N1 N2 N3 N4 NE) as SM.
  pose proof (extent_err w h k Hw1 Hh1 Hk Hwh c (- s) Bc Bms M N M1 M2 M3 M4 ME N1 N2 N3 N4 NE) as EX. rewrite Rabs_Ropp in EX.
  pose proof (extent_err w h k Hw1 Hh1 Hk Hwh s c Bs Bc M' N' M1' M2' M3' M4' ME' N1' N2' N3' N4' NE') as EY.
  assert (HRx : greatest (fun '(a, b) => c * a + - s * b)%R (corners w h) R0).
  { destruct HR as [[[a b] [Hin ->]] Hg]. split; [exists (a, b); split; [exact Hin|unfold rot_x; ring]|].
    intros [a' b'] H'. specialize (Hg _ H'). cbn in Hg. unfold rot_x in Hg |- *. lra. }
  pose proof (greatest_err w h k Hw1 Hh1 Hk Hwh c (- s) Bc Bms BSx M N M1 M2 M3 M4 ME NE R0 HRx) as ER.
  pose proof (greatest_err w h k Hw1 Hh1 Hk Hwh s c Bs Bc BSy M' N' M1' M2' M3' M4' ME' NE' T0 HT) as ET.
  set (K := IZR (2 ^ k)) in *.
  assert (He : e = (16 * K * uu)%R) by (unfold e, uu; lra).
  (* sizes *)
  assert (Fdx : fin (f32_sub xM xm) (rnd32 (M - N))) by (apply sub_fin; [exact FM|exact FN|]; apply (small_bpow 23); [lia|]; change (IZR (2 ^ 23)) with 8388608%R; apply Rabs_le'; lra).
  assert (Fdy : fin (f32_sub yM ym) (rnd32 (M' - N'))) by (apply sub_fin; [exact FM'|exact FN'|]; apply (small_bpow 23); [lia|]; change (IZR (2 ^ 23)) with 8388608%R; apply Rabs_le'; lra).
  assert (Rerr : forall r a, (1 <= r <= 8388606)%R -> (Rabs (r - a) <= 8 * K * uu)%R -> (0 <= a <= IZR w + IZR h)%R ->
     (1 <= rnd32 r <= 8388606)%R /\ (a - e <= rnd32 r <= a + e)%R /\ 1 <= Zfloor (rnd32 r) <= w + h + 1 /\ (a - e - 1 < IZR (Zfloor (rnd32 r)) <= a + e)%R).
  { intros r a Br Ea Ba. apply Rabs_bd in Ea.
    assert (R1 : (1 <= rnd32 r)%R) by (apply (rnd_ge_Z r 1); [lra|cbn; lia]).
    assert (R2 : (rnd32 r <= 8388606)%R) by (apply (rnd_le_Z r 8388606); [lra|cbn; lia]).
    assert (R3 : (Rabs (rnd32 r - r) <= IZR (2 ^ (k + 1)) * uu)%R).
    { apply rnd_err; [lia|]. rewrite Z.pow_add_r, mult_IZR by lia. change (IZR (2 ^ 1)) with 2%R. fold K. apply Rabs_le'; unfold uu in *; lra. }
    rewrite Z.pow_add_r, mult_IZR in R3 by lia. change (IZR (2 ^ 1)) with 2%R in R3. fold K in R3. apply Rabs_bd in R3.
    assert (R4 : (a - e <= rnd32 r <= a + e)%R) by (rewrite He; unfold uu in *; lra).
    pose proof (Zfloor_lb (rnd32 r)). pose proof (Zfloor_ub (rnd32 r)).
    split; [lra|]. split; [exact R4|]. split; [|lra]. split; [apply Zfloor_lub; exact R1|].
    assert (Zfloor (rnd32 r) < w + h + 2); [|lia]. apply lt_IZR. rewrite !plus_IZR.
    assert (10 * K * uu < 2)%R by (unfold uu; lra). unfold uu in *. lra. }
  assert (Ax : (0 <= Rabs c * IZR w + Rabs s * IZR h <= IZR w + IZR h)%R).
  { apply weighted_le; try assumption; apply IZR_le; lia. }
  assert (Ay : (0 <= Rabs s * IZR w + Rabs c * IZR h <= IZR w + IZR h)%R).
  { apply weighted_le; try assumption; apply IZR_le; lia. }
  destruct (Rerr _ _ (conj L1 U1) EX Ax) as (Bx1 & Bx2 & Bx3 & Bx4). destruct (Rerr _ _ (conj L1' U1') EY Ay) as (By1 & By2 & By3 & By4).
  set (wo := Zfloor (rnd32 (M - N))) in *. set (ho := Zfloor (rnd32 (M' - N'))) in *.
  assert (Ewo : f32_to_int U32 (f32_sub xM xm) = wo).
  { unfold f32_to_int. rewrite (to_int_fin U32 _ _ ltac:(cbn; lia) Fdx). rewrite Ztrunc_floor by lra. fold wo. unfold clampZ. cbn [lo hi U32]. lia. }
  assert (Eho : f32_to_int U32 (f32_sub yM ym) = ho).
  { unfold f32_to_int. rewrite (to_int_fin U32 _ _ ltac:(cbn; lia) Fdy). rewrite Ztrunc_floor by lra. fold ho. unfold clampZ. cbn [lo hi U32]. lia. }
  rewrite Ewo, Eho.
  set (io := Info wo ho (channels (info_of img)) (alpha (info_of img))).
  assert (Hio : info_ok io).
  { assert (wo * ho <= (w + h + 1) * (w + h + 1)) by (apply Z.mul_le_mono_nonneg; lia).
    assert (wo * ho * channels (info_of img) <= (w + h + 1) * (w + h + 1) * channels (info_of img)) by (apply Z.mul_le_mono_nonneg_r; lia).
    assert (wo * ho * 1 <= wo * ho * channels (info_of img)) by (apply Z.mul_le_mono_nonneg_l; nia).
    unfold info_ok, io. cbn [width height channels alpha]. unfold u32_max. repeat split; try lia. }
  rewrite (blank_ok p num_f32 io Hio). cbn [bind].
  match goal with |- context [mfold _ _ ?b] => set (bl := b) in * end.
  assert (Wb : wf bl) by (apply (blank_wf num_f32), Hio).
  assert (Ib : info_of bl = io) by reflexivity.
  (* one pixel *)
  set (C0 := fun i j => f32_add (f32_add (f32_add f32_0 (f32_mul cs (f32_sub (F i) (F x)))) (f32_mul (f32_neg sn) (f32_sub (F y) (F j)))) (f32_sub xM f32_1)).
  set (C1 := fun i j => f32_sub (f32_sub yM (f32_add (f32_add f32_0 (f32_mul sn (f32_sub (F i) (F x)))) (f32_mul cs (f32_sub (F y) (F j))))) f32_1).
  assert (HP : forall i j, 0 <= i < w -> 0 <= j < h ->
    (exists r, fin (C0 i j) r /\ (r < IZR wo)%R /\ (Rabs (r - (R0 + rot_x c s (IZR (i - x)) (IZR (y - j)) - 1)) <= e)%R)
    /\ (exists r, fin (C1 i j) r /\ (r < IZR ho)%R /\ (Rabs (r - (T0 - rot_y c s (IZR (i - x)) (IZR (y - j)) - 1)) <= e)%R)).
  { intros i j Hi Hj. destruct (pixel_box w h k Hw1 Hh1 Hk i j Hi Hj) as [Bi Bj]. fold x y in Bi, Bj.
    assert (Fi : fin (f32_sub (F i) (F x)) (IZR (i - x))) by (apply sub_isZ; try apply ZF; lia).
    assert (Fj : fin (f32_sub (F y) (F j)) (IZR (y - j))) by (apply sub_isZ; try apply ZF; lia).
    assert (Bi' : (- IZR x <= IZR (i - x) <= IZR (w - x))%R) by lra. assert (Bj' : (- IZR (h - y) <= IZR (y - j) <= IZR y)%R) by lra.
    pose proof (row_fin cs (f32_neg sn) _ _ c (- s) _ _ Fc Fms Fi Fj Bc Bms (ab _ _ Bi' Bj')) as TX.
    pose proof (row_fin sn cs _ _ s c _ _ Fs Fc Fi Fj Bs Bc (ab _ _ Bi' Bj')) as TY.
    pose proof (sym_box w h k Hw1 Hh1 Hk c (- s) M N M1 M2 M3 M4 N1 N2 N3 N4 _ _ Bi Bj) as Sx.
    pose proof (in_box w h c (- s) M N M1 M2 M3 M4 N1 N2 N3 N4 _ _ Bi' Bj') as Ix.
    pose proof (in_box w h s c M' N' M1' M2' M3' M4' N1' N2' N3' N4' _ _ Bi' Bj') as Iy.
    destruct (box_err w h k Hw1 Hh1 Hk Hwh c (- s) Bc Bms _ _ Bi' Bj') as [Ex _]. destruct (box_err w h k Hw1 Hh1 Hk Hwh s c Bs Bc _ _ Bi' Bj') as [Ey _].
    set (tx := T c (- s) (IZR (i - x)) (IZR (y - j))) in *. set (ty := T s c (IZR (i - x)) (IZR (y - j))) in *. fold K in Ex, Ey.
    assert (F1 : fin f32_1 1) by apply isZ_1.
    apply Rabs_bd in Ex, Ey, ER, ET.
    split.
    - assert (Fm1 : fin (f32_sub xM f32_1) (rnd32 (M - 1))) by (apply sub_fin; [exact FM|exact F1|]; apply (small_bpow 23); [lia|]; change (IZR (2 ^ 23)) with 8388608%R; apply Rabs_le'; lra).
      assert (Em1 : (Rabs (rnd32 (M - 1) - (M - 1)) <= 2 * K * uu)%R).
      { replace (2 * K)%R with (IZR (2 ^ (k + 1))) by (rewrite Z.pow_add_r, mult_IZR by lia; fold K; change (IZR (2 ^ 1)) with 2%R; ring).
        apply rnd_err; [lia|]. rewrite Z.pow_add_r, mult_IZR by lia. change (IZR (2 ^ 1)) with 2%R. fold K. apply Rabs_bd in EX. clear - EX Ax HK PM PN. apply Rabs_le'; unfold uu in *; lra. }
      apply Rabs_bd in Em1.
      assert (Bsum : (- (2 * K) <= tx + rnd32 (M - 1) <= 2 * K)%R) by (apply Rabs_bd in EX; clear - EX Ax HK PM PN Ix Em1; unfold uu in *; lra).
      exists (rnd32 (tx + rnd32 (M - 1))). split; [|split].
      + apply add_fin; [exact TX|exact Fm1|]. apply (small_bpow (k + 1)); [lia|]. rewrite Z.pow_add_r, mult_IZR by lia. change (IZR (2 ^ 1)) with 2%R. fold K. apply Rabs_le'; lra.
      + apply Rle_lt_trans with (rnd32 (- N + rnd32 (M - 1))); [apply rnd_le; lra|].
        unfold wo. replace (M - N)%R with (M + - N)%R by ring. apply coord_lt; [apply (fin_fmt xM); exact FM|exact PM|lra|lra|].
        intros Hs. specialize (SM Hs). lra.
      + assert (Es : (Rabs (rnd32 (tx + rnd32 (M - 1)) - (tx + rnd32 (M - 1))) <= 2 * K * uu)%R).
        { replace (2 * K)%R with (IZR (2 ^ (k + 1))) by (rewrite Z.pow_add_r, mult_IZR by lia; fold K; change (IZR (2 ^ 1)) with 2%R; ring).
          apply rnd_err; [lia|]. rewrite Z.pow_add_r, mult_IZR by lia. change (IZR (2 ^ 1)) with 2%R. fold K. apply Rabs_le'; lra. }
        apply Rabs_bd in Es. unfold rot_x. rewrite He. clear - Ex ER Em1 Es HK. apply Rabs_le'; unfold uu in *; lra.
    - assert (Fd : fin (f32_sub yM (f32_add (f32_add f32_0 (f32_mul sn (f32_sub (F i) (F x)))) (f32_mul cs (f32_sub (F y) (F j))))) (rnd32 (M' - ty))).
      { apply sub_fin; [exact FM'|exact TY|]. apply (small_bpow 23); [lia|]. change (IZR (2 ^ 23)) with 8388608%R. clear - PM' PN' Iy U1' L1'. apply Rabs_le'; lra. }
      assert (Bd : (0 <= rnd32 (M' - ty) <= rnd32 (M' - N'))%R).
      { split; [rewrite <- rnd_0; apply rnd_le; lra|apply rnd_le; lra]. }
      exists (rnd32 (rnd32 (M' - ty) - 1)). split; [|split].
      + apply sub_fin; [exact Fd|exact F1|]. apply (small_bpow 23); [lia|]. change (IZR (2 ^ 23)) with 8388608%R. apply Rabs_le'; lra.
      + apply Rle_lt_trans with (rnd32 (rnd32 (M' - N') - 1)); [apply rnd_le; lra|].
        rewrite sub1_exact; [| |lra|lra].
        * pose proof (Zfloor_ub (rnd32 (M' - N'))). fold ho in H0. lra.
        * unfold rnd32, rnd. apply generic_format_round; [apply vexp|apply valid_rnd_N].
      + assert (E2 : (Rabs (rnd32 (M' - ty) - (M' - ty)) <= 2 * K * uu)%R).
        { replace (2 * K)%R with (IZR (2 ^ (k + 1))) by (rewrite Z.pow_add_r, mult_IZR by lia; fold K; change (IZR (2 ^ 1)) with 2%R; ring).
          apply rnd_err; [lia|]. rewrite Z.pow_add_r, mult_IZR by lia. change (IZR (2 ^ 1)) with 2%R. fold K. apply Rabs_bd in EY. clear - EY Ay HK PM' PN' Iy. apply Rabs_le'; unfold uu in *; lra. }
        apply Rabs_bd in E2.
        assert (Es : (Rabs (rnd32 (rnd32 (M' - ty) - 1) - (rnd32 (M' - ty) - 1)) <= 2 * K * uu)%R).
        { replace (2 * K)%R with (IZR (2 ^ (k + 1))) by (rewrite Z.pow_add_r, mult_IZR by lia; fold K; change (IZR (2 ^ 1)) with 2%R; ring).
          apply rnd_err; [lia|]. rewrite Z.pow_add_r, mult_IZR by lia. change (IZR (2 ^ 1)) with 2%R. fold K. apply Rabs_bd in EY. clear - EY Ay HK PM' PN' Iy E2. apply Rabs_le'; unfold uu in *; lra. }
        apply Rabs_bd in Es. unfold rot_y. rewrite He. clear - Ey ET E2 Es HK. apply Rabs_le'; unfold uu in *; lra. }
  set (writes := fun i j => (f32_to_int U32 (C0 i j), f32_to_int U32 (C1 i j), pixel_at img i j)
    :: if f32_geb (C0 i j) f32_1 then [(f32_to_int U32 (C0 i j) - 1, f32_to_int U32 (C1 i j), pixel_at img i j)] else []).
  (* where they go *)
  assert (HW : forall i j wr, 0 <= i < w -> 0 <= j < h -> In wr (writes i j) ->
    0 <= fst (fst wr) < wo /\ 0 <= snd (fst wr) < ho /\ snd wr = pixel_at img i j
    /\ goes_to e i j (fst (fst wr)) (snd (fst wr))).
  { intros i j wr Hi Hj Hin. destruct (HP i j Hi Hj) as [[r0 (Fr0 & Lr0 & Er0)] [q0 (Fq0 & Lq0 & Eq0)]].
    destruct (to_u32_fin _ _ _ Fr0 Lr0 ltac:(lia)) as [I0 V0]. destruct (to_u32_fin _ _ _ Fq0 Lq0 ltac:(lia)) as [I1 V1].
    apply Rabs_bd in Er0, Eq0. unfold goes_to, lands. cbv zeta. fold x y.
    set (col := (R0 + rot_x c s (IZR (i - x)) (IZR (y - j)) - 1)%R) in *. set (row := (T0 - rot_y c s (IZR (i - x)) (IZR (y - j)) - 1)%R) in *.
    assert (Vr : (row - e - 1 < IZR (f32_to_int U32 (C1 i j)) <= Rmax 0 (row + e))%R).
    { split; [lra|]. eapply Rle_trans; [apply V1|]. apply Rle_max_compat_l. lra. }
    unfold writes in Hin. destruct (f32_geb (C0 i j) f32_1) eqn:Eg; cbn [In] in Hin.
    - unfold f32_geb in Eg. rewrite (leb_fin f32_1 (C0 i j) 1 r0 isZ_1 Fr0) in Eg. destruct (Rle_bool_spec 1 r0) as [Gr|]; [|discriminate].
      rewrite Rmax_right in V0 by lra.
      assert (1 <= f32_to_int U32 (C0 i j)).
      { destruct (Z_lt_le_dec (f32_to_int U32 (C0 i j)) 1); [|lia]. assert (f32_to_int U32 (C0 i j) = 0) by lia. rewrite H0 in V0. lra. }
      assert (Hcol : (0 < col + e)%R) by lra. rewrite (Rmax_right 0 (col + e)) by lra.
      destruct Hin as [<-|[<-|[]]]; cbn [fst snd]; (split; [lia|]; split; [lia|]; split; [reflexivity|]; split; [|exact Vr]); rewrite ?minus_IZR; clear - V0 Er0 Gr; lra.
    - destruct Hin as [<-|[]]; cbn [fst snd]. split; [lia|]. split; [lia|]. split; [reflexivity|]. split; [|exact Vr].
      split; [lra|]. eapply Rle_trans; [apply V0|]. apply Rle_max_compat_l. lra. }
  edestruct (loop_writes p writes) as [out (E & Wo & I & P)]; cycle 3.
  - exists out. split; [exact E|]. split; [exact Wo|]. rewrite I, Ib. unfold io. cbn [channels alpha width height].
    split; [reflexivity|]. split; [reflexivity|]. split; [unfold W, H; lra|]. split; [unfold W, H; lra|].
    split.
    2: {
      intros i j [Hi Hj]. fold w h in Hi, Hj. destruct (HW i j _ Hi Hj (or_introl eq_refl)) as (Q1 & Q2 & _ & Q4).
      set (X := f32_to_int U32 (C0 i j)) in *. set (Y := f32_to_int U32 (C1 i j)) in *. cbn [fst snd] in Q1, Q2, Q4.
      assert (Hin : inside bl X Y) by (unfold inside; rewrite Ib; split; assumption).
      pose proof (P X Y Hin) as PX.
      destruct (last_write_hit (flat_map (fun j => flat_map (fun i => writes i j) (zrange 0 w)) (zrange 0 h)) X Y (pixel_at bl X Y) (X, Y, pixel_at img i j)) as [wr (Hwr & Hh & El)].
      - apply in_flat_map. exists j. split; [apply in_zrange; exact Hj|]. apply in_flat_map. exists i. split; [apply in_zrange; exact Hi|]. left. reflexivity.
      - unfold hits. cbn [fst snd]. rewrite !Z.eqb_refl. reflexivity.
      - apply in_flat_map in Hwr as [j' [Hj' Hwr]]. apply in_flat_map in Hwr as [i' [Hi' Hwr]]. apply in_zrange in Hi', Hj'.
        destruct (HW i' j' wr Hi' Hj' Hwr) as (_ & _ & Ep & HV). unfold hits in Hh. apply andb_true_iff in Hh as [H1 H2]. apply Z.eqb_eq in H1, H2. rewrite H1, H2 in HV.
        exists X, Y, i', j'. split; [unfold inside; rewrite I; exact Hin|]. split; [exact Q4|]. split; [split; fold w h; lia|]. split; [exact HV|].
        etransitivity; [exact PX|]; etransitivity; [exact El|exact Ep]. }
    intros X Y HXY.
    assert (Hin : inside bl X Y) by (unfold inside in *; rewrite I in HXY; exact HXY).
    pose proof (P X Y Hin) as PX. destruct (last_write_in (flat_map (fun j => flat_map (fun i => writes i j) (zrange 0 w)) (zrange 0 h)) X Y (pixel_at bl X Y)) as [El|[wr (Hwr & Hh & El)]].
    + left. transitivity (pixel_at bl X Y); [etransitivity; [exact PX|exact El]|]. unfold bl. apply (pixel_at_blank f32_0 io); [exact Hio|apply Hin|apply Hin].
    + right. apply in_flat_map in Hwr as [j [Hj Hwr]]. apply in_flat_map in Hwr as [i [Hi Hwr]]. apply in_zrange in Hi, Hj.
      exists i, j. split; [split; fold w h; lia|]. destruct (HW i j wr Hi Hj Hwr) as (_ & _ & Ep & HV). split; [etransitivity; [exact PX|]; etransitivity; [exact El|exact Ep]|].
      unfold hits in Hh. apply andb_true_iff in Hh as [H1 H2]. apply Z.eqb_eq in H1, H2. rewrite H1, H2 in HV. exact HV.
  - exact Wb.
  - intros im i j Hi Hj Him Wim. cbv beta.
    rewrite vec2_mut. cbn [bind]. rewrite vget_0, bind_Ret, vget_1, bind_Ret. fold (C0 i j). fold (C1 i j).
    change (f32_add (f32_add (f32_add f32_0 (f32_mul cs (f32_sub (F i) (F x)))) (f32_mul (f32_neg sn) (f32_sub (F y) (F j)))) (f32_sub xM f32_1)) with (C0 i j).
    change (f32_sub (f32_sub yM (f32_add (f32_add f32_0 (f32_mul sn (f32_sub (F i) (F x)))) (f32_mul cs (f32_sub (F y) (F j))))) f32_1) with (C1 i j).
    rewrite (get_pixel_ok img Hwf p i j) by (split; assumption). cbn [bind].
    pose proof (HW i j) as HWij. unfold writes in HWij |- *.
    destruct (f32_geb (C0 i j) f32_1) eqn:Eg; cbn [mfold fst snd].
    + destruct (HWij _ Hi Hj (or_intror (or_introl eq_refl))) as (Q1 & _). cbn [fst snd] in Q1.
      destruct (HWij _ Hi Hj (or_introl eq_refl)) as (Q2 & _). cbn [fst snd] in Q2.
      apply bind_ext. intros im' _. rewrite isub_ok by (cbn; lia). cbn [bind].
      destruct (set_pixel p im' (f32_to_int U32 (C0 i j) - 1) (f32_to_int U32 (C1 i j)) (pixel_at img i j)); reflexivity.
    + reflexivity.
  - intros i j wr Hi Hj Hwr. destruct (HW i j wr Hi Hj Hwr) as (Q1 & Q2 & Q3 & _). unfold inside. rewrite Ib. unfold io. cbn [width height channels].
    split; [split; assumption|]. rewrite Q3. apply pixel_at_len; [exact Hwf|split; assumption].
Qed.

(** ** Angles that are not finite: sine and cosine are NaN, the output is 0 x 0 and the first pixel written is outside *)
Lemma nan_mul (x : f32) : f32_mul f32_nan x = f32_nan. Proof. destruct x; reflexivity. Qed.
Lemma nan_add (x : f32) : f32_add f32_nan x = f32_nan. Proof. destruct x; reflexivity. Qed.
Lemma add_nan (x : f32) : f32_add x f32_nan = f32_nan. Proof. destruct x; reflexivity. Qed.
Lemma nan_sub (x : f32) : f32_sub f32_nan x = f32_nan. Proof. destruct x; reflexivity. Qed.
Lemma sub_nan (x : f32) : f32_sub x f32_nan = f32_nan. Proof. destruct x; reflexivity. Qed.
Theorem C74_nan_panics p lm (img : image f32) degrees :
  wf img -> 1 <= width (info_of img) -> 1 <= height (info_of img) ->
  sinf lm (f32_to_radians degrees) = f32_nan -> cosf lm (f32_to_radians degrees) = f32_nan ->
  rotate p lm img degrees = Panic.
Proof.
  intros Hwf Hw Hh Es Ec. pose proof Hwf as [Hw0 Hh0 HC Hsz Hfull Hd]. unfold u32_max in *.
  unfold rotate. rewrite Es, Ec. unfold rotate_by.
  set (w := width (info_of img)) in *. set (h := height (info_of img)) in *.
  destruct (half_w w 0 Hw ltac:(lia)) as (A1 & A2 & A3).
  change (f32_neg f32_nan) with f32_nan.
  rewrite vec2, bind_Ret. rewrite isub_ok by (cbn; lia). rewrite bind_Ret. rewrite vec2, bind_Ret, vec2, bind_Ret, vec2, bind_Ret.
  rewrite !vget_0, !bind_Ret, !vget_1, !bind_Ret. rewrite !nan_mul, !add_nan.
  change (max_4 f32_nan f32_nan f32_nan f32_nan) with f32_nan. change (min_4 f32_nan f32_nan f32_nan f32_nan) with f32_nan.
  rewrite sub_nan. change (f32_to_int U32 f32_nan) with 0.
  set (io := Info 0 0 (channels (info_of img)) (alpha (info_of img))).
  assert (Hio : info_ok io) by (unfold info_ok, io; cbn [width height channels alpha]; unfold u32_max; lia).
  rewrite (blank_ok p num_f32 io Hio). cbn [bind].
  match goal with |- context [mfold _ _ ?b] => set (bl := b) in * end.
  assert (Wb : wf bl) by (apply (blank_wf num_f32), Hio).
  rewrite (zrange_cons 0 h) by lia. rewrite (zrange_cons 0 w) by lia. cbn [mfold].
  rewrite vec2_mut. cbn [bind]. rewrite vget_0, bind_Ret, vget_1, bind_Ret. rewrite ?nan_sub, ?nan_mul, ?add_nan, ?nan_add, ?sub_nan, ?nan_sub.
  rewrite (get_pixel_ok img Hwf p 0 0) by (split; fold w h; lia). cbn [bind]. change (f32_to_int U32 f32_nan) with 0.
  rewrite (set_pixel_panic bl Wb p 0 0); [reflexivity|lia|lia|]. intros [[Hx _] _]. cbn in Hx. lia.
Qed.

(** ** What the name promises fails: half a turn of a full 3 x 3 image leaves holes and drops pixels *)
(** Rust's sine and cosine of 180 degrees: sin (3.1415927) = -8.742278e-8, cos = -1 *)
Definition sin_180 : f32 := f32_neg (binary_normalize 24 128 _ _ mode_NE 12303662 (-47) false).
Definition lm_180 : libm := Libm (fun x _ => x) (fun _ => sin_180) (fun _ => f32_neg f32_1).
Definition ex_3x3 : image f32 := Image (Info 3 3 1 false) (map f32_of_Z [1; 2; 3; 4; 5; 6; 7; 8; 9]).
Theorem C74_holes_refuted :
  match rotate Debug lm_180 ex_3x3 (f32_of_Z 180) with
  | Ret out => width (info_of out) = 3 /\ height (info_of out) = 3
     /\ map (f32_to_int I32) (data out) = [9; 7; 0; 6; 0; 0; 3; 1; 0] | _ => False end.
Proof. vm_compute. repeat split; reflexivity. Qed.
(** the intended result *)
Example C74_half_turn_wanted : rev (map (f32_to_int I32) (data ex_3x3)) = [9; 8; 7; 6; 5; 4; 3; 2; 1].
Proof. vm_compute. reflexivity. Qed.

(** ** An angle meeting the hypotheses: 3-4-5 (sine 0.6, cosine 0.8, about 36.87 degrees) *)
Definition lm_345 : libm := Libm (fun x _ => x) (fun _ => f32_dec 6 1) (fun _ => f32_dec 8 1).
Example C74_example :
  let c := (13421773 / 16777216)%R in let s := (5033165 / 8388608)%R in
  wf ex_3x3 /\ 3 + 3 + 2 <= 2 ^ 3 /\ (3 + 3 + 1) * (3 + 3 + 1) * 1 <= u32_max
  /\ fin (cosf lm_345 (f32_to_radians (f32_dec 3687 2))) c /\ fin (sinf lm_345 (f32_to_radians (f32_dec 3687 2))) s
  /\ (Rabs c <= 1)%R /\ (Rabs s <= 1)%R /\ (1 <= Rabs c + Rabs s <= 1.45)%R
  /\ greatest (fun '(a, b) => rot_x c s a b) (corners 3 3) (2 * c + 2 * s)
  /\ greatest (fun '(a, b) => rot_y c s a b) (corners 3 3) (2 * s + c).
Proof.
  cbv zeta. change (cosf lm_345 (f32_to_radians (f32_dec 3687 2))) with (f32_dec 8 1). change (sinf lm_345 (f32_to_radians (f32_dec 3687 2))) with (f32_dec 6 1).
  split; [apply wfb_wf; vm_compute; reflexivity|]. split; [vm_compute; discriminate|]. split; [vm_compute; discriminate|].
  split; [const_val|]. split; [const_val|]. rewrite !Rabs_pos_eq by lra. split; [lra|]. split; [lra|]. split; [lra|].
  unfold corners. change (3 / 2) with 1. change (3 - 1) with 2.
  split; (split; [|intros [a b] Hin; cbn [In] in Hin; destruct Hin as [E|[E|[E|[E|[]]]]]; injection E as <- <-; unfold rot_x, rot_y; lra]).
  - exists (2%R, (- 2)%R). split; [do 3 right; left; reflexivity|unfold rot_x; lra].
  - exists (2%R, 1%R). split; [right; left; reflexivity|unfold rot_y; lra].
Qed.
Example C74_example_run :
  match rotate Debug lm_345 ex_3x3 (f32_dec 3687 2) with
  | Ret out => width (info_of out) = 4 /\ height (info_of out) = 4
     /\ map (f32_to_int I32) (data out) = [2; 6; 6; 0; 5; 8; 9; 9; 7; 7; 0; 0; 0; 0; 0; 0] | _ => False end.
Proof. vm_compute. repeat split; reflexivity. Qed.
