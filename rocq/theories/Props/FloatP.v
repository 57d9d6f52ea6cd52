(** * C13 (sample conversions), C29 (extrema), C61 (argument checks). *)
From Verif.Model Require Import MathM.
From Verif.Spec Require Import SumS.
From Verif.Proofs Require Import BaseL ImageL ImageOps FloatL FloatL2.
From Flocq Require Import Core BinarySingleNaN.
Open Scope Z_scope.

(** ** C13 *)

(** round half away from zero, then saturate to a byte: for a real value r this is
    floor(r + 1/2) limited to [0,255] (negative values all give 0) *)
Definition byte_of_real (r : R) : Z := Z.max 0 (Z.min 255 (Zfloor (r + / 2))).
(** what a conversion float -> u8 must give, special values included *)
Definition byte_of {prec emax} (x : binary_float prec emax) : Z :=
  match x with
  | B754_nan => 0
  | B754_infinity true => 0
  | B754_infinity false => 255
  | _ => byte_of_real (B2R x)
  end.

Lemma round_to_byte {prec emax} {He : Prec_lt_emax prec emax} (x : binary_float prec emax) :
  float_to_int U8 (Bnearbyint mode_NA x) = byte_of x.
Proof.
  assert (Hfin : is_finite x = true -> float_to_int U8 (Bnearbyint mode_NA x) = byte_of_real (B2R x)).
  { intros F. assert (Hx : fin x (B2R x)) by (split; auto).
    apply (nearby_fin (He := He) mode_NA) in Hx.
    rewrite (to_int_fin (He := He) U8 _ _ ltac:(cbn; lia) Hx), Ztrunc_IZR.
    unfold clampZ, byte_of_real. cbn [lo hi U8 round_mode].
    set (r := B2R x). clearbody r. destruct (Rle_lt_dec 0 r) as [Hr|Hr].
    - assert (ZnearestA r = Zfloor (r + / 2)) as ->; [|reflexivity].
      apply eq_sym, Zfloor_imp. rewrite plus_IZR. unfold Znearest.
      pose proof (Zfloor_lb r) as L1. pose proof (Zfloor_ub r) as L2.
      assert (0 <= Zfloor r) by (apply Zfloor_lub; exact Hr).
      destruct (Rcompare_spec (r - IZR (Zfloor r)) (/ 2)).
      + lra.
      + replace (0 <=? Zfloor r) with true by lia. rewrite Zceil_floor_neq by lra. rewrite plus_IZR. lra.
      + rewrite Zceil_floor_neq by (intros E; lra). rewrite plus_IZR. lra.
    - assert (ZnearestA r <= 0).
      { assert (Hn : ZnearestA r <= ZnearestA 0) by (apply Zrnd_le; [apply valid_rnd_N|lra]).
        pose proof (rmode_Z mode_NA 0) as H0. cbn [round_mode] in H0. rewrite H0 in Hn. exact Hn. }
      assert (Zfloor (r + / 2) < 1); [|lia].
      apply lt_IZR. apply Rle_lt_trans with (r + / 2)%R; [apply Zfloor_lb|lra]. }
  destruct x as [s|[]| |s m e Hm]; try reflexivity; apply Hfin; reflexivity.
Qed.

Theorem C13_f32_to_u8 p (img : image f32) : wf img ->
  from_f32_u8 p img = Ret (Image (info_of img) (map byte_of (data img))).
Proof.
  intros Hwf. unfold from_f32_u8, f32_to_int, f32_round. rewrite map_channels_pure by exact Hwf.
  do 2 f_equal. apply map_ext. intros a. apply round_to_byte.
Qed.
Theorem C13_f64_to_u8 p (img : image f64) : wf img ->
  from_f64_u8 p img = Ret (Image (info_of img) (map byte_of (data img))).
Proof.
  intros Hwf. unfold from_f64_u8, f64_round. rewrite map_channels_pure by exact Hwf.
  do 2 f_equal. apply map_ext. intros a. apply round_to_byte.
Qed.

(** unsigned integers to floats: exact value when it fits in the significand *)
Lemma of_Z_isZ64 z : Z.abs z <= 2 ^ 53 -> isZ (f64_of_Z z) z.
Proof.
  intros H. unfold isZ. rewrite <- (@rnd_Z 53 1024 _ _ z H). apply of_Z_fin.
  assert (2 ^ 53 <= 2 ^ (1024 - 1)) by (apply Z.pow_le_mono_r; lia). lia.
Qed.
Theorem C13_u8_to_f32_exact p (img : image Z) : wf img -> samples is_u8 img ->
  exists out, from_u8_f32 p img = Ret out /\ info_of out = info_of img /\ Forall2 holds (data out) (data img).
Proof.
  intros Hwf Hs. unfold from_u8_f32. rewrite map_channels_pure by exact Hwf. eexists. conj; [reflexivity|reflexivity|].
  cbn [data]. induction Hs as [|c l Hc Hl IH]; cbn; constructor; [|exact IH].
  apply of_Z_isZ. unfold is_u8 in Hc. lia.
Qed.
Theorem C13_uint_to_f64_exact p (img : image Z) : wf img -> samples (fun c => 0 <= c <= 2 ^ 53) img ->
  exists out, from_uint_f64 p img = Ret out /\ info_of out = info_of img /\ Forall2 holds (data out) (data img).
Proof.
  intros Hwf Hs. unfold from_uint_f64. rewrite map_channels_pure by exact Hwf. eexists. conj; [reflexivity|reflexivity|].
  cbn [data]. induction Hs as [|c l Hc Hl IH]; cbn [map]; constructor; [|exact IH].
  apply of_Z_isZ64. lia.
Qed.
(** beyond 2^53 (u64, u128, usize images) the conversion is not exact *)
Theorem C13_u64_to_f64_inexact : in_ity U64 (2 ^ 53 + 1) = true /\ f64_of_Z (2 ^ 53 + 1) = f64_of_Z (2 ^ 53).
Proof. split; [vm_compute; reflexivity|]. apply B2SF_inj. vm_compute. reflexivity. Qed.

Theorem C13_f32_to_f64_exact p (img : image f32) : wf img ->
  exists out, from_f32_f64 p img = Ret out /\ info_of out = info_of img
    /\ Forall2 (fun (y : f64) (x : f32) => B2R y = B2R x /\ is_finite y = is_finite x /\ is_nan y = is_nan x
                  /\ Bsign y = Bsign x)
        (data out) (data img).
Proof.
  intros Hwf. unfold from_f32_f64. rewrite map_channels_pure by exact Hwf. eexists. conj; [reflexivity|reflexivity|].
  cbn [data]. induction (data img) as [|x l IH]; cbn [map]; constructor; [|exact IH].
  destruct x as [s|s| |s m e Hm]; cbn [f64_of_f32]; auto.
  set (z := if s then Z.neg m else Z.pos m).
  assert (Hz : z = cond_Zopp s (Z.pos m)) by (destruct s; reflexivity).
  assert (HB : F2R (Float radix2 z e) = B2R (B754_finite s m e Hm : f32)) by (rewrite Hz; reflexivity).
  pose proof (binary_normalize_correct 53 1024 _ _ mode_NE z e s) as C. cbv zeta in C.
  rewrite HB in C. set (r := B2R (B754_finite s m e Hm : f32)) in *.
  assert (Hf : generic_format radix2 (SpecFloat.fexp 53 1024) r).
  { apply (generic_inclusion_mag radix2 (SpecFloat.fexp 24 128)).
    - intros _. unfold SpecFloat.fexp, SpecFloat.emin. lia.
    - apply fmt_B2R. }
  change (round radix2 (SpecFloat.fexp 53 1024) (round_mode mode_NE) r) with (@rnd 53 1024 r) in C.
  rewrite (rnd_fmt r Hf) in C.
  assert (Hlt : (Rabs r < bpow radix2 1024)%R).
  { apply Rlt_trans with (bpow radix2 128); [apply (abs_B2R_lt_emax 24 128)|apply bpow_lt; lia]. }
  rewrite Rlt_bool_true in C by exact Hlt. destruct C as [C1 [C2 C3]]. conj; [exact C1|rewrite C2; reflexivity| |].
  - destruct (binary_normalize 53 1024 prec53 prec53_1024 mode_NE z e s); try discriminate; reflexivity.
  - rewrite C3. cbn [Bsign]. 
    assert (Hpos : (0 < bpow radix2 e)%R) by apply bpow_gt_0.
    rewrite <- HB. unfold F2R. cbn [Fnum Fexp]. destruct s; unfold z.
    + assert (IZR (Z.neg m) <= -1)%R by (apply IZR_le; lia). rewrite Rcompare_Lt by nra. reflexivity.
    + assert (1 <= IZR (Z.pos m))%R by (apply IZR_le; lia). rewrite Rcompare_Gt by nra. reflexivity.
Qed.

Lemma byte_of_holds {prec emax} (x : binary_float prec emax) z : holds x z -> 0 <= z <= 255 -> byte_of x = z.
Proof.
  intros [F E] Hz. assert (byte_of_real (B2R x) = z) as Hb.
  { rewrite E. unfold byte_of_real. rewrite (Zfloor_imp z); [lia|]. rewrite plus_IZR. lra. }
  destruct x as [| | |]; try discriminate; exact Hb.
Qed.
Lemma map_byte_holds {prec emax} (l : list (binary_float prec emax)) d :
  Forall2 holds l d -> Forall is_u8 d -> map byte_of l = d.
Proof.
  induction 1 as [|x z l d Hx Hl IH]; intros Hd; [reflexivity|]. inversion Hd; subst. cbn. f_equal; [|auto].
  apply byte_of_holds; auto.
Qed.

Theorem C13_u8_f32_u8 p (img : image Z) : wf img -> samples is_u8 img ->
  (let! f := from_u8_f32 p img in from_f32_u8 p f) = Ret img.
Proof.
  intros Hwf Hs. destruct (C13_u8_to_f32_exact p img Hwf Hs) as [out [E [Hi Hd]]]. rewrite E. cbn [bind].
  assert (Hl : len (data out) = len (data img)) by (unfold len; f_equal; revert Hd; clear; induction 1; cbn; auto).
  rewrite C13_f32_to_u8 by (destruct Hwf; constructor; rewrite ?Hi, ?Hl; auto).
  rewrite (map_byte_holds _ _ Hd Hs), Hi. destruct img; reflexivity.
Qed.
Theorem C13_u8_f64_u8 p (img : image Z) : wf img -> samples is_u8 img ->
  (let! f := from_uint_f64 p img in from_f64_u8 p f) = Ret img.
Proof.
  intros Hwf Hs. destruct (C13_uint_to_f64_exact p img Hwf) as [out [E [Hi Hd]]].
  { revert Hs. apply Forall_impl. unfold is_u8. intros c Hc. lia. }
  rewrite E. cbn [bind].
  assert (Hl : len (data out) = len (data img)) by (unfold len; f_equal; revert Hd; clear; induction 1; cbn; auto).
  rewrite C13_f64_to_u8 by (destruct Hwf; constructor; rewrite ?Hi, ?Hl; auto).
  rewrite (map_byte_holds _ _ Hd Hs), Hi. destruct img; reflexivity.
Qed.
Example C13_example :
  let im := Image (Info 3 1 2 true) [0; 255; 17; 1; 254; 128] in
  wf im /\ samples is_u8 im
  /\ map (fun x : f32 => float_to_int U8 (Bnearbyint mode_NA x)) [f32_dec 25 1; f32_dec (-25) 1; f32_dec 2555 1; f32_nan; f32_dec 24999 4]
     = [3; 0; 255; 0; 2].
Proof.
  intros im; conj; [apply wfb_wf; reflexivity|..].
  - unfold samples, is_u8; cbn. repeat first [apply Forall_nil|apply Forall_cons]; lia.
  - vm_compute. reflexivity.
Qed.

(** ** C29 *)
(** [is_max m l]: m is an element of l, and no element is greater (IEEE comparison) *)
Definition is_max (m : f32) (l : list f32) : Prop := In m l /\ forall x, In x l -> f32_leb x m = true.
Definition is_min (m : f32) (l : list f32) : Prop := In m l /\ forall x, In x l -> f32_leb m x = true.
Definition not_nan (x : f32) : Prop := is_nan x = false.

Ltac extrema :=
  unfold not_nan, is_max, is_min in *; unfold max_4, min_4; unfold max_3, min_3; unfold f32_gtb;
  rewrite ?ltb_ext by assumption;
  repeat (match goal with |- context [Rlt_bool ?a ?b] => destruct (Rlt_bool_spec a b) end);
  (split; [cbn; solve [auto 6]|intros ? Hin; cbn in Hin;
   repeat (destruct Hin as [<-|Hin]; [rewrite leb_ext by assumption; apply Rle_bool_true; lra|]); destruct Hin]).

Theorem C29_max_3 x y z : not_nan x -> not_nan y -> not_nan z -> is_max (max_3 x y z) [x; y; z].
Proof. intros. extrema. Qed.
Theorem C29_min_3 x y z : not_nan x -> not_nan y -> not_nan z -> is_min (min_3 x y z) [x; y; z].
Proof. intros. extrema. Qed.
Theorem C29_max_4 w x y z : not_nan w -> not_nan x -> not_nan y -> not_nan z -> is_max (max_4 w x y z) [w; x; y; z].
Proof. intros. extrema. Qed.
Theorem C29_min_4 w x y z : not_nan w -> not_nan x -> not_nan y -> not_nan z -> is_min (min_4 w x y z) [w; x; y; z].
Proof. intros. extrema. Qed.
(** the NaN hypothesis is needed: a NaN in the first place is dropped, in the last place returned *)
Theorem C29_max_3_nan : max_3 f32_nan f32_1 f32_0 = f32_1 /\ max_3 f32_1 f32_0 f32_nan = f32_nan.
Proof. split; apply B2SF_inj; vm_compute; reflexivity. Qed.
Example C29_example : not_nan (f32_of_Z 2) /\ not_nan (B754_infinity true) /\ not_nan (f32_dec (-15) 1) /\ not_nan f32_0
  /\ max_4 (f32_of_Z 2) (B754_infinity true) (f32_dec (-15) 1) f32_0 = f32_of_Z 2
  /\ min_4 (f32_of_Z 2) (B754_infinity true) (f32_dec (-15) 1) f32_0 = B754_infinity true.
Proof. unfold not_nan. conj; try (apply B2SF_inj); vm_compute; reflexivity. Qed.

(** ** C61 *)
Definition accepts (o : outcome unit) : Prop := o = Ret tt.
Definition rejects (o : outcome unit) : Prop := o = Fail InvalidArgError.

Lemma rem2 t v : lo t <= 0 -> 2 <= hi t -> 0 <= v <= hi t -> irem t v 2 = Ret (v mod 2).
Proof. intros. apply irem_ok; lia. Qed.

(** unsigned integer types *)
Theorem C61_check_odd p t v : lo t = 0 -> 2 <= hi t -> 0 <= v <= hi t ->
  (Z.odd v = true -> accepts (check_odd p (num_int t) v)) /\ (Z.odd v = false -> rejects (check_odd p (num_int t) v)).
Proof.
  intros Hlo Hhi Hv. unfold accepts, rejects, check_odd, n_zero. cbn [n_rem n_of_u8 n_eqb num_int].
  rewrite rem2 by lia. cbn [bind]. rewrite Zmod_odd. destruct (Z.odd v); split; intros; try discriminate; reflexivity.
Qed.
Theorem C61_check_even p t v : lo t = 0 -> 2 <= hi t -> 0 <= v <= hi t ->
  (Z.odd v = false -> accepts (check_even p (num_int t) v)) /\ (Z.odd v = true -> rejects (check_even p (num_int t) v)).
Proof.
  intros Hlo Hhi Hv. unfold accepts, rejects, check_even, n_zero. cbn [n_rem n_of_u8 n_eqb num_int].
  rewrite rem2 by lia. cbn [bind]. rewrite Zmod_odd. destruct (Z.odd v); split; intros; try discriminate; reflexivity.
Qed.
Theorem C61_check_non_neg_int t v : (0 <= v -> accepts (check_non_neg (num_int t) v))
  /\ (v < 0 -> rejects (check_non_neg (num_int t) v)).
Proof.
  unfold accepts, rejects, check_non_neg, n_zero. cbn [n_ltb n_of_u8 num_int].
  destruct (Z.ltb_spec v 0); split; intros; try lia; reflexivity.
Qed.
Theorem C61_check_in_range_int t v mn mx : (mn <= v <= mx -> accepts (check_in_range (num_int t) v mn mx))
  /\ (v < mn \/ mx < v -> rejects (check_in_range (num_int t) v mn mx)).
Proof.
  unfold accepts, rejects, check_in_range. cbn [n_ltb num_int].
  destruct (Z.ltb_spec v mn); destruct (Z.ltb_spec mx v); split; intros; try lia; reflexivity.
Qed.
(** f32: the same with the IEEE order; a NaN argument is always accepted *)
Lemma f32_zero_is : n_zero num_f32 = f32_0.
Proof. reflexivity. Qed.
Theorem C61_check_non_neg_f32 (v : f32) : is_finite v = true ->
  ((0 <= B2R v)%R -> accepts (check_non_neg num_f32 v)) /\ ((B2R v < 0)%R -> rejects (check_non_neg num_f32 v)).
Proof.
  intros F. unfold accepts, rejects, check_non_neg. rewrite f32_zero_is. cbn [n_ltb num_f32]. unfold f32_ltb.
  rewrite Bltb_correct by auto. change (B2R f32_0) with 0%R.
  destruct (Rlt_bool_spec (B2R v) 0); split; intros; try lra; reflexivity.
Qed.
Theorem C61_check_in_range_f32 (v mn mx : f32) : is_finite v = true -> is_finite mn = true -> is_finite mx = true ->
  ((B2R mn <= B2R v <= B2R mx)%R -> accepts (check_in_range num_f32 v mn mx))
  /\ ((B2R v < B2R mn \/ B2R mx < B2R v)%R -> rejects (check_in_range num_f32 v mn mx)).
Proof.
  intros F1 F2 F3. unfold accepts, rejects, check_in_range. cbn [n_ltb num_f32]. unfold f32_ltb.
  rewrite !Bltb_correct by auto.
  destruct (Rlt_bool_spec (B2R v) (B2R mn)); destruct (Rlt_bool_spec (B2R mx) (B2R v)); split; intros; try lra; reflexivity.
Qed.
Theorem C61_nan_accepted mn mx :
  accepts (check_non_neg num_f32 f32_nan) /\ accepts (check_in_range num_f32 f32_nan mn mx).
Proof.
  unfold accepts, check_non_neg, check_in_range. cbn [n_ltb num_f32].
  rewrite !(ltb_nan_l f32_nan) by reflexivity. rewrite (ltb_nan_r mx f32_nan) by reflexivity. split; reflexivity.
Qed.
Theorem C61_infinite_accepted : accepts (check_non_neg num_f32 (B754_infinity false))
  /\ rejects (check_non_neg num_f32 (B754_infinity true)).
Proof. split; reflexivity. Qed.

(** kernel lengths up to 2^24: exactly the perfect squares *)
Theorem C61_check_square n : 0 <= n <= 16777216 ->
  ((exists k, n = k * k) -> accepts (check_square (f32_of_Z n)))
  /\ (~ (exists k, n = k * k) -> rejects (check_square (f32_of_Z n))).
Proof.
  intros Hn. pose proof (of_Z_isZ n ltac:(lia)) as HZ.
  assert (Hs : fin (f32_sqrt (f32_of_Z n)) (rnd32 (sqrt (IZR n)))).
  { apply sqrt_fin; [exact HZ|]. apply IZR_le. lia. }
  pose proof (rem_1 (f32_sqrt (f32_of_Z n)) (proj1 Hs)) as Hr. rewrite (proj2 Hs) in Hr.
  pose proof (sqrt_square_iff n Hn) as Hq. unfold accepts, rejects, check_square, f32_neb.
  change (Beqb (f32_rem (f32_sqrt (f32_of_Z n)) f32_1) f32_0) with (f32_eqb (f32_rem (f32_sqrt (f32_of_Z n)) f32_1) f32_0).
  split; intros H.
  - apply Hq, Hr in H. rewrite H. reflexivity.
  - destruct (f32_eqb _ f32_0) eqn:E; [|reflexivity]. exfalso. apply H, Hq, Hr. reflexivity.
Qed.
(** beyond 2^24 a non-square length can be accepted: 4097^2 - 1 *)
Theorem C61_check_square_large_refuted :
  accepts (check_square (f32_of_Z 16785408)) /\ 4096 * 4096 < 16785408 < 4097 * 4097.
Proof. split; [vm_compute; reflexivity|lia]. Qed.

Theorem C61_check_grayscale {T} (img : image T) :
  ((alpha (info_of img) = true /\ channels (info_of img) = 2) \/ (alpha (info_of img) = false /\ channels (info_of img) = 1)
     -> accepts (check_grayscale img))
  /\ (~ ((alpha (info_of img) = true /\ channels (info_of img) = 2) \/ (alpha (info_of img) = false /\ channels (info_of img) = 1))
     -> rejects (check_grayscale img)).
Proof.
  unfold accepts, rejects, check_grayscale. destruct (alpha (info_of img)); cbn [andb orb negb].
  - destruct (Z.eqb_spec (channels (info_of img)) 2); cbn; split; intros H; try reflexivity; exfalso; intuition congruence.
  - destruct (Z.eqb_spec (channels (info_of img)) 1); cbn; split; intros H; try reflexivity; exfalso; intuition congruence.
Qed.
Theorem C61_check_equal a b : (a = b -> accepts (check_equal_info a b)) /\ (a <> b -> rejects (check_equal_info a b)).
Proof.
  unfold accepts, rejects, check_equal_info. destruct (info_eqb a b) eqn:E.
  - apply info_eqb_eq in E. split; [reflexivity|congruence].
  - split; [|reflexivity]. intros ->. rewrite (proj2 (info_eqb_eq b b) eq_refl) in E. discriminate.
Qed.
Example C61_example : accepts (check_odd Debug (num_int U32) 7) /\ rejects (check_even Debug (num_int USIZE) 7)
  /\ accepts (check_square (f32_of_Z 25)) /\ rejects (check_square (f32_of_Z 24)).
Proof. conj; vm_compute; reflexivity. Qed.
