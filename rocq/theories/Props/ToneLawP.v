(** * C70: laws of the tone curves (tone.rs): composing and undoing brightness, accuracy and order of gamma *)
From Coq Require Import Lra.
From Flocq Require Import Core BinarySingleNaN.
From Verif.Spec Require Import PowS.
From Verif.Proofs Require Import BaseL ImageL ImageOps ToneL FloatL FloatL2 ApproxL PowL SrgbL SrgbL3.
From Verif.Model Require Import Tone.
From Verif.Props Require Import ImageP ToneP FloatP ContrastP.
Open Scope Z_scope.

(** ** recoloring twice *)
Lemma recolored_comp {A B C} (f : A -> B) (g : B -> C) (fa : A -> B) (ga : B -> C) (img : image A) (o1 : image B) (o2 : image C) :
  recolored f fa img o1 -> recolored g ga o1 o2 -> recolored (fun s => g (f s)) (fun s => ga (fa s)) img o2.
Proof.
  intros (I1 & W1 & P1) (I2 & W2 & P2). split; [congruence|]. split; [exact W2|].
  intros x y c s Hin Hc Hs. specialize (P1 x y c s Hin Hc Hs).
  assert (Hin1 : inside o1 x y) by (unfold inside in *; rewrite I1; exact Hin).
  specialize (P2 x y c _ Hin1 Hc P1). rewrite I1 in P2. rewrite P2. destruct (is_alpha _ _); reflexivity.
Qed.
Lemma recolored_ext {A B} (f g : A -> B) (fa : A -> B) (img : image A) (o : image B) :
  (forall x y c s, inside img x y -> 0 <= c -> sample img x y c = Some s -> is_alpha (info_of img) c = false -> f s = g s) -> recolored f fa img o -> recolored g fa img o.
Proof.
  intros E (I & W & P). split; [exact I|]. split; [exact W|]. intros x y c s Hin Hc Hs. rewrite (P x y c s Hin Hc Hs).
  destruct (is_alpha _ _) eqn:Ea; [reflexivity|]. rewrite (E x y c s Hin Hc Hs Ea). reflexivity.
Qed.
Lemma recolored_id {A} (img : image A) : wf img -> recolored (fun s => s) (fun a => a) img img.
Proof. intros W. split; [reflexivity|]. split; [exact W|]. intros x y c s _ _ Hs. rewrite Hs. destruct (is_alpha _ _); reflexivity. Qed.
Lemma recolored_u8 (f : Z -> Z) (img o : image Z) : wf img -> samples is_u8 img -> (forall s, is_u8 s -> is_u8 (f s)) ->
  recolored f (fun a => a) img o -> samples is_u8 o.
Proof.
  intros W U Hf (I & Wo & P). apply samples_pixels; [exact Wo|]. intros x y Hin.
  assert (Hin' : inside img x y) by (unfold inside in *; rewrite <- I; exact Hin).
  apply Forall_forall. intros s Hs. apply In_nth_error in Hs as [k Hk].
  assert (Hl : (k < length (pixel_at o x y))%nat) by (apply nth_error_Some; congruence).
  pose proof (pixel_at_len img W x y Hin') as L. pose proof (pixel_at_len o Wo x y Hin) as L'. rewrite I, <- L in L'. unfold len in L'.
  destruct (nth_error (pixel_at img x y) k) as [t|] eqn:E; [|apply nth_error_None in E; lia].
  assert (Hs : sample img x y (Z.of_nat k) = Some t) by (unfold sample; rewrite Nat2Z.id; exact E).
  pose proof (P x y (Z.of_nat k) t Hin' ltac:(lia) Hs) as Ps. unfold sample in Ps. rewrite Nat2Z.id, Hk in Ps. injection Ps as ->.
  assert (Us : is_u8 t). { unfold samples in U. rewrite Forall_forall in U. apply U. apply (sample_in_data img x y (Z.of_nat k)). exact Hs. }
  destruct (is_alpha _ _); auto.
Qed.
Lemma has_channels_same (a b : image Z) : info_of b = info_of a -> has_channels (info_of a) -> has_channels (info_of b).
Proof. intros ->. auto. Qed.
Lemma byte_u8 v : is_u8 (byte v). Proof. unfold is_u8, byte. lia. Qed.

(** ** brightness *)
(** two changes in the same direction add up *)
Theorem C70_brightness_add p (img : image Z) a b : wf img -> samples is_u8 img -> has_channels (info_of img) ->
  (0 <= a /\ 0 <= b /\ a + b <= 255) \/ (a <= 0 /\ b <= 0 /\ -255 <= a + b) ->
  (let! o := brightness p false img a in brightness p false o b) = brightness p false img (a + b).
Proof.
  intros W U HC Hab.
  destruct (C39_brightness p img a W U HC ltac:(lia)) as [o1 [E1 R1]].
  assert (I1 : info_of o1 = info_of img) by apply R1.
  assert (U1 : samples is_u8 o1) by (apply (recolored_u8 (fun s => byte (s + a)) img); auto; intros; apply byte_u8).
  destruct (C39_brightness p o1 b ltac:(apply R1) U1 (has_channels_same img o1 I1 HC) ltac:(lia)) as [o2 [E2 R2]].
  destruct (C39_brightness p img (a + b) W U HC ltac:(lia)) as [o3 [E3 R3]].
  rewrite E1, bind_Ret, E2, E3. f_equal. apply (recolored_unique (fun s => byte (s + (a + b))) (fun s => s) img); auto.
  pose proof (recolored_comp _ _ _ _ _ _ _ R1 R2) as R. cbv beta in R.
  eapply (recolored_ext (fun s => byte (byte (s + a) + b))); [|exact R]. intros x y c s Hin _ Hs _.
  assert (Us : is_u8 s). { unfold samples in U. rewrite Forall_forall in U. apply U. apply (sample_in_data img x y c). exact Hs. }
  unfold byte, is_u8 in *. lia.
Qed.
(** a change is undone by the opposite change exactly if no colour sample saturates *)
Theorem C70_brightness_undo p (img : image Z) b : wf img -> samples is_u8 img -> has_channels (info_of img) -> -255 <= b <= 255 ->
  (let! o := brightness p false img b in brightness p false o (- b)) = Ret img
  <-> (forall x y c s, inside img x y -> 0 <= c -> is_alpha (info_of img) c = false -> sample img x y c = Some s -> 0 <= s + b <= 255).
Proof.
  intros W U HC Hb.
  destruct (C39_brightness p img b W U HC ltac:(lia)) as [o1 [E1 R1]].
  assert (I1 : info_of o1 = info_of img) by apply R1.
  assert (U1 : samples is_u8 o1) by (apply (recolored_u8 (fun s => byte (s + b)) img); auto; intros; apply byte_u8).
  destruct (C39_brightness p o1 (- b) ltac:(apply R1) U1 (has_channels_same img o1 I1 HC) ltac:(lia)) as [o2 [E2 R2]].
  rewrite E1, bind_Ret, E2. pose proof (recolored_comp _ _ _ _ _ _ _ R1 R2) as R. cbv beta in R.
  assert (Us : forall x y c s, sample img x y c = Some s -> is_u8 s).
  { intros x y c s Hs. unfold samples in U. rewrite Forall_forall in U. apply U. apply (sample_in_data img x y c). exact Hs. }
  split.
  - intros E. injection E as ->. destruct R as (_ & _ & P). intros x y c s Hin Hc Ha Hs.
    pose proof (P x y c s Hin Hc Hs) as Ps. rewrite Ha, Hs in Ps. injection Ps as Ps. specialize (Us x y c s Hs).
    unfold byte, is_u8 in *. lia.
  - intros H. f_equal. apply (recolored_unique (fun s => s) (fun s => s) img); auto; [|apply recolored_id; exact W].
    eapply (recolored_ext (fun s => byte (byte (s + b) + - b))); [|exact R]. intros x y c s Hin Hc Hs Ha.
    specialize (H x y c s Hin Hc Ha Hs). specialize (Us x y c s Hs). unfold byte, is_u8 in *. lia.
Qed.
Theorem C70_brightness_0 p (img : image Z) : wf img -> samples is_u8 img -> has_channels (info_of img) ->
  brightness p false img 0 = Ret img.
Proof.
  intros W U HC. destruct (C39_brightness p img 0 W U HC ltac:(lia)) as [o [E R]]. rewrite E. f_equal.
  apply (recolored_unique (fun s => s) (fun s => s) img); auto; [|apply recolored_id; exact W].
  eapply (recolored_ext (fun s => byte (s + 0))); [|exact R]. intros x y c s Hin Hc Hs _.
  assert (Us : is_u8 s). { unfold samples in U. rewrite Forall_forall in U. apply U. apply (sample_in_data img x y c). exact Hs. }
  unfold byte, is_u8 in *. lia.
Qed.

(** ** gamma *)
(** [h] is the curve that gamma applies to every colour sample of every image *)
Definition gamma_applies (p : profile) (lm : libm) (g : f32) (mx : Z) (h : Z -> Z) : Prop :=
  forall img : image Z, wf img -> samples is_u8 img -> has_channels (info_of img) ->
    exists out, gamma p lm img g mx = Ret out /\ recolored h (fun a => a) img out.
Lemma gamma_applies_curve p lm g mx : f32_ltb g f32_0 = false -> gamma_applies p lm g mx (gamma_curve lm g mx).
Proof.
  intros Hg img W U HC. unfold gamma, check_non_neg. cbn [n_ltb num_f32]. change (n_zero num_f32) with f32_0. rewrite Hg, bind_Ret.
  apply map_if_alpha_recolored; auto. intros s _. unfold gamma_fn, f32_to_int, f32_round. rewrite round_to_byte. reflexivity.
Qed.
Lemma fin_not_neg (g : f32) (e : R) : fin g e -> (0 <= e)%R -> f32_ltb g f32_0 = false.
Proof. intros Fg He. change (Bltb g f32_0 = false). rewrite (ltb_fin g f32_0 e 0 Fg isZ_0). apply Rlt_bool_false. exact He. Qed.
Lemma byte_of_fin (X : f32) (r : R) : fin X r -> byte_of X = byte_of_real r.
Proof. intros [F <-]. destruct X; try discriminate; reflexivity. Qed.
Lemma byte_of_real_near (r : R) : (0 <= r <= 255.4)%R -> (Rabs (IZR (byte_of_real r) - r) <= / 2)%R.
Proof.
  intros Hr. unfold byte_of_real. pose proof (Zfloor_lb (r + / 2)) as L. pose proof (Zfloor_ub (r + / 2)) as H.
  set (z := Zfloor (r + / 2)) in *.
  assert (0 <= z) by (apply Zfloor_lub; cbn; lra).
  assert (z < 256). { apply lt_IZR. lra. }
  replace (Z.max 0 (Z.min 255 z)) with z by lia. apply Rabs_le'; lra.
Qed.

(** a library power function with relative error 2^-20: the curve is within 1/2 + 1/1000 of the exact
    gamma curve max * (c/max)^gamma, up to the maximum; it fixes 0 and the maximum *)
Theorem C70_gamma_accuracy p lm g (e : R) mx :
  pow_ok (powf lm) -> (forall z : f32, fin z 0 -> fin (powf lm z g) 0) ->
  fin g e -> (/ 16 <= e <= 3)%R -> 1 <= mx <= 255 ->
  exists h, gamma_applies p lm g mx h /\ h 0 = 0 /\ h mx = mx /\
    forall c, 1 <= c <= mx -> (Rabs (IZR (h c) - IZR mx * Rpower (IZR c / IZR mx) e) <= / 2 + / 1000)%R.
Proof.
  intros HP H0 Fg He Hm.
  assert (Hg : f32_ltb g f32_0 = false) by (apply (fin_not_neg g e Fg); lra).
  exists (gamma_curve lm g mx). split; [apply gamma_applies_curve; exact Hg|].
  assert (HmR : (1 <= IZR mx <= 255)%R) by (split; apply IZR_le; lia).
  assert (Main : forall c, 1 <= c <= mx -> (Rabs (IZR (gamma_curve lm g mx c) - IZR mx * Rpower (IZR c / IZR mx) e) <= / 2 + / 1000)%R).
  { intros c Hc. assert (HcR : (1 <= IZR c <= IZR mx)%R) by (split; apply IZR_le; lia).
    assert (Hq : (/ 255 <= IZR c / IZR mx <= 1)%R).
    { split.
      - apply Rmult_le_reg_r with (IZR mx); [lra|]. unfold Rdiv. rewrite Rmult_assoc, Rinv_l, Rmult_1_r by lra. lra.
      - apply Rmult_le_reg_r with (IZR mx); [lra|]. unfold Rdiv. rewrite Rmult_assoc, Rinv_l, Rmult_1_r by lra. lra. }
    assert (A1 : frel (f32_div (f32_of_Z c) (f32_of_Z mx)) (IZR c / IZR mx) (2.1 * uu)).
    { apply (frel_div _ _ _ _ 0 0); try (apply frel_Z; lia); unfold uu; lra. }
    destruct A1 as [r [Fr Hr]].
    destruct (pow_rel (powf lm) _ _ (IZR c / IZR mx) e (2.1 * uu) 0 r e HP Fr Fg Hr) as [q [Fq Hqr]]; try (unfold uu; lra).
    { rewrite Rminus_diag_eq, Rabs_R0 by reflexivity. lra. }
    assert (Pp : (0 < Rpower (IZR c / IZR mx) e <= 1)%R).
    { split; [apply Rpower_pos|]. apply Rpower_le_1; lra. }
    assert (Hi : (/ 255 <= / IZR mx <= 1)%R).
    { split; [apply Rinv_le_contravar; lra|]. rewrite <- Rinv_1. apply Rinv_le_contravar; lra. }
    assert (Hiq : (/ IZR mx <= IZR c / IZR mx)%R).
    { unfold Rdiv. rewrite <- (Rmult_1_l (/ IZR mx)) at 1. apply Rmult_le_compat_r; lra. }
    assert (Pl : (Rpower (/ IZR mx) 3 <= Rpower (IZR c / IZR mx) e)%R).
    { apply Rle_trans with (Rpower (/ IZR mx) e); [apply Rpower_antitone; lra|]. apply Rle_Rpower_l; lra. }
    rewrite Rpower_3 in Pl by lra.
    assert (Pm : (/ 65025 <= Rpower (IZR c / IZR mx) e * IZR mx)%R).
    { apply Rle_trans with ((/ IZR mx) ^ 3 * IZR mx)%R; [|apply Rmult_le_compat_r; lra].
      replace ((/ IZR mx) ^ 3 * IZR mx)%R with (/ IZR mx * / IZR mx)%R by (field; lra).
      replace (/ 65025)%R with (/ 255 * / 255)%R by lra. apply Rmult_le_compat; lra. }
    assert (A2 : frel (f32_mul (powf lm (f32_div (f32_of_Z c) (f32_of_Z mx)) g) (f32_of_Z mx)) (Rpower (IZR c / IZR mx) e * IZR mx) (50 * uu)).
    { apply (frel_mul _ _ _ _ (44 * uu) 0); try (unfold uu; lra).
      - exists q. split; [exact Fq|]. apply (rel_weaken _ _ (33 * uu + 5 * (2.1 * uu) + 22 * 0)); [lra|exact Hqr|unfold uu; lra].
      - apply frel_Z. lia.
      - clear - Pm Pp HmR. split; [lra|nra]. }
    destruct A2 as [v [Fv Hv]]. unfold gamma_curve. rewrite (byte_of_fin _ _ Fv).
    set (w := (Rpower (IZR c / IZR mx) e * IZR mx)%R) in *.
    assert (Hw : (0 < w <= 255)%R) by (unfold w; split; [apply Rmult_lt_0_compat; lra|nra]).
    unfold rel in Hv. assert (Ht : (50 * uu * w <= / 1000)%R) by (unfold uu; lra). pose proof (Rabs_bd _ _ Hv) as Hvb.
    assert (Hv0 : (0 <= v)%R). { unfold uu in Hvb. lra. }
    pose proof (Rabs_bd _ _ (byte_of_real_near v ltac:(lra))) as Hb.
    replace (IZR mx * Rpower (IZR c / IZR mx) e)%R with w by (unfold w; ring). apply Rabs_le'; lra. }
  split; [|split; [|exact Main]].
  - unfold gamma_curve.
    assert (F0 : fin (f32_div (f32_of_Z 0) (f32_of_Z mx)) 0).
    { replace 0%R with (rnd32 (IZR 0 / IZR mx)).
      - apply div_fin; [apply of_Z_isZ; lia|apply of_Z_isZ; lia|lra|]. unfold Rdiv. rewrite Rmult_0_l, Rabs_R0. apply bpow_ge_0.
      - unfold Rdiv. rewrite Rmult_0_l. unfold rnd32. apply (rnd_Z 0). cbn; lia. }
    assert (F1 : fin (f32_mul (powf lm (f32_div (f32_of_Z 0) (f32_of_Z mx)) g) (f32_of_Z mx)) 0).
    { replace 0%R with (rnd32 (0 * IZR mx)).
      - apply mul_fin; [apply H0; exact F0|apply of_Z_isZ; lia|]. rewrite Rmult_0_l, Rabs_R0. apply bpow_ge_0.
      - rewrite Rmult_0_l. unfold rnd32. apply (rnd_Z 0). cbn; lia. }
    rewrite (byte_of_fin _ _ F1). unfold byte_of_real. replace (Zfloor (0 + / 2)) with 0; [reflexivity|].
    symmetry. apply Zfloor_imp. cbn. lra.
  - specialize (Main mx ltac:(lia)). replace (IZR mx / IZR mx)%R with 1%R in Main by (field; lra).
    replace (Rpower 1 e) with 1%R in Main by (unfold Rpower; rewrite ln_1, Rmult_0_r, exp_0; reflexivity).
    rewrite Rmult_1_r, <- minus_IZR, <- abs_IZR in Main.
    assert (Hlt : (IZR (Z.abs (gamma_curve lm g mx mx - mx)) < 1)%R) by lra. apply lt_IZR in Hlt. lia.
Qed.

(** a power function that is increasing on [0,1] and stays there: order is kept and nothing exceeds the maximum *)
Theorem C70_gamma_order p lm g mx :
  (forall (x y : f32) (r s : R), fin x r -> fin y s -> (0 <= r <= s)%R -> (s <= 1)%R ->
     exists q q', fin (powf lm x g) q /\ fin (powf lm y g) q' /\ (0 <= q <= q')%R /\ (q' <= 1)%R) ->
  f32_ltb g f32_0 = false -> 1 <= mx <= 255 ->
  exists h, gamma_applies p lm g mx h /\ forall c c', 0 <= c <= c' -> c' <= mx -> 0 <= h c <= h c' /\ h c' <= mx.
Proof.
  intros HM Hg Hm. exists (gamma_curve lm g mx). split; [apply gamma_applies_curve; exact Hg|].
  intros c c' Hc Hc'. assert (HmR : (1 <= IZR mx <= 255)%R) by (split; apply IZR_le; lia).
  assert (HcR : (0 <= IZR c <= IZR c')%R) by (split; apply IZR_le; lia). assert (HcM : (IZR c' <= IZR mx)%R) by (apply IZR_le; lia).
  assert (Q : (0 <= IZR c / IZR mx <= IZR c' / IZR mx)%R /\ (IZR c' / IZR mx <= 1)%R).
  { assert (0 < / IZR mx)%R by (apply Rinv_0_lt_compat; lra). unfold Rdiv. split; [split|].
    - apply Rmult_le_pos; lra.
    - apply Rmult_le_compat_r; lra.
    - apply Rmult_le_reg_r with (IZR mx); [lra|]. rewrite Rmult_assoc, Rinv_l, Rmult_1_r by lra. lra. }
  assert (D : forall k, 0 <= k <= mx -> fin (f32_div (f32_of_Z k) (f32_of_Z mx)) (rnd32 (IZR k / IZR mx))).
  { intros k Hk. assert (HkR : (0 <= IZR k <= IZR mx)%R) by (split; apply IZR_le; lia).
    apply div_fin; [apply of_Z_isZ; lia|apply of_Z_isZ; lia|lra|]. apply big. rewrite Rabs_pos_eq.
    - apply Rle_trans with 1%R; [|lra]. apply Rmult_le_reg_r with (IZR mx); [lra|]. unfold Rdiv. rewrite Rmult_assoc, Rinv_l, Rmult_1_r by lra. lra.
    - unfold Rdiv. apply Rmult_le_pos; [lra|]. left. apply Rinv_0_lt_compat. lra. }
  assert (R0 : rnd32 0 = 0%R) by (unfold rnd32; apply (rnd_Z 0); cbn; lia).
  assert (R1 : rnd32 1 = 1%R) by (unfold rnd32; apply (rnd_Z 1); cbn; lia).
  destruct (HM _ _ _ _ (D c ltac:(lia)) (D c' ltac:(lia))) as (q & q' & F & F' & Hq & Hq').
  { split; [rewrite <- R0; apply rnd_le; lra|apply rnd_le; lra]. }
  { rewrite <- R1. apply rnd_le. lra. }
  assert (M : forall X v, fin X v -> (0 <= v <= 1)%R -> fin (f32_mul X (f32_of_Z mx)) (rnd32 (v * IZR mx))).
  { intros X v FX Hv. apply mul_fin; [exact FX|apply of_Z_isZ; lia|]. apply big. rewrite Rabs_pos_eq by (apply Rmult_le_pos; lra). nra. }
  unfold gamma_curve. rewrite (byte_of_fin _ _ (M _ q F ltac:(lra))), (byte_of_fin _ _ (M _ q' F' ltac:(lra))).
  assert (L1 : (rnd32 (q * IZR mx) <= rnd32 (q' * IZR mx))%R) by (apply rnd_le; apply Rmult_le_compat_r; lra).
  assert (L2 : (rnd32 (q' * IZR mx) <= IZR mx)%R).
  { assert (Rm : rnd32 (IZR mx) = IZR mx) by (unfold rnd32; apply rnd_Z; cbn; lia).
    rewrite <- Rm at 2. apply rnd_le. rewrite <- (Rmult_1_l (IZR mx)) at 2. apply Rmult_le_compat_r; lra. }
  unfold byte_of_real.
  assert (Z1 : Zfloor (rnd32 (q * IZR mx) + / 2) <= Zfloor (rnd32 (q' * IZR mx) + / 2)) by (apply Zfloor_le; lra).
  assert (Z2 : Zfloor (rnd32 (q' * IZR mx) + / 2) <= mx).
  { replace mx with (Zfloor (IZR mx + / 2)) at 2; [apply Zfloor_le; lra|]. apply Zfloor_imp. rewrite plus_IZR. lra. }
  lia.
Qed.

(** a power function meeting all hypotheses exists: the correctly rounded one, with 0^y = 0 *)
Definition zero_pow (x y : f32) : f32 := if Req_EM_T (B2R x) 0 then f32_0 else ideal_pow x y.
Definition zero_lm : libm := Libm zero_pow (fun x => x) (fun x => x).
Example C70_gamma_example : pow_ok (powf zero_lm) /\ (forall (g z : f32), fin z 0 -> fin (powf zero_lm z g) 0)
  /\ (forall (g : f32) (e : R), fin g e -> (/ 16 <= e <= 3)%R -> forall (x y : f32) (r s : R), fin x r -> fin y s -> (0 <= r <= s)%R -> (s <= 1)%R ->
       exists q q', fin (powf zero_lm x g) q /\ fin (powf zero_lm y g) q' /\ (0 <= q <= q')%R /\ (q' <= 1)%R)
  /\ fin (f32_of_Z 2) 2 /\ (/ 16 <= 2 <= 3)%R.
Proof.
  assert (F0 : fin f32_0 0) by apply isZ_0.
  assert (R0 : rnd32 0 = 0%R) by (unfold rnd32; apply (rnd_Z 0); cbn; lia).
  assert (R1 : rnd32 1 = 1%R) by (unfold rnd32; apply (rnd_Z 1); cbn; lia).
  split; [|split; [|split; [|split]]].
  - intros x y r s Fx Fy Hr Hs. cbn [powf zero_lm]. unfold zero_pow. destruct Fx as [Fx Ex].
    destruct (Req_EM_T (B2R x) 0) as [E|E]; [lra|]. apply (correct_ok _ ideal_correct); auto. split; assumption.
  - intros g z [_ Ez]. cbn [powf zero_lm]. unfold zero_pow. destruct (Req_EM_T (B2R z) 0); [exact F0|contradiction].
  - intros g e [Fg Eg] He x y r s [Fx Ex] [Fy Ey] Hrs Hs. cbn [powf zero_lm]. unfold zero_pow, ideal_pow. rewrite Ex, Ey, Eg.
    assert (Pos : forall t, (0 < t <= 1)%R -> fin (round_to_f32 (Rpower t e)) (rnd32 (Rpower t e)) /\ (0 <= rnd32 (Rpower t e) <= 1)%R).
    { intros t Ht. pose proof (Rpower_pos t e). pose proof (Rpower_le_1 t e Ht ltac:(lra)). split.
      - apply round_to_fin. rewrite Rabs_pos_eq by lra. apply Rle_trans with (bpow radix2 0); [cbn; lra|apply bpow_le; lia].
      - split; [rewrite <- R0; apply rnd_le; lra|rewrite <- R1; apply rnd_le; lra]. }
    destruct (Req_EM_T r 0) as [E|E]; destruct (Req_EM_T s 0) as [E'|E'].
    + exists 0%R, 0%R. repeat split; try apply F0; lra.
    + destruct (Pos s ltac:(lra)) as [F B]. exists 0%R, (rnd32 (Rpower s e)). repeat split; try apply F0; try apply F; lra.
    + lra.
    + destruct (Pos s ltac:(lra)) as [F B]. destruct (Pos r ltac:(lra)) as [F' B']. exists (rnd32 (Rpower r e)), (rnd32 (Rpower s e)).
      repeat split; try apply F; try apply F'; try lra. apply rnd_le. apply Rle_Rpower_l; lra.
  - apply of_Z_isZ. lia.
  - lra.
Qed.
Example C70_brightness_example : wf ex_rgba /\ samples is_u8 ex_rgba /\ has_channels (info_of ex_rgba)
  /\ (forall x y c s, inside ex_rgba x y -> 0 <= c -> is_alpha (info_of ex_rgba) c = false -> sample ex_rgba x y c = Some s -> 0 <= s + 100 <= 255).
Proof.
  split; [exact ex_rgba_wf|]. split; [exact ex_rgba_u8|]. split; [right; cbn; lia|].
  intros x y c s _ _ _ Hs. apply sample_in_data in Hs. cbn in Hs. repeat destruct Hs as [<-|Hs]; lia.
Qed.
Print Assumptions C70_gamma_accuracy.
Print Assumptions C70_brightness_undo.
