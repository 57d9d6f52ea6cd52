(** * C72: linear filters against real arithmetic; averaging filters; translation *)
From Coq Require Import Lra.
From Flocq Require Import Core BinarySingleNaN.
From Verif.Model Require Import Filter.
From Verif.Spec Require Import FilterS BsplineS RealFilterS.
From Verif.Proofs Require Import BaseL ImageL ImageOps FloatL FloatL2 ApproxL FilterL.
From Verif.Props Require Import ImageP FilterP FilterP2 FilterP3.
Open Scope Z_scope.

(** ** sums *)
Section Sums.
  Open Scope R_scope.
  Context {A : Type}.
  Lemma sum_ext (l : list A) f g : (forall a, In a l -> f a = g a) -> sum_over l f = sum_over l g.
  Proof.
    unfold sum_over. induction l as [|a l IH]; intros H; [reflexivity|]. cbn [fold_right]. rewrite H by (left; reflexivity).
    f_equal. apply IH. intros; apply H; right; assumption.
  Qed.
  Lemma sum_plus (l : list A) f g : sum_over l (fun a => f a + g a) = sum_over l f + sum_over l g.
  Proof. unfold sum_over. induction l as [|a l IH]; cbn [fold_right]; [lra|rewrite IH; lra]. Qed.
  Lemma sum_scale (l : list A) f k : sum_over l (fun a => k * f a) = k * sum_over l f.
  Proof. unfold sum_over. induction l as [|a l IH]; cbn [fold_right]; [lra|rewrite IH; lra]. Qed.
  Lemma sum_const (l : list A) k : sum_over l (fun _ => k) = INR (length l) * k.
  Proof. unfold sum_over. induction l as [|a l IH]; [cbn; lra|]. cbn [fold_right length]. rewrite IH, S_INR. lra. Qed.
  Lemma sum_le (l : list A) f g : (forall a, In a l -> f a <= g a) -> sum_over l f <= sum_over l g.
  Proof.
    unfold sum_over. induction l as [|a l IH]; intros H; [cbn; lra|]. cbn [fold_right].
    pose proof (H a (or_introl eq_refl)). specialize (IH (fun b Hb => H b (or_intror Hb))). lra.
  Qed.
  Lemma sum_abs (l : list A) f : Rabs (sum_over l f) <= sum_over l (fun a => Rabs (f a)).
  Proof.
    unfold sum_over. induction l as [|a l IH]; cbn [fold_right]; [rewrite Rabs_R0; lra|]. eapply Rle_trans; [apply Rabs_triang|]. lra.
  Qed.
  Lemma sum_diff (l : list A) f g : sum_over l f - sum_over l g = sum_over l (fun a => f a - g a).
  Proof. unfold sum_over. induction l as [|a l IH]; cbn [fold_right]; [lra|rewrite <- IH; lra]. Qed.
  Lemma sum_app (l m : list A) f : sum_over (l ++ m) f = sum_over l f + sum_over m f.
  Proof. unfold sum_over. induction l as [|a l IH]; cbn [fold_right app]; [lra|rewrite IH; lra]. Qed.
End Sums.
Lemma sum_map {A B} (g : A -> B) l (f : B -> R) : sum_over (map g l) f = sum_over l (fun a => f (g a)).
Proof. unfold sum_over. induction l as [|a l IH]; cbn [fold_right map]; [reflexivity|rewrite IH; reflexivity]. Qed.

Lemma Forall2_len {A B} (P : A -> B -> Prop) l m : Forall2 P l m -> length l = length m.
Proof. induction 1; cbn; congruence. Qed.

(** ** the rounding error of a weighted sum *)
Section Dot.
  Open Scope R_scope.
  Context (k : Z) (Hk : (0 <= k <= 90)%Z).
  Notation M := (IZR (2 ^ k)).
  Lemma M_pos : 1 <= M. Proof. apply IZR_le. assert (2 ^ 0 <= 2 ^ k)%Z by (apply Z.pow_le_mono_r; lia). lia. Qed.
  Lemma M_succ : IZR (2 ^ (k + 1)) = 2 * M.
  Proof. rewrite Z.pow_add_r by lia. rewrite mult_IZR. cbn. lra. Qed.

  Lemma dot_acc (kvs : list (f32 * f32)) (rs : list (R * R)) acc a e T :
    Forall2 (fun kv r => fin (fst kv) (fst r) /\ fin (snd kv) (snd r)) kvs rs ->
    approx acc a e -> Rabs a <= T -> T + sum_over rs (fun r => Rabs (fst r * snd r)) <= M ->
    e + INR (length rs) * (3 * M * uu) <= M / 2 ->
    approx (fold_left (fun acc kv => f32_add acc (f32_mul (fst kv) (snd kv))) kvs acc)
      (a + sum_over rs (fun r => fst r * snd r)) (e + INR (length rs) * (3 * M * uu)).
  Proof.
    intros H. revert acc a e T. induction H as [|kv r kvs rs [F1 F2] H IH]; intros acc a e T Ha HT Hs He.
    - cbn [fold_left sum_over fold_right length INR]. unfold sum_over. cbn [fold_right].
      eapply ap_weaken; [eapply ap_eq; [exact Ha|ring]|cbn [length INR]; lra].
    - cbn [fold_left]. unfold sum_over in *. cbn [fold_right] in *. pose proof (ap_pos _ _ _ Ha) as He0. pose proof M_pos as HM.
      assert (Hl : INR (length (r :: rs)) = INR (length rs) + 1) by (cbn [length]; apply S_INR). rewrite Hl in *.
      pose proof (pos_INR (length rs)) as HI.
      assert (HMu : 0 < M * uu) by (unfold uu; apply Rmult_lt_0_compat; lra).
      assert (Hrest : 0 <= fold_right (fun (a : R * R) s => Rabs (fst a * snd a) + s) 0 rs).
      { clear. induction rs as [|q rs IH]; cbn [fold_right]; [lra|]. pose proof (Rabs_pos (fst q * snd q)). lra. }
      pose proof (Rabs_pos (fst r * snd r)) as Hp. pose proof (Rabs_pos a) as Hpa.
      assert (Fm : approx (f32_mul (fst kv) (snd kv)) (fst r * snd r) (M * uu)).
      { exists (rnd32 (fst r * snd r)). split.
        - apply mul_fin; [exact F1|exact F2|]. apply (small_bpow k); [lia|lra].
        - apply rnd_err; [lia|lra]. }
      assert (Fa : approx (f32_add acc (f32_mul (fst kv) (snd kv))) (a + fst r * snd r) (e + 3 * M * uu)).
      { assert (Hi : 0 <= INR (length rs) * (3 * M * uu)) by (apply Rmult_le_pos; lra).
        assert (Hmu2 : M * uu <= M / 2) by (unfold uu; lra).
        apply (ap_add (k + 1) _ _ _ _ e (M * uu)); [exact Ha|exact Fm|lia| |].
        - rewrite M_succ. pose proof (Rabs_triang a (fst r * snd r)). lra.
        - rewrite M_succ. lra. }
      specialize (IH _ _ _ (T + Rabs (fst r * snd r)) Fa).
      assert (HT' : Rabs (a + fst r * snd r) <= T + Rabs (fst r * snd r)) by (pose proof (Rabs_triang a (fst r * snd r)); lra).
      specialize (IH HT' ltac:(lra) ltac:(lra)).
      eapply ap_weaken; [eapply ap_eq; [exact IH|ring]|lra].
  Qed.
End Dot.

(** For any taps, any finite samples: if the absolute products sum up to at most 2^k, the computed sample is finite and
    within 3 * (number of taps) * 2^k / 2^25 of the real correlation. *)
Theorem C72_accuracy (taps : list tap) (rt : list (R * Z * Z)) (img out : image f32) v x y c k :
  correlates taps img out -> Forall2 reads taps rt -> real_image img v ->
  inside img x y -> 0 <= c < channels (info_of img) -> 0 <= k <= 90 -> len taps <= 2 ^ 22 ->
  (real_correlation (map (fun '(w, dx, dy) => (Rabs w, dx, dy)) rt) (info_of img) (fun x y c => Rabs (v x y c)) x y c <= IZR (2 ^ k))%R ->
  exists r, fin (value out x y c) r
    /\ (Rabs (r - real_correlation rt (info_of img) v x y c) <= 3 * IZR (len taps) * IZR (2 ^ k) / 33554432)%R.
Proof.
  intros (_ & _ & HC) HR HV Hin Hc Hk Hn HS. rewrite (HC x y c Hin Hc). unfold correlation, weighted_sum.
  set (W := width (info_of img)) in *. set (Ht := height (info_of img)) in *.
  set (rs := map (fun '(w, dx, dy) => (w, v (padded W x dx) (padded Ht y dy) c)) rt).
  assert (Hlen : length rs = length taps) by (unfold rs; rewrite map_length; symmetry; apply (Forall2_len _ _ _ HR)).
  pose proof (M_pos k Hk) as HM.
  assert (Hin' : forall dx dy, inside img (padded W x dx) (padded Ht y dy)).
  { intros dx dy. destruct Hin as [? ?]. fold W in H. fold Ht in H0. unfold padded. split; fold W Ht.
    - destruct (Z.leb_spec 0 (x + dx)), (Z.ltb_spec (x + dx) W); cbn [andb]; lia.
    - destruct (Z.leb_spec 0 (y + dy)), (Z.ltb_spec (y + dy) Ht); cbn [andb]; lia. }
  assert (F : Forall2 (fun (kv : f32 * f32) (r : R * R) => fin (fst kv) (fst r) /\ fin (snd kv) (snd r))
     (map (fun '(k, dx, dy) => (k, value img (padded W x dx) (padded Ht y dy) c)) taps) rs).
  { unfold rs. clear - HR HV Hin' Hc. induction HR as [|[[w dx] dy] [[w' dx'] dy'] taps rt (F1 & E1 & E2) HR IH]; [constructor|].
    cbn [map]. constructor; [|exact IH]. cbn [fst snd] in *. subst dx' dy'. split; [exact F1|]. apply HV; [apply Hin'|exact Hc]. }
  assert (S1 : sum_over rs (fun r => Rabs (fst r * snd r))%R
     = real_correlation (map (fun '(w, dx, dy) => (Rabs w, dx, dy)) rt) (info_of img) (fun x y c => Rabs (v x y c)) x y c).
  { unfold real_correlation, rs. rewrite !sum_map. apply sum_ext. intros [[w dx] dy] _. cbn [fst snd]. apply Rabs_mult. }
  assert (S2 : sum_over rs (fun r => fst r * snd r)%R = real_correlation rt (info_of img) v x y c).
  { unfold real_correlation, rs. rewrite sum_map. apply sum_ext. intros [[w dx] dy] _. reflexivity. }
  assert (Hl : INR (length rs) = IZR (len taps)) by (rewrite Hlen, INR_IZR_INZ; reflexivity).
  assert (Hnr : (IZR (len taps) <= 4194304)%R) by (apply IZR_le; lia).
  assert (Hn0 : (0 <= IZR (len taps))%R) by (apply IZR_le; unfold len; lia).
  assert (A0 : approx f32_0 0 0) by (apply fin_ap; apply isZ_0).
  destruct (dot_acc k Hk _ rs f32_0 0%R 0%R 0%R F A0) as [r [Fr Hr]].
  - rewrite Rabs_R0. lra.
  - rewrite S1. lra.
  - rewrite Hl. unfold uu. assert (IZR (len taps) * (3 * IZR (2 ^ k) * / 33554432) <= 4194304 * (3 * IZR (2 ^ k) * / 33554432))%R; [|lra].
    apply Rmult_le_compat_r; [|exact Hnr]. lra.
  - exists r. split; [exact Fr|]. rewrite S2 in Hr. rewrite Hl, Rplus_0_l, Rplus_0_l in Hr. unfold uu in Hr. lra.
Qed.

(** ** averages *)
(** the float weight is the real weight up to one rounding *)
Definition near (t : tap) (r : R * Z * Z) : Prop :=
  (0 <= fst (fst r))%R /\ fin (fst (fst t)) (B2R (fst (fst t)))
  /\ (Rabs (B2R (fst (fst t)) - fst (fst r)) <= fst (fst r) / 16777216)%R /\ snd (fst t) = snd (fst r) /\ snd t = snd r.

Lemma in_pad (img : image f32) x y dx dy : inside img x y ->
  inside img (padded (width (info_of img)) x dx) (padded (height (info_of img)) y dy).
Proof. intros [Hx Hy]. split; apply padded_range; assumption. Qed.

Lemma avg_acc (taps : list tap) (tw : list (R * Z * Z)) (img out : image f32) u v x y c e B k :
  correlates taps img out -> Forall2 near taps tw -> real_image img u ->
  inside img x y -> 0 <= c < channels (info_of img) -> 0 <= k <= 90 -> len taps <= 2 ^ 22 ->
  (sum_over tw (fun r => fst (fst r)) <= 1)%R -> (0 <= B)%R -> (0 <= e)%R ->
  (forall x y, inside img x y -> Rabs (u x y c) <= B)%R -> (B * (1 + / 16777216) <= IZR (2 ^ k))%R ->
  (forall x y, inside img x y -> Rabs (u x y c - v x y c) <= e)%R ->
  exists r, fin (value out x y c) r
    /\ (Rabs (r - real_correlation tw (info_of img) v x y c) <= 3 * IZR (len taps) * IZR (2 ^ k) / 33554432 + (B / 16777216 + e))%R.
Proof.
  intros HC HN HU Hin Hc Hk Hn Hw HB He Hu HBk Huv.
  set (rt := map (fun t : tap => (B2R (fst (fst t)), snd (fst t), snd t)) taps).
  assert (HR : Forall2 reads taps rt).
  { unfold rt. clear - HN. induction HN as [|t r taps tw (H0 & F & _ & E1 & E2) HN IH]; [constructor|].
    cbn [map]. constructor; [|exact IH]. split; [exact F|]. cbn [fst snd]. split; reflexivity. }
  assert (Habs : (real_correlation (map (fun '(w, dx, dy) => (Rabs w, dx, dy)) rt) (info_of img) (fun x y c => Rabs (u x y c)) x y c
      <= sum_over tw (fun r => fst (fst r)) * (B * (1 + / 16777216)))%R).
  { unfold rt, real_correlation. rewrite !sum_map. clear - HN Hin Hu HB. induction HN as [|t r taps tw (H0 & F & H1 & E1 & E2) HN IH].
    - unfold sum_over. cbn [fold_right]. lra.
    - unfold sum_over in *. cbn [fold_right]. rewrite Rmult_plus_distr_r. apply Rplus_le_compat; [|exact IH].
      destruct t as [[w dx] dy], r as [[w' dx'] dy']. cbn [fst snd] in *.
      assert (Hq : (Rabs (B2R w) <= w' * (1 + / 16777216))%R).
      { replace (B2R w) with ((B2R w - w') + w')%R by ring. eapply Rle_trans; [apply Rabs_triang|]. rewrite (Rabs_pos_eq w' H0). lra. }
      eapply Rle_trans; [apply Rmult_le_compat; [apply Rabs_pos|apply Rabs_pos|exact Hq|apply Hu; apply in_pad; exact Hin]|]. lra. }
  assert (Hdiff : (Rabs (real_correlation rt (info_of img) u x y c - real_correlation tw (info_of img) v x y c)
      <= sum_over tw (fun r => fst (fst r)) * (B / 16777216 + e))%R).
  { unfold rt, real_correlation. rewrite !sum_map. clear - HN Hin Hu Huv HB He. induction HN as [|t r taps tw (H0 & F & H1 & E1 & E2) HN IH].
    - unfold sum_over. cbn [fold_right]. rewrite Rminus_0_r, Rabs_R0. lra.
    - unfold sum_over in *. cbn [fold_right]. rewrite Rmult_plus_distr_r.
      destruct t as [[w dx] dy], r as [[w' dx'] dy']. cbn [fst snd] in *. subst dx' dy'.
      match goal with |- (Rabs (?a + ?S - (?b + ?T)) <= _)%R => replace (a + S - (b + T))%R with ((a - b) + (S - T))%R by ring end.
      eapply Rle_trans; [apply Rabs_triang|]. apply Rplus_le_compat; [|exact IH].
      set (X := padded (width (info_of img)) x dx). set (Y := padded (height (info_of img)) y dy).
      assert (Hi : inside img X Y) by (apply in_pad; exact Hin). pose proof (Hu X Y Hi) as Hu1. pose proof (Huv X Y Hi) as Hu2.
      replace (B2R w * u X Y c - w' * v X Y c)%R with ((B2R w - w') * u X Y c + w' * (u X Y c - v X Y c))%R by ring.
      eapply Rle_trans; [apply Rabs_triang|]. rewrite !Rabs_mult, (Rabs_pos_eq w' H0).
      assert (Rabs (B2R w - w') * Rabs (u X Y c) <= w' / 16777216 * B)%R by (apply Rmult_le_compat; auto using Rabs_pos).
      assert (w' * Rabs (u X Y c - v X Y c) <= w' * e)%R by (apply Rmult_le_compat_l; auto). lra. }
  assert (HB' : (0 <= B * (1 + / 16777216))%R) by lra.
  destruct (C72_accuracy taps rt img out u x y c k HC HR HU Hin Hc Hk Hn) as [r [Fr Hr]].
  - eapply Rle_trans; [exact Habs|]. eapply Rle_trans; [apply Rmult_le_compat_r; [exact HB'|exact Hw]|]. lra.
  - exists r. split; [exact Fr|].
    replace (r - real_correlation tw (info_of img) v x y c)%R with ((r - real_correlation rt (info_of img) u x y c)
      + (real_correlation rt (info_of img) u x y c - real_correlation tw (info_of img) v x y c))%R by ring.
    eapply Rle_trans; [apply Rabs_triang|]. apply Rplus_le_compat; [exact Hr|]. eapply Rle_trans; [exact Hdiff|].
    assert (0 <= B / 16777216 + e)%R by lra. eapply Rle_trans; [apply Rmult_le_compat_r; [assumption|exact Hw]|]. lra.
Qed.

(** quotients of integers have a small relative error *)
Lemma quotient_near a s : 0 <= a <= 2 ^ 24 -> 0 < s <= 2 ^ 24 ->
  fin (f32_div (f32_of_Z a) (f32_of_Z s)) (rnd32 (IZR a / IZR s))
  /\ (Rabs (rnd32 (IZR a / IZR s) - IZR a / IZR s) <= (IZR a / IZR s) / 16777216)%R.
Proof.
  intros Ha Hs. assert (Hs' : (0 < IZR s <= 16777216)%R) by (split; [apply IZR_lt; lia|apply IZR_le; lia]).
  assert (Ha' : (0 <= IZR a <= 16777216)%R) by (split; apply IZR_le; lia).
  assert (Hq : (0 <= IZR a / IZR s <= 16777216)%R).
  { split; [apply Rmult_le_pos; [lra|apply Rlt_le, Rinv_0_lt_compat; lra]|].
    apply (Rmult_le_reg_r (IZR s)); [lra|]. unfold Rdiv. rewrite Rmult_assoc, Rinv_l by lra.
    destruct (Z.eq_dec s 1) as [->|]; [lra|]. assert (1 <= IZR s)%R by (apply IZR_le; lia). nra. }
  split.
  - apply div_fin; [apply of_Z_isZ; lia|apply of_Z_isZ; lia|lra|]. rewrite Rabs_pos_eq by lra.
    apply Rle_trans with (1 := proj2 Hq). change 16777216%R with (bpow radix2 24). apply bpow_le. lia.
  - destruct (Z.eq_dec a 0) as [->|Hne].
    + replace (0 / IZR s)%R with 0%R by (field; lra). unfold rnd32. rewrite (rnd_Z 0) by (cbn; lia). rewrite Rminus_0_r, Rabs_R0. lra.
    + pose proof (rel_err (IZR a / IZR s)) as E. rewrite (Rabs_pos_eq (IZR a / IZR s)) in E by lra.
      replace (IZR a / IZR s / 16777216)%R with (bpow radix2 (-24) * (IZR a / IZR s))%R by (cbn; lra). apply E.
      apply Rle_trans with (bpow radix2 (-24)); [apply bpow_le; lia|]. apply (Rmult_le_reg_r (IZR s)); [lra|].
      unfold Rdiv. rewrite Rmult_assoc, Rinv_l by lra. assert (1 <= IZR a)%R by (apply IZR_le; lia). cbn. nra.
Qed.

Lemma sum_shift a b (f : Z -> R) : sum_over (zrange a b) f = sum_over (zrange 0 (b - a)) (fun i => f (a + i)).
Proof. rewrite zrange_shift, sum_map. reflexivity. Qed.
Lemma sum_swap {A B} (l : list A) (m : list B) (f : A -> B -> R) :
  sum_over l (fun a => sum_over m (f a)) = sum_over m (fun b => sum_over l (fun a => f a b)).
Proof.
  induction l as [|a l IH].
  - change (0 = sum_over m (fun _ : B => 0%R))%R. rewrite sum_const. lra.
  - change (sum_over (a :: l) (fun a => sum_over m (f a))) with (sum_over m (f a) + sum_over l (fun a => sum_over m (f a)))%R.
    rewrite IH, <- sum_plus. reflexivity.
Qed.
(** a row-major sum is a double sum *)
Lemma sum_grid s n (f : Z -> Z -> R) : 0 < s -> 0 <= n ->
  sum_over (zrange 0 (n * s)) (fun i => f (i mod s) (i / s)) = sum_over (zrange 0 n) (fun b => sum_over (zrange 0 s) (fun a => f a b)).
Proof.
  intros Hs Hn. revert n Hn. apply (natlike_ind (fun n => sum_over (zrange 0 (n * s)) (fun i => f (i mod s) (i / s))
    = sum_over (zrange 0 n) (fun b => sum_over (zrange 0 s) (fun a => f a b)))); [reflexivity|].
  intros n Hn IH. unfold Z.succ. rewrite (zrange_snoc 0 n) by lia. rewrite sum_app, <- IH.
  rewrite (zrange_app 0 (n * s) ((n + 1) * s)) by nia. rewrite sum_app. f_equal.
  rewrite sum_shift. replace ((n + 1) * s - n * s) with s by ring.
  change (sum_over [n] (fun b => sum_over (zrange 0 s) (fun a => f a b))) with (sum_over (zrange 0 s) (fun a => f a n) + 0)%R.
  rewrite Rplus_0_r. apply sum_ext. intros i Hi. apply in_zrange in Hi.
  rewrite Z.add_comm, Z_mod_plus_full, Z_div_plus_full by lia. rewrite Z.mod_small, Z.div_small by lia. reflexivity.
Qed.
Lemma sum_delta a n j (f : Z -> R) : a <= j < n -> sum_over (zrange a n) (fun i => if i =? j then f i else 0%R) = f j.
Proof.
  intros Hj. rewrite (zrange_app a j n), sum_app by lia. rewrite (zrange_cons j n) by lia.
  rewrite (sum_ext (zrange a j) _ (fun _ => 0%R)).
  2:{ intros i Hi. apply in_zrange in Hi. destruct (Z.eqb_spec i j); [lia|reflexivity]. }
  change (sum_over (j :: zrange (j + 1) n) (fun i => if i =? j then f i else 0%R))
    with ((if j =? j then f j else 0%R) + sum_over (zrange (j + 1) n) (fun i => if i =? j then f i else 0%R))%R.
  rewrite (sum_ext (zrange (j + 1) n) _ (fun _ => 0%R)).
  2:{ intros i Hi. apply in_zrange in Hi. destruct (Z.eqb_spec i j); [lia|reflexivity]. }
  rewrite !sum_const, Z.eqb_refl. lra.
Qed.

Lemma padded_0 b x : padded b x 0 = x.
Proof. unfold padded. rewrite Z.add_0_r. destruct (_ && _); reflexivity. Qed.

(** a grid average whose centre has weight w and whose other cells have weight 1, divided by S *)
Lemma centre_sum s (w S : R) (V : Z -> Z -> R) : 0 < s -> (S <> 0)%R ->
  sum_over (zrange 0 (s * s)) (fun i => ((if ((i / s =? s / 2) && (i mod s =? s / 2))%Z then w / S else 1 / S)%R * V (i mod s)%Z (i / s)%Z)%R)
  = ((sum_over (zrange 0 s) (fun b => sum_over (zrange 0 s) (fun a => V a b)) + (w - 1) * V (s / 2)%Z (s / 2)%Z) / S)%R.
Proof.
  intros Hs HS. assert (Hh : 0 <= s / 2 < s) by (split; [apply Z.div_pos; lia|apply Z.div_lt; lia]).
  rewrite (sum_grid s s (fun a b => ((if ((b =? s / 2) && (a =? s / 2))%Z then w / S else 1 / S) * V a b)%R)) by lia.
  rewrite (sum_ext _ _ (fun b => (/ S * sum_over (zrange 0 s) (fun a => V a b)
     + (if (b =? s / 2)%Z then (w - 1) / S * V (s / 2)%Z b else 0))%R)).
  2:{ intros b Hb. destruct (b =? s / 2) eqn:Eb; cbn [andb].
      - rewrite (sum_ext _ _ (fun a => (/ S * V a b + (if (a =? s / 2)%Z then (w - 1) / S * V a b else 0))%R)).
        2:{ intros a Ha. destruct (a =? s / 2); field; exact HS. }
        rewrite sum_plus, sum_scale, (sum_delta 0 s (s / 2) (fun a => ((w - 1) / S * V a b)%R)) by lia. reflexivity.
      - rewrite (sum_ext _ _ (fun a => (/ S * V a b)%R)) by (intros a Ha; field; exact HS). rewrite sum_scale. lra. }
  rewrite sum_plus, sum_scale. rewrite (sum_delta 0 s (s / 2) (fun b => ((w - 1) / S * V (s / 2)%Z b)%R)) by lia. field. exact HS.
Qed.

Lemma window_grid h s inf (v : Z -> Z -> Z -> R) x y c : s = 2 * h + 1 ->
  sum_over (zrange 0 s) (fun b => sum_over (zrange 0 s) (fun a =>
     v (padded (width inf) x (a - h)) (padded (height inf) y (b - h)) c)) = window_sum h inf v x y c.
Proof.
  intros Hs. unfold window_sum. rewrite (sum_shift (- h) (h + 1)). replace (h + 1 - - h) with s by lia.
  apply sum_ext. intros b _. rewrite (sum_shift (- h) (h + 1)). replace (h + 1 - - h) with s by lia.
  apply sum_ext. intros a _. replace (- h + a) with (a - h) by lia. replace (- h + b) with (b - h) by lia. reflexivity.
Qed.

Lemma odd_half s : Z.odd s = true -> s = 2 * (s / 2) + 1.
Proof. intros Ho. rewrite (Z.div_mod s 2) at 1 by lia. rewrite Zmod_odd, Ho. lia. Qed.

(** weighted_avg_filter gives the weighted mean of the square window of side size around each pixel, the centre counted
    w times, to within size^2 / 25000 for samples between 0 and 255 *)
Theorem C72_weighted_avg p b (img : image f32) sz w v x y c :
  wf img -> small (info_of img) -> scheduled b (info_of img) ->
  0 <= sz -> Z.odd sz = true -> sz * sz <= 2 ^ 22 -> 0 <= w -> 1 <= sz * sz - 1 + w <= 2 ^ 24 ->
  real_image img v -> (forall x y, inside img x y -> 0 <= v x y c <= 255)%R ->
  inside img x y -> 0 <= c < channels (info_of img) ->
  exists out r, weighted_avg_filter p b img sz w = Ret out /\ info_of out = info_of img /\ fin (value out x y c) r
    /\ (Rabs (r - (window_sum (sz / 2)%Z (info_of img) v x y c + (IZR w - 1) * v x y c) / IZR (sz * sz - 1 + w)%Z)
         <= IZR (sz * sz) / 25000)%R.
Proof.
  intros Hwf Hsm Hb H0 Ho Hmax Hw HS HV Hv Hin Hc. pose proof (odd_half sz Ho) as Hodd.
  assert (Hs0 : 0 < sz) by (assert (0 <= sz / 2) by (apply Z.div_pos; lia); lia).
  destruct (C50_weighted_avg_filter p b img sz w Hwf Hsm Hb H0 ltac:(lia) Hw ltac:(unfold u32_max; lia)) as [_ HK].
  destruct (HK Ho) as (k & out & E & Hlen & HC & Hwt). clear HK. cbn beta zeta in Hwt.
  set (SS := sz * sz - 1 + w) in *.
  set (tw := map (fun i => ((if (i / sz =? sz / 2) && (i mod sz =? sz / 2) then (IZR w / IZR SS)%R else (1 / IZR SS)%R),
     i mod sz - sz / 2, i / sz - sz / 2)) (zrange 0 (sz * sz))).
  assert (HSr : (1 <= IZR SS)%R) by (apply IZR_le; lia).
  assert (HN : Forall2 near (square sz k) tw).
  { unfold square, tw. assert (Hall : forall i, In i (zrange 0 (sz * sz)) -> 0 <= i < sz * sz) by (intros i Hi; apply in_zrange in Hi; lia).
    induction (zrange 0 (sz * sz)) as [|i l IH]; [constructor|]. cbn [map]. constructor; [|apply IH; intros; apply Hall; right; assumption].
    pose proof (Hall i (or_introl eq_refl)) as Hi. pose proof (Z.mod_pos_bound i sz Hs0) as Hm.
    assert (Hd : 0 <= i / sz < sz) by (split; [apply Z.div_pos; lia|apply Z.div_lt_upper_bound; lia]).
    pose proof (Hwt (i / sz) (i mod sz) Hd Hm) as Hwi.
    replace (i / sz * sz + i mod sz) with i in Hwi by (pose proof (Z.div_mod i sz ltac:(lia)); nia).
    unfold near. cbn [fst snd]. rewrite Hwi.
    destruct ((i / sz =? sz / 2) && (i mod sz =? sz / 2)).
    - destruct (quotient_near w SS ltac:(unfold SS in *; nia) ltac:(lia)) as [F Hq]. pose proof F as [Fb Ff]. rewrite Ff.
      split; [apply Rmult_le_pos; [apply IZR_le; lia|apply Rlt_le, Rinv_0_lt_compat; lra]|].
      split; [exact F|]. split; [exact Hq|split; reflexivity].
    - destruct (quotient_near 1 SS ltac:(lia) ltac:(lia)) as [F Hq]. pose proof F as [Fb Ff]. change f32_1 with (f32_of_Z 1). rewrite Ff.
      split; [apply Rmult_le_pos; [lra|apply Rlt_le, Rinv_0_lt_compat; lra]|].
      split; [exact F|]. split; [exact Hq|split; reflexivity]. }
  assert (Hsum : sum_over tw (fun r => fst (fst r)) = 1%R).
  { unfold tw. rewrite sum_map. cbn [fst].
    rewrite (sum_ext _ _ (fun i => ((if ((i / sz =? sz / 2) && (i mod sz =? sz / 2))%Z then IZR w / IZR SS else 1 / IZR SS) * 1)%R)).
    2:{ intros; ring. }
    rewrite (centre_sum sz (IZR w) (IZR SS) (fun _ _ => 1%R)) by lra || lia.
    rewrite (sum_ext _ _ (fun _ => (IZR sz)%R)).
    2:{ intros i _. rewrite sum_const, zrange_length, INR_IZR_INZ, Z2Nat.id by lia. rewrite Z.sub_0_r. ring. }
    rewrite sum_const, zrange_length, INR_IZR_INZ, Z2Nat.id by lia. rewrite Z.sub_0_r.
    unfold SS. rewrite plus_IZR, minus_IZR, mult_IZR. field. rewrite <- mult_IZR, <- minus_IZR, <- plus_IZR. fold SS. lra. }
  assert (Hcor : real_correlation tw (info_of img) v x y c
      = ((window_sum (sz / 2)%Z (info_of img) v x y c + (IZR w - 1) * v x y c) / IZR SS)%R).
  { unfold real_correlation, tw. rewrite sum_map.
    rewrite (centre_sum sz (IZR w) (IZR SS) (fun a b => v (padded (width (info_of img)) x (a - sz / 2)) (padded (height (info_of img)) y (b - sz / 2)) c))
      by lra || lia.
    rewrite (window_grid (sz / 2) sz) by exact Hodd. rewrite Z.sub_diag, !padded_0. reflexivity. }
  assert (Hlt : len (square sz k) = sz * sz) by (unfold square; rewrite len_map, len_zrange; lia).
  destruct (avg_acc (square sz k) tw img out v v x y c 0 255 8 HC HN HV Hin Hc ltac:(lia) ltac:(lia)) as [r [Fr Hr]].
  - rewrite Hsum. lra.
  - lra.
  - lra.
  - intros x' y' Hi. apply Rabs_le. pose proof (Hv x' y' Hi). lra.
  - change (2 ^ 8) with 256. lra.
  - intros x' y' Hi. rewrite Rminus_diag_eq, Rabs_R0 by reflexivity. lra.
  - exists out, r. split; [exact E|]. split; [exact (proj1 HC)|]. split; [exact Fr|]. rewrite <- Hcor.
    eapply Rle_trans; [exact Hr|]. rewrite Hlt. change (2 ^ 8) with 256. assert (1 <= IZR (sz * sz))%R by (apply IZR_le; nia). lra.
Qed.

Lemma line_sum (n h : Z) (f : Z -> R) : n = 2 * h + 1 ->
  sum_over (zrange 0 n) (fun i => f (i - h)) = sum_over (zrange (- h) (h + 1)) f.
Proof.
  intros Hn. rewrite (sum_shift (- h) (h + 1)). replace (h + 1 - - h) with n by lia. apply sum_ext. intros i _. f_equal. lia.
Qed.

(** box_filter(size) gives the mean of the square window of side size^2 (not size) around each pixel, to within
    size^2 / 12000 for samples between 0 and 255 *)
Theorem C72_box_filter p b (img : image f32) sz v x y c :
  wf img -> small (info_of img) -> scheduled b (info_of img) -> 0 <= sz <= 127 -> Z.odd sz = true ->
  real_image img v -> (forall x y c, inside img x y -> 0 <= c < channels (info_of img) -> (0 <= v x y c <= 255)%R) ->
  inside img x y -> 0 <= c < channels (info_of img) ->
  exists out r, box_filter p b img sz = Ret out /\ info_of out = info_of img /\ fin (value out x y c) r
    /\ (Rabs (r - window_sum (sz * sz / 2)%Z (info_of img) v x y c / IZR (sz * sz * (sz * sz))) <= IZR (sz * sz) / 12000)%R.
Proof.
  intros Hwf Hsm Hb H0 Ho HV Hv Hin Hc. pose proof (odd_half sz Ho) as Hodd.
  assert (Hs0 : 0 < sz) by (assert (0 <= sz / 2) by (apply Z.div_pos; lia); lia).
  destruct (C51_box_filter p b img sz Hwf Hsm Hb ltac:(lia) ltac:(nia)) as [_ HK].
  destruct (HK Ho) as (k & mid & out & E & Hlen & Hwt & HC1 & HC2). clear HK.
  set (n := sz * sz) in *. assert (Hn : 1 <= n <= 16384) by (unfold n; nia).
  assert (Hno : n = 2 * (n / 2) + 1) by (apply odd_half; unfold n; rewrite Z.odd_mul, Ho; reflexivity).
  assert (Hnr : (1 <= IZR n <= 16384)%R) by (split; apply IZR_le; lia).
  set (cw := map (fun i => ((1 / IZR n)%R, 0, i - n / 2)) (zrange 0 n)).
  set (rw := map (fun i => ((1 / IZR n)%R, i - n / 2, 0)) (zrange 0 n)).
  assert (Hq : forall i, 0 <= i < n -> fin (weight k i) (B2R (weight k i)) /\ (Rabs (B2R (weight k i) - 1 / IZR n) <= 1 / IZR n / 16777216)%R).
  { intros i Hi. rewrite (Hwt i Hi). destruct (quotient_near 1 n ltac:(lia) ltac:(lia)) as [F Hq]. pose proof F as [Fb Ff].
    change f32_1 with (f32_of_Z 1). rewrite Ff. split; [exact F|exact Hq]. }
  assert (Hpos : (0 <= 1 / IZR n)%R) by (apply Rmult_le_pos; [lra|apply Rlt_le, Rinv_0_lt_compat; lra]).
  assert (HN1 : Forall2 near (column k) cw).
  { unfold column, cw. rewrite Hlen. assert (Hall : forall i, In i (zrange 0 n) -> 0 <= i < n) by (intros i Hi; apply in_zrange in Hi; lia).
    clear - Hall Hq Hpos. induction (zrange 0 n) as [|i l IH]; [constructor|]. cbn [map]. constructor; [|apply IH; intros; apply Hall; right; assumption].
    destruct (Hq i (Hall i (or_introl eq_refl))) as [F Hd]. unfold near. cbn [fst snd]. repeat split; try exact F; auto. apply F. }
  assert (HN2 : Forall2 near (row k) rw).
  { unfold row, rw. rewrite Hlen. assert (Hall : forall i, In i (zrange 0 n) -> 0 <= i < n) by (intros i Hi; apply in_zrange in Hi; lia).
    clear - Hall Hq Hpos. induction (zrange 0 n) as [|i l IH]; [constructor|]. cbn [map]. constructor; [|apply IH; intros; apply Hall; right; assumption].
    destruct (Hq i (Hall i (or_introl eq_refl))) as [F Hd]. unfold near. cbn [fst snd]. repeat split; try exact F; auto. apply F. }
  assert (Hunit : (INR (length (zrange 0 n)) * (1 / IZR n) = 1)%R).
  { rewrite zrange_length, INR_IZR_INZ, Z2Nat.id by lia. rewrite Z.sub_0_r. field. lra. }
  assert (Hsum1 : sum_over cw (fun r => fst (fst r)) = 1%R) by (unfold cw; rewrite sum_map; cbn [fst]; rewrite sum_const; exact Hunit).
  assert (Hsum2 : sum_over rw (fun r => fst (fst r)) = 1%R) by (unfold rw; rewrite sum_map; cbn [fst]; rewrite sum_const; exact Hunit).
  assert (Hl1 : len (column k) = n) by (unfold column; rewrite len_map, len_zrange; lia).
  assert (Hl2 : len (row k) = n) by (unfold row; rewrite len_map, len_zrange; lia).
  (* the columns *)
  set (u := fun x y c => real_correlation cw (info_of img) v x y c).
  set (e1 := (IZR n / 25000)%R).
  assert (Hmid : forall x y c, inside img x y -> 0 <= c < channels (info_of img) -> exists r, fin (value mid x y c) r /\ (Rabs (r - u x y c) <= e1)%R).
  { intros x' y' c' Hi' Hc'.
    destruct (avg_acc (column k) cw img mid v v x' y' c' 0 255 8 HC1 HN1 HV Hi' Hc' ltac:(lia) ltac:(lia)) as [r [Fr Hr]].
    - rewrite Hsum1. lra.
    - lra.
    - lra.
    - intros a d Hi. apply Rabs_le. pose proof (Hv a d c' Hi Hc'). lra.
    - change (2 ^ 8) with 256. lra.
    - intros a d Hi. rewrite Rminus_diag_eq, Rabs_R0 by reflexivity. lra.
    - exists r. split; [exact Fr|]. eapply Rle_trans; [exact Hr|]. rewrite Hl1. change (2 ^ 8) with 256. unfold e1. lra. }
  assert (Hub : forall x y, inside img x y -> (0 <= u x y c <= 255)%R).
  { intros a d Hi. unfold u, real_correlation, cw. rewrite sum_map. rewrite sum_scale.
    assert (Hin' : forall j, inside img (padded (width (info_of img)) a 0) (padded (height (info_of img)) d j)) by (intros; apply in_pad; exact Hi).
    split.
    - apply Rmult_le_pos; [exact Hpos|]. apply Rle_trans with (sum_over (zrange 0 n) (fun _ => 0%R)); [rewrite sum_const; lra|].
      apply sum_le. intros i _. apply (Hv _ _ c (Hin' _) Hc).
    - apply Rle_trans with (1 / IZR n * sum_over (zrange 0 n) (fun _ => 255%R))%R.
      + apply Rmult_le_compat_l; [exact Hpos|]. apply sum_le. intros i _. apply (Hv _ _ c (Hin' _) Hc).
      + rewrite sum_const. assert (H1 : (1 / IZR n * (INR (length (zrange 0 n)) * 255) = (INR (length (zrange 0 n)) * (1 / IZR n)) * 255)%R) by ring.
        rewrite H1, Hunit. lra. }
  destruct HC2 as [Hi2 HC2]. pose proof (proj1 HC1) as Hi1.
  set (m := fun x y c => B2R (value mid x y c)).
  assert (HM : real_image mid m).
  { intros a d c' Hi Hc'. rewrite Hi1 in Hc'. assert (Hi' : inside img a d) by (unfold inside in *; rewrite Hi1 in Hi; exact Hi).
    destruct (Hmid a d c' Hi' Hc') as [r [[F1 F2] _]]. split; [exact F1|reflexivity]. }
  assert (Hmu : forall a d, inside mid a d -> (Rabs (m a d c - u a d c) <= e1)%R).
  { intros a d Hi. assert (Hi' : inside img a d) by (unfold inside in *; rewrite Hi1 in Hi; exact Hi).
    destruct (Hmid a d c Hi' Hc) as [r [[F1 F2] Hr]]. unfold m. rewrite F2. exact Hr. }
  assert (He1 : (0 <= e1 <= 0.66)%R) by (unfold e1; lra).
  destruct (avg_acc (row k) rw mid out m u x y c e1 255.66 8 (conj Hi2 HC2) HN2 HM) as [r [Fr Hr]].
  - unfold inside in *. rewrite Hi1. exact Hin.
  - rewrite Hi1. exact Hc.
  - lia.
  - lia.
  - rewrite Hsum2. lra.
  - lra.
  - lra.
  - intros a d Hi. assert (Hi' : inside img a d) by (unfold inside in *; rewrite Hi1 in Hi; exact Hi).
    pose proof (Hmu a d Hi) as H1. pose proof (Hub a d Hi') as H2. apply Rabs_le. apply Rabs_bd in H1. lra.
  - change (2 ^ 8) with 256. lra.
  - exact Hmu.
  - exists out, r. split; [exact E|]. split; [congruence|]. split; [exact Fr|].
    assert (Hw : real_correlation rw (info_of mid) u x y c = (window_sum (n / 2)%Z (info_of img) v x y c / IZR (n * n))%R).
    { rewrite Hi1. unfold real_correlation at 1. unfold rw. rewrite sum_map. rewrite sum_scale.
      unfold u, real_correlation, cw.
      rewrite (sum_ext (zrange 0 n) _ (fun a => (1 / IZR n * sum_over (zrange 0 n) (fun b => v (padded (width (info_of img)) x (a - n / 2)%Z) (padded (height (info_of img)) y (b - n / 2)%Z) c))%R)).
      2:{ intros a _. rewrite sum_map, sum_scale. f_equal. apply sum_ext. intros b0 _. rewrite !padded_0. reflexivity. }
      rewrite sum_scale, sum_swap.
      rewrite (window_grid (n / 2) n) by exact Hno. rewrite mult_IZR. field. lra. }
    rewrite Hw in Hr. eapply Rle_trans; [exact Hr|]. rewrite Hl2. change (2 ^ 8) with 256. unfold e1. lra.
Qed.

(** ** translation *)
Lemma padded_inside bnd x d : 0 <= x + d < bnd -> padded bnd x d = x + d.
Proof. intros H. unfold padded. destruct (Z.leb_spec 0 (x + d)), (Z.ltb_spec (x + d) bnd); cbn [andb]; lia. Qed.

Lemma correlates_translated (taps : list tap) (img img' out out' : image f32) x y a d c :
  correlates taps img out -> correlates taps img' out' ->
  (forall k dx dy, In (k, dx, dy) taps -> inside img (x + dx) (y + dy) /\ inside img' (x + a + dx) (y + d + dy)
     /\ value img' (x + a + dx) (y + d + dy) c = value img (x + dx) (y + dy) c) ->
  inside img x y -> inside img' (x + a) (y + d) -> 0 <= c < channels (info_of img) -> 0 <= c < channels (info_of img') ->
  value out' (x + a) (y + d) c = value out x y c.
Proof.
  intros (_ & _ & H1) (_ & _ & H2) HT Hin Hin' Hc Hc'. rewrite (H1 x y c Hin Hc), (H2 _ _ c Hin' Hc').
  unfold correlation. f_equal. apply map_ext_in. intros [[k dx] dy] Ht. destruct (HT k dx dy Ht) as ([I1 I2] & [J1 J2] & E).
  rewrite !padded_inside by assumption. rewrite E. reflexivity.
Qed.

(** the window that a filter looks at decides the result, wherever it lies and whatever the image around it: a tile
    gives in its interior what the whole image gives *)
Theorem C72_unseparable_translation p b n p' b' n' (img img' : image f32) s k x y a d c :
  wf img -> small (info_of img) -> scheduled b (info_of img) ->
  wf img' -> small (info_of img') -> scheduled b' (info_of img') ->
  len k = s * s -> 0 <= s -> Z.odd s = true -> s * s <= 16777216 ->
  (forall dx dy, Z.abs dx <= s / 2 -> Z.abs dy <= s / 2 -> inside img (x + dx) (y + dy) /\ inside img' (x + a + dx) (y + d + dy)
     /\ value img' (x + a + dx) (y + d + dy) c = value img (x + dx) (y + dy) c) ->
  0 <= c < channels (info_of img) -> 0 <= c < channels (info_of img') ->
  exists out out', unseparable_filter p b n img k = Ret out /\ unseparable_filter p' b' n' img' k = Ret out'
    /\ value out' (x + a) (y + d) c = value out x y c.
Proof.
  intros Hwf Hsm Hb Hwf' Hsm' Hb' Hk H0 Ho Hmax HT Hc Hc'. pose proof (odd_half s Ho) as Hodd.
  assert (Hh : 0 <= s / 2) by (apply Z.div_pos; lia).
  destruct (C50_unseparable_filter p b n img s k Hwf Hsm Hk H0 Ho Hmax Hb) as [out [E C]].
  destruct (C50_unseparable_filter p' b' n' img' s k Hwf' Hsm' Hk H0 Ho Hmax Hb') as [out' [E' C']].
  exists out, out'. split; [exact E|]. split; [exact E'|].
  destruct (HT 0 0 ltac:(lia) ltac:(lia)) as (I & J & _). rewrite !Z.add_0_r in *.
  apply (correlates_translated (square s k) img img' out out'); auto.
  intros w dx dy Ht. unfold square in Ht. apply in_map_iff in Ht as [i [Ei Hi]]. apply in_zrange in Hi. injection Ei as _ <- <-.
  pose proof (Z.mod_pos_bound i s ltac:(lia)). assert (0 <= i / s < s) by (split; [apply Z.div_pos; lia|apply Z.div_lt_upper_bound; lia]).
  apply HT; lia.
Qed.

Theorem C72_filter_1d_translation p b n p' b' n' (img img' : image f32) k (is_vert : bool) x y a d c :
  wf img -> small (info_of img) -> scheduled b (info_of img) ->
  wf img' -> small (info_of img') -> scheduled b' (info_of img') ->
  Z.odd (len k) = true -> len k <= 2 ^ 30 ->
  (forall dx dy, Z.abs dx <= (if is_vert then 0 else len k / 2) -> Z.abs dy <= (if is_vert then len k / 2 else 0) ->
     inside img (x + dx) (y + dy) /\ inside img' (x + a + dx) (y + d + dy)
     /\ value img' (x + a + dx) (y + d + dy) c = value img (x + dx) (y + dy) c) ->
  0 <= c < channels (info_of img) -> 0 <= c < channels (info_of img') ->
  exists out out', filter_1d p b n img k is_vert = Ret out /\ filter_1d p' b' n' img' k is_vert = Ret out'
    /\ value out' (x + a) (y + d) c = value out x y c.
Proof.
  intros Hwf Hsm Hb Hwf' Hsm' Hb' Ho Hmax HT Hc Hc'. pose proof (odd_half (len k) Ho) as Hodd. pose proof (len_nonneg k) as Hk0.
  destruct (C50_filter_1d p b n img k is_vert Hwf Hsm Ho Hmax Hb) as [out [E C]].
  destruct (C50_filter_1d p' b' n' img' k is_vert Hwf' Hsm' Ho Hmax Hb') as [out' [E' C']].
  exists out, out'. split; [exact E|]. split; [exact E'|].
  assert (Hh : 0 <= len k / 2) by (apply Z.div_pos; lia).
  destruct (HT 0 0 ltac:(destruct is_vert; lia) ltac:(destruct is_vert; lia)) as (I & J & _). rewrite !Z.add_0_r in *.
  apply (correlates_translated (if is_vert then column k else row k) img img' out out'); auto.
  intros w dx dy Ht. apply HT; destruct is_vert; unfold column, row in Ht; apply in_map_iff in Ht as [i [Ei Hi]]; apply in_zrange in Hi;
    injection Ei as _ <- <-; lia.
Qed.

(** ** a case that meets the hypotheses: a 3x3 image and its weighted mean *)
Definition ex_avg : image f32 := Image (Info 3 3 1 false) (map f32_of_Z [0; 10; 20; 30; 40; 50; 60; 70; 255]).
Lemma ex_avg_real : wf ex_avg /\ real_image ex_avg (fun x y _ => IZR (nth (Z.to_nat (y * 3 + x)) [0; 10; 20; 30; 40; 50; 60; 70; 255] 0)).
Proof.
  split; [apply wfb_wf; reflexivity|]. intros x y c [Hx Hy] Hc. cbn [ex_avg info_of width height channels] in *.
  assert (c = 0) as -> by lia.
  assert (x = 0 \/ x = 1 \/ x = 2) as [->|[->| ->]] by lia; assert (y = 0 \/ y = 1 \/ y = 2) as [->|[->| ->]] by lia;
    apply of_Z_isZ; vm_compute; discriminate.
Qed.
Theorem C72_example p : exists out r, weighted_avg_filter p Seq ex_avg 3 8 = Ret out /\ fin (value out 1 1 0) r
  /\ (Rabs (r - (535 + 7 * 40) / 16) <= 9 / 25000)%R.
Proof.
  destruct ex_avg_real as [Hwf HV].
  destruct (C72_weighted_avg p Seq ex_avg 3 8 (fun x y _ => IZR (nth (Z.to_nat (y * 3 + x)) [0; 10; 20; 30; 40; 50; 60; 70; 255] 0)) 1 1 0 Hwf)
    as (out & r & E & _ & F & H); try (split; cbn; lia); try lia; try exact HV; try reflexivity; try exact I.
  - intros x y [Hx Hy]. cbn [ex_avg info_of width height channels] in *.
    assert (x = 0 \/ x = 1 \/ x = 2) as [->|[->| ->]] by lia; assert (y = 0 \/ y = 1 \/ y = 2) as [->|[->| ->]] by lia;
      split; apply IZR_le; vm_compute; discriminate.
  - exists out, r. split; [exact E|]. split; [exact F|]. clear - H.
    assert (HW : window_sum (3 / 2) (info_of ex_avg) (fun x y _ => IZR (nth (Z.to_nat (y * 3 + x)) [0; 10; 20; 30; 40; 50; 60; 70; 255] 0)) 1 1 0
      = 535%R) by (cbv - [IZR Rplus]; lra).
    rewrite HW in H. change (nth (Z.to_nat (1 * 3 + 1)) [0; 10; 20; 30; 40; 50; 60; 70; 255] 0) with 40 in H.
    change (3 * 3 - 1 + 8) with 16 in H. change (3 * 3) with 9 in H.
    replace ((535 + (8 - 1) * 40) / 16)%R with ((535 + 7 * 40) / 16)%R in H by lra. exact H.
Qed.
