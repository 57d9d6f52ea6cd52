(** * Lemmas on finite sums *)
From Verif.Model Require Import Base Float Image.
From Verif.Spec Require Import ImageS SumS.
From Verif.Proofs Require Import BaseL.
Open Scope Z_scope.

Lemma Zsum_nil f a b : b <= a -> Zsum f a b = 0.
Proof. intros. unfold Zsum. rewrite zrange_nil by assumption. reflexivity. Qed.
Lemma Zsum_cons f a b : a < b -> Zsum f a b = f a + Zsum f (a + 1) b.
Proof. intros. unfold Zsum. rewrite zrange_cons by assumption. reflexivity. Qed.
Lemma fold_add_app l1 l2 : fold_right Z.add 0 (l1 ++ l2) = fold_right Z.add 0 l1 + fold_right Z.add 0 l2.
Proof. induction l1 as [|a l IH]; cbn; [reflexivity|]. rewrite IH. lia. Qed.
Lemma Zsum_app f a b c : a <= b <= c -> Zsum f a c = Zsum f a b + Zsum f b c.
Proof. intros. unfold Zsum. rewrite (zrange_app a b c), map_app, fold_add_app by assumption. reflexivity. Qed.
Lemma Zsum_snoc f a b : a <= b -> Zsum f a (b + 1) = Zsum f a b + f b.
Proof.
  intros. rewrite (Zsum_app f a b (b + 1)) by lia. rewrite (Zsum_cons f b), (Zsum_nil f (b + 1)) by lia. lia.
Qed.
Lemma Zsum_last f a b : a < b -> Zsum f a b = Zsum f a (b - 1) + f (b - 1).
Proof. intros. replace b with (b - 1 + 1) at 1 by lia. apply Zsum_snoc. lia. Qed.
Lemma Zsum_ext f g a b : (forall k, a <= k < b -> f k = g k) -> Zsum f a b = Zsum g a b.
Proof.
  intros H. unfold Zsum. f_equal. apply map_ext_in. intros k Hk. apply H. apply in_zrange. exact Hk.
Qed.
Lemma Zsum_le f g a b : (forall k, a <= k < b -> f k <= g k) -> Zsum f a b <= Zsum g a b.
Proof.
  intros H. unfold Zsum. assert (Hin : forall k, In k (zrange a b) -> f k <= g k) by (intros k Hk; apply H, in_zrange, Hk).
  induction (zrange a b) as [|k l IH]; cbn; [lia|].
  pose proof (Hin k (or_introl eq_refl)). assert (forall k, In k l -> f k <= g k) by (intros; apply Hin; right; assumption).
  specialize (IH H1). lia.
Qed.
Lemma Zsum_zero f a b : (forall k, a <= k < b -> f k = 0) -> Zsum f a b = 0.
Proof.
  intros H. rewrite (Zsum_ext f (fun _ => 0)) by exact H. unfold Zsum. induction (zrange a b); cbn; auto.
Qed.
Lemma Zsum_nonneg f a b : (forall k, a <= k < b -> 0 <= f k) -> 0 <= Zsum f a b.
Proof.
  intros H. rewrite <- (Zsum_zero (fun _ => 0) a b) by reflexivity. apply Zsum_le. exact H.
Qed.
Lemma Zsum_abs f a b : Z.abs (Zsum f a b) <= Zsum (fun k => Z.abs (f k)) a b.
Proof. unfold Zsum. induction (zrange a b) as [|k l IH]; cbn; lia. Qed.
Lemma Zsum_sub f a b a' b' : (forall k, a <= k < b -> 0 <= f k) -> a <= a' -> b' <= b ->
  Zsum f a' b' <= Zsum f a b.
Proof.
  intros H Ha Hb. destruct (Z_le_gt_dec b' a').
  - rewrite (Zsum_nil f a' b') by lia. apply Zsum_nonneg. exact H.
  - rewrite (Zsum_app f a a' b), (Zsum_app f a' b' b) by lia.
    assert (0 <= Zsum f a a') by (apply Zsum_nonneg; intros; apply H; lia).
    assert (0 <= Zsum f b' b) by (apply Zsum_nonneg; intros; apply H; lia). lia.
Qed.
Lemma Zsum_add f g a b : Zsum (fun k => f k + g k) a b = Zsum f a b + Zsum g a b.
Proof. unfold Zsum. induction (zrange a b) as [|k l IH]; cbn; lia. Qed.
Lemma Zsum_const c a b : a <= b -> Zsum (fun _ => c) a b = c * (b - a).
Proof.
  intros H. apply (zrange_ind (fun b => Zsum (fun _ => c) a b = c * (b - a)) a b H).
  - rewrite Zsum_nil by lia. lia.
  - intros k Hk IH. rewrite Zsum_snoc by lia. lia.
Qed.
Lemma Zsum_mul c f a b : Zsum (fun k => c * f k) a b = c * Zsum f a b.
Proof. unfold Zsum. induction (zrange a b) as [|k l IH]; cbn; lia. Qed.
Lemma Zsum_upper f a b m : a <= b -> (forall k, a <= k < b -> f k <= m) -> Zsum f a b <= m * (b - a).
Proof. intros Hab H. rewrite <- (Zsum_const m a b Hab). apply Zsum_le. exact H. Qed.

Lemma Zsum_single f a : Zsum f a (a + 1) = f a.
Proof. rewrite Zsum_cons by lia. rewrite Zsum_nil by lia. lia. Qed.

(** rectangles *)
Lemma rect_ext v w x0 y0 x1 y1 : (forall x y, x0 <= x <= x1 -> y0 <= y <= y1 -> v x y = w x y) ->
  rect_sum v x0 y0 x1 y1 = rect_sum w x0 y0 x1 y1.
Proof. intros H. unfold rect_sum. apply Zsum_ext. intros y Hy. apply Zsum_ext. intros x Hx. apply H; lia. Qed.
Lemma rect_empty_x v x0 y0 x1 y1 : x1 < x0 -> rect_sum v x0 y0 x1 y1 = 0.
Proof. intros H. unfold rect_sum. apply Zsum_zero. intros. apply Zsum_nil. lia. Qed.
Lemma rect_empty_y v x0 y0 x1 y1 : y1 < y0 -> rect_sum v x0 y0 x1 y1 = 0.
Proof. intros H. unfold rect_sum. apply Zsum_nil. lia. Qed.
(** split off columns / rows *)
Lemma rect_split_y v x0 y0 x1 y1 m : y0 <= m + 1 -> m <= y1 ->
  rect_sum v x0 y0 x1 y1 = rect_sum v x0 y0 x1 m + rect_sum v x0 (m + 1) x1 y1.
Proof. intros. unfold rect_sum. apply Zsum_app. lia. Qed.
Lemma rect_split_x v x0 y0 x1 y1 m : x0 <= m + 1 -> m <= x1 ->
  rect_sum v x0 y0 x1 y1 = rect_sum v x0 y0 m y1 + rect_sum v (m + 1) y0 x1 y1.
Proof.
  intros. unfold rect_sum. rewrite <- Zsum_add. apply Zsum_ext. intros y _. apply Zsum_app. lia.
Qed.
Lemma rect_one v x y : rect_sum v x y x y = v x y.
Proof.
  unfold rect_sum. rewrite (Zsum_single (fun y0 => Zsum (fun x0 => v x0 y0) x (x + 1)) y). apply (Zsum_single (fun x0 => v x0 y) x).
Qed.
(** inclusion-exclusion at one cell *)
Lemma rect_step v x y : 0 <= x -> 0 <= y ->
  rect_sum v 0 0 x y = v x y + rect_sum v 0 0 x (y - 1) + rect_sum v 0 0 (x - 1) y - rect_sum v 0 0 (x - 1) (y - 1).
Proof.
  intros Hx Hy. rewrite (rect_split_y v 0 0 x y (y - 1)) by lia.
  replace (y - 1 + 1) with y by lia.
  rewrite (rect_split_x v 0 y x y (x - 1)) by lia. replace (x - 1 + 1) with x by lia. rewrite rect_one.
  rewrite (rect_split_y v 0 0 (x - 1) y (y - 1)) by lia. replace (y - 1 + 1) with y by lia. lia.
Qed.
(** inclusion-exclusion for a rectangle *)
Lemma rect_incl_excl v x0 y0 x1 y1 : 0 <= x0 <= x1 + 1 -> 0 <= y0 <= y1 + 1 ->
  rect_sum v x0 y0 x1 y1
  = rect_sum v 0 0 x1 y1 - rect_sum v 0 0 x1 (y0 - 1) - rect_sum v 0 0 (x0 - 1) y1 + rect_sum v 0 0 (x0 - 1) (y0 - 1).
Proof.
  intros Hx Hy. rewrite (rect_split_y v 0 0 x1 y1 (y0 - 1)) by lia.
  rewrite (rect_split_y v 0 0 (x0 - 1) y1 (y0 - 1)) by lia. replace (y0 - 1 + 1) with y0 by lia.
  rewrite (rect_split_x v 0 y0 x1 y1 (x0 - 1)) by lia. replace (x0 - 1 + 1) with x0 by lia. lia.
Qed.
Lemma rect_abs v x0 y0 x1 y1 : Z.abs (rect_sum v x0 y0 x1 y1) <= rect_sum (fun x y => Z.abs (v x y)) x0 y0 x1 y1.
Proof.
  unfold rect_sum. eapply Z.le_trans; [apply Zsum_abs|]. apply Zsum_le. intros. apply Zsum_abs.
Qed.
Lemma rect_sub v x0 y0 x1 y1 X Y : (forall x y, 0 <= v x y) -> 0 <= x0 -> 0 <= y0 -> x1 <= X -> y1 <= Y ->
  rect_sum v x0 y0 x1 y1 <= rect_sum v 0 0 X Y.
Proof.
  intros H ? ? ? ?. unfold rect_sum.
  apply Z.le_trans with (Zsum (fun y => Zsum (fun x => v x y) x0 (x1 + 1)) 0 (Y + 1)).
  - apply Zsum_sub; try lia. intros. apply Zsum_nonneg. intros. apply H.
  - apply Zsum_le. intros. apply Zsum_sub; try lia. intros. apply H.
Qed.
