(** Lemmas about Model/Trimmed.v: one histogram. *)
From Verif.Model Require Import Base Image Median Trimmed.
From Verif.Spec Require Import ImageS SumS MedianS TrimmedS.
From Verif.Proofs Require Import BaseL ImageL SumL LoopL MedianL MeanL.
Open Scope Z_scope.

Lemma sum_of_app a b : sum_of (a ++ b) = sum_of a + sum_of b.
Proof. induction a as [|x a IH]; cbn in *; [reflexivity|]. unfold sum_of in *. cbn. lia. Qed.
Lemma sum_of_repeat x n : sum_of (repeat x n) = Z.of_nat n * x.
Proof. induction n as [|n IH]; [reflexivity|]. unfold sum_of in *. cbn [repeat fold_right]. rewrite IH. lia. Qed.
Lemma sum_of_rev l : sum_of (rev l) = sum_of l.
Proof. induction l as [|x l IH]; [reflexivity|]. cbn [rev]. rewrite sum_of_app, IH. unfold sum_of. cbn [fold_right]. lia. Qed.
Lemma in_order_snoc f b : 0 <= b -> in_order f (b + 1) = in_order f b ++ repeat b (Z.to_nat (f b)).
Proof. intros H. unfold in_order. rewrite zrange_snoc by exact H. rewrite flat_map_app. cbn [flat_map]. rewrite app_nil_r. reflexivity. Qed.
Lemma in_order_0 f : in_order f 0 = [].
Proof. reflexivity. Qed.
Lemma in_order_lt f b s : In s (in_order f b) -> 0 <= s < b.
Proof.
  unfold in_order. intros H. apply in_flat_map in H as [k [Hk Hs]]. apply repeat_spec in Hs. subst. apply in_zrange in Hk. lia.
Qed.
Lemma in_order_split f b m : 0 <= m <= b -> in_order f b = in_order f m ++ flat_map (fun s => repeat s (Z.to_nat (f s))) (zrange m b).
Proof. intros H. unfold in_order. rewrite (zrange_app 0 m b) by lia. apply flat_map_app. Qed.

Lemma firstn_repeat {A} (x : A) k n : firstn k (repeat x n) = repeat x (Nat.min k n).
Proof. revert n. induction k as [|k IH]; intros [|n]; cbn; [reflexivity..|]. rewrite IH. reflexivity. Qed.
Lemma skipn_repeat {A} (x : A) k n : skipn k (repeat x n) = repeat x (n - k).
Proof. revert n. induction k as [|k IH]; intros [|n]; cbn; [reflexivity..|]. apply IH. Qed.
Lemma rev_repeat {A} (x : A) n : rev (repeat x n) = repeat x n.
Proof.
  induction n as [|n IH]; [reflexivity|]. cbn [repeat rev]. rewrite IH.
  clear IH. induction n as [|n IH]; [reflexivity|]. cbn [repeat app]. rewrite IH. reflexivity.
Qed.
Lemma repeat_snoc {A} (x : A) n : repeat x n ++ [x] = repeat x (S n).
Proof. induction n as [|n IH]; [reflexivity|]. cbn [repeat app]. rewrite IH. reflexivity. Qed.

Lemma skipn_skipn' {A} a b (u : list A) : skipn a (skipn b u) = skipn (b + a) u.
Proof. revert u. induction b as [|b IH]; intros u; [reflexivity|]. destruct u; [cbn; apply skipn_nil|]. cbn. apply IH. Qed.
Lemma upper_arith (t q a lk : Z) (lp : nat) : 0 <= t -> 0 <= a -> t <= q -> Z.of_nat lp = lk -> (q = Z.max t lk \/ (t <= lk /\ q <= lk)) ->
  Nat.min (Z.to_nat t - (lp - Z.to_nat q)) (Z.to_nat a - (Z.to_nat q - lp))
  = Z.to_nat (Z.min (a - Z.min a (Z.max 0 (t - Z.min t lk))) (Z.max 0 (t - Z.min t (Z.max 0 (lk - q))))).
Proof.
  intros Ht Ha Hq El Hcase. apply Nat2Z.inj. rewrite Nat2Z.inj_min, !Nat2Z.inj_sub_max, El.
  rewrite !Z2Nat.id by lia.
  destruct Hcase as [E|[E1 E2]].
  - destruct (Z.le_ge_cases t lk) as [H|H].
    + assert (Eq : q = lk) by lia. rewrite Eq. rewrite (Z.min_l t lk) by exact H. clear. lia.
    + assert (Eq : q = t) by lia. rewrite Eq. rewrite (Z.min_r t lk) by exact H. rewrite (Z.max_r 0 (t - lk)) by lia. rewrite (Z.max_l 0 (lk - t)) by lia. clear - Ht Ha. lia.
  - rewrite (Z.min_l t lk) by exact E1. rewrite (Z.max_r 0 (lk - q)) by lia. clear - Ht Ha E2. lia.
Qed.
Lemma len_cons {A} (x : A) l : len (x :: l) = len l + 1.
Proof. unfold len. cbn [length]. lia. Qed.

Section Hist.
  Context (p : profile) (r nc alpha : Z).
  Hypothesis Hr : 0 <= r < 2 ^ 14.
  Hypothesis Hnc : 0 < nc < 2 ^ 31.
  Hypothesis Hodd : nc mod 2 = 1.
  Notation t := (trim alpha).

  Lemma fill_lower_ok key a : forall lower sum, 0 <= a -> 0 <= key -> 0 <= a * key <= sum -> sum <= hi I32 -> a <= hi I32 ->
    let m := Z.min a (Z.max 0 (t - len lower)) in
    fill_lower p alpha (Z.to_nat a) key lower sum a = Ret (lower ++ repeat key (Z.to_nat m), sum - m * key, a - m).
  Proof.
    intros lower sum Ha. revert lower sum. pattern a. apply natlike_ind; [| |exact Ha]; clear a Ha.
    - intros lower sum Hk H1 H2 H3 m. cbn [Z.to_nat fill_lower]. unfold m.
      replace (Z.min 0 (Z.max 0 (t - len lower))) with 0 by lia. cbn [Z.to_nat repeat]. rewrite app_nil_r. rewrite Z.mul_0_l, !Z.sub_0_r; reflexivity.
    - intros a Ha IH lower sum Hk H1 H2 H3 m. rewrite Z2Nat.inj_succ by exact Ha. cbn [fill_lower].
      destruct (Z.ltb_spec 0 (Z.succ a)); [|lia]. rewrite andb_true_r.
      destruct (Z.ltb_spec (len lower) t) as [Hl|Hl].
      + cbn [lo hi I32] in *. rewrite isub_ok by (cbn [lo hi I32]; nia). rewrite bind_Ret. rewrite isub_ok by (cbn [lo hi I32]; lia). rewrite bind_Ret.
        replace (Z.succ a - 1) with a by lia. rewrite IH by (cbn [lo hi I32]; nia). rewrite len_app. change (len [key]) with 1.
        replace (Z.min a (Z.max 0 (t - (len lower + 1)))) with (m - 1) by (unfold m; lia).
        assert (1 <= m) by (unfold m; lia). f_equal. f_equal; [|lia]. f_equal; [|lia].
        rewrite <- app_assoc. f_equal. replace (Z.to_nat m) with (S (Z.to_nat (m - 1))) by lia. reflexivity.
      + replace m with 0 by (unfold m; lia). cbn [Z.to_nat repeat]. rewrite app_nil_r. rewrite Z.mul_0_l, !Z.sub_0_r; reflexivity.
  Qed.

  Lemma fill_upper_ok key count ut a : forall upper sum, 0 <= a -> 0 <= key -> 0 <= a * key <= sum -> sum <= hi I32 -> a <= hi I32 ->
    0 <= count <= hi I32 ->
    let m := if ut <? count then Z.min a (Z.max 0 (t - len upper)) else 0 in
    fill_upper p alpha (Z.to_nat a) key count ut upper sum a = Ret (repeat key (Z.to_nat m) ++ upper, sum - m * key, a - m).
  Proof.
    intros upper sum Ha. revert upper sum. pattern a. apply natlike_ind; [| |exact Ha]; clear a Ha.
    - intros upper sum Hk H1 H2 H3 H4 m. cbn [Z.to_nat fill_upper]. unfold m.
      replace (if ut <? count then Z.min 0 (Z.max 0 (t - len upper)) else 0) with 0 by (destruct (ut <? count); lia). cbn [Z.to_nat repeat app]. rewrite Z.mul_0_l, !Z.sub_0_r; reflexivity.
    - intros a Ha IH upper sum Hk H1 H2 H3 H4 m. rewrite Z2Nat.inj_succ by exact Ha. cbn [fill_upper].
      destruct (Z.ltb_spec 0 (Z.succ a)); [|lia]. rewrite andb_true_r. cbn [hi I32] in H4. rewrite cast_id by ity_lia.
      destruct (Z.ltb_spec ut count) as [Hc|Hc]; cbn [andb].
      + destruct (Z.ltb_spec (len upper) t) as [Hl|Hl].
        * cbn [lo hi I32] in *. rewrite isub_ok by (cbn [lo hi I32]; nia). rewrite bind_Ret. rewrite isub_ok by (cbn [lo hi I32]; lia). rewrite bind_Ret.
          replace (Z.succ a - 1) with a by lia. rewrite IH by (cbn [lo hi I32]; nia). rewrite len_cons.
          replace (Z.min a (Z.max 0 (t - (len upper + 1)))) with (m - 1) by (unfold m; lia).
          assert (1 <= m) by (unfold m; lia). f_equal. f_equal; [|lia]. f_equal; [|lia].
          change (key :: upper) with ([key] ++ upper). rewrite app_assoc, repeat_snoc. do 2 f_equal. lia.
        * replace m with 0 by (unfold m; lia). cbn [Z.to_nat repeat app]. rewrite Z.mul_0_l, !Z.sub_0_r; reflexivity.
      + replace m with 0 by (unfold m; lia). cbn [Z.to_nat repeat app]. rewrite Z.mul_0_l, !Z.sub_0_r; reflexivity.
  Qed.

  Section Scan.
    Context (d : phist) (Lf : Z -> Z -> Z) (B i : Z).
    Hypothesis Hd : datrep nc d Lf.
    Hypothesis HL : Lok nc Lf B.
    Hypothesis HB : B <= hi I32.
    Hypothesis Hi : 0 <= i < nc.
    Notation l := (Lf i).
    Notation cn := (fun s => Lf i (s + 1) - Lf i s).
    Hypothesis Ha : 0 <= alpha <= l 256.
    Hypothesis HS : 255 * l 256 <= hi I32.
    Notation P := (in_order cn).

    Lemma t_range : 0 <= t /\ 2 * t <= l 256.
    Proof. unfold trim. pose proof (Z.div_mod alpha 2 ltac:(lia)). pose proof (Z.mod_pos_bound alpha 2 ltac:(lia)). lia. Qed.

    Lemma cn_nonneg s : 0 <= s < 256 -> 0 <= cn s.
    Proof. intros Hs. pose proof (Lmono _ _ _ HL i s Hi Hs). lia. Qed.
    Lemma P_len k : 0 <= k <= 256 -> len (P k) = l k.
    Proof.
      intros [Hk Hk2]. revert Hk2. pattern k. apply natlike_ind; [| |exact Hk].
      - intros _. rewrite (L0 _ _ _ HL) by exact Hi. reflexivity.
      - intros j Hj IH Hj2. replace (Z.succ j) with (j + 1) by lia. rewrite in_order_snoc by exact Hj.
        rewrite len_app, len_repeat, IH by lia. pose proof (cn_nonneg j ltac:(lia)). lia.
    Qed.
    Lemma P_bytes k x : In x (P k) -> k <= 256 -> 0 <= x <= 255.
    Proof. intros Hx Hk. apply in_order_lt in Hx. lia. Qed.

    Lemma sum_nonneg (u : list Z) : (forall x, In x u -> 0 <= x) -> 0 <= sum_of u.
    Proof. induction u as [|x u IH]; intros Hu; unfold sum_of in *; cbn [fold_right]; [lia|]. pose proof (Hu x (or_introl eq_refl)). specialize (IH (fun y Hy => Hu y (or_intror Hy))). lia. Qed.
    Lemma sum_upper (u : list Z) : (forall x, In x u -> x <= 255) -> sum_of u <= 255 * len u.
    Proof.
      induction u as [|x u IH]; intros Hu; [unfold sum_of, len; cbn; lia|]. rewrite len_cons. unfold sum_of in *. cbn [fold_right].
      pose proof (Hu x (or_introl eq_refl)). specialize (IH (fun y Hy => Hu y (or_intror Hy))). lia.
    Qed.

    Lemma kept_nonneg q k : t <= q -> 0 <= k <= 256 ->
      0 <= sum_of (P k) - sum_of (firstn (Z.to_nat t) (P k)) - sum_of (firstn (Z.to_nat t) (skipn (Z.to_nat q) (P k))).
    Proof.
      intros Hq Hk. pose proof t_range as [Ht _].
      assert (N : forall x, In x (P k) -> 0 <= x) by (intros x Hx; apply P_bytes in Hx; lia).
      revert N. generalize (P k). intros u N.
      rewrite <- (firstn_skipn (Z.to_nat t) u) at 1. rewrite sum_of_app.
      assert (E : skipn (Z.to_nat t) u = firstn (Z.to_nat (q - t)) (skipn (Z.to_nat t) u) ++ skipn (Z.to_nat q) u).
      { rewrite <- (firstn_skipn (Z.to_nat (q - t)) (skipn (Z.to_nat t) u)) at 1. f_equal. rewrite skipn_skipn'. f_equal. lia. }
      rewrite E, sum_of_app. rewrite <- (firstn_skipn (Z.to_nat t) (skipn (Z.to_nat q) u)) at 1. rewrite sum_of_app.
      assert (I1 : forall j x, In x (skipn j u) -> In x u).
      { intros j x Hx. rewrite <- (firstn_skipn j u). apply in_or_app. right. exact Hx. }
      assert (I2 : forall j (w : list Z) x, In x (firstn j w) -> In x w).
      { intros j w x Hx. rewrite <- (firstn_skipn j w). apply in_or_app. left. exact Hx. }
      assert (I3 : forall j (w : list Z) x, In x (skipn j w) -> In x w).
      { intros j w x Hx. rewrite <- (firstn_skipn j w). apply in_or_app. right. exact Hx. }
      pose proof (sum_nonneg (firstn (Z.to_nat (q - t)) (skipn (Z.to_nat t) u)) ltac:(intros x Hx; apply N, (I1 (Z.to_nat t)), (I2 _ _ _ Hx))).
      pose proof (sum_nonneg (skipn (Z.to_nat t) (skipn (Z.to_nat q) u)) ltac:(intros x Hx; apply N, (I1 (Z.to_nat q)), (I3 _ _ _ Hx))).
      lia.
    Qed.

    Context (q : Z).
    Hypothesis Hq : t <= q.
    (** q is where the upper values start *)
    Hypothesis Hcross : t = 0 \/ exists c, 0 <= c < 256 /\ l c <= l 256 - t < l (c + 1) /\ q = Z.max t (l c).

    Definition scan_state (k : Z) : Z * Z * list Z * list Z :=
      (l k, sum_of (P k) - sum_of (firstn (Z.to_nat t) (P k)) - sum_of (firstn (Z.to_nat t) (skipn (Z.to_nat q) (P k))),
       firstn (Z.to_nat t) (P k), rev (firstn (Z.to_nat t) (skipn (Z.to_nat q) (P k)))).

    Lemma scan_key_ok k : 0 <= k < 256 ->
      scan_key p nc alpha d i (l 256 - t) (scan_state k) k = Ret (scan_state (k + 1)).
    Proof.
      intros Hk. pose proof t_range as [Ht Ht2]. unfold scan_key, scan_state at 1.
      rewrite (get_count_ok p nc Hnc Hodd d Lf B i k Hd HL HB Hi Hk). rewrite bind_Ret.
      pose proof (cn_nonneg k Hk) as Hcn. set (a := l (k + 1) - l k) in *.
      pose proof (Lrange _ _ _ i k HL Hi ltac:(lia)) as Hlk. pose proof (Lrange _ _ _ i (k + 1) HL Hi ltac:(lia)) as Hlk1.
      pose proof (Lle _ _ _ i (k + 1) 256 HL Hi ltac:(lia) ltac:(lia)) as Hl256. cbn [hi I32] in *.
      rewrite iadd_ok by (cbn [lo hi I32]; lia). rewrite bind_Ret. replace (l k + a) with (l (k + 1)) by (unfold a; lia).
      assert (Hak : 0 <= a * k <= 255 * a) by nia.
      rewrite imul_ok by (cbn [lo hi I32]; lia). rewrite bind_Ret.
      pose proof (kept_nonneg q k Hq ltac:(lia)) as Hkn. pose proof (kept_nonneg q (k + 1) Hq ltac:(lia)) as Hkn1.
      set (s0 := sum_of (P k) - sum_of (firstn (Z.to_nat t) (P k)) - sum_of (firstn (Z.to_nat t) (skipn (Z.to_nat q) (P k)))) in *.
      assert (Hs0 : s0 <= 255 * l k).
      { pose proof (sum_upper (P k) ltac:(intros x Hx; apply P_bytes in Hx; lia)) as U. rewrite P_len in U by lia.
        assert (N1 : 0 <= sum_of (firstn (Z.to_nat t) (P k))).
        { apply sum_nonneg. intros x Hx. apply (P_bytes k); [|lia]. rewrite <- (firstn_skipn (Z.to_nat t) (P k)). apply in_or_app. left. exact Hx. }
        assert (N2 : 0 <= sum_of (firstn (Z.to_nat t) (skipn (Z.to_nat q) (P k)))).
        { apply sum_nonneg. intros x Hx. apply (P_bytes k); [|lia]. rewrite <- (firstn_skipn (Z.to_nat q) (P k)). apply in_or_app. right.
          rewrite <- (firstn_skipn (Z.to_nat t) (skipn (Z.to_nat q) (P k))). apply in_or_app. left. exact Hx. }
        unfold s0. lia. }
      rewrite iadd_ok by (cbn [lo hi I32]; lia). rewrite bind_Ret.
      set (lower := firstn (Z.to_nat t) (P k)) in *. set (upper := firstn (Z.to_nat t) (skipn (Z.to_nat q) (P k))) in *.
      assert (Ll : len lower = Z.min t (l k)).
      { unfold lower, len. rewrite firstn_length. pose proof (P_len k ltac:(lia)) as E. unfold len in E. lia. }
      assert (Lu : len upper = Z.min t (Z.max 0 (l k - q))).
      { unfold upper, len. rewrite firstn_length, skipn_length. pose proof (P_len k ltac:(lia)) as E. unfold len in E. lia. }
      rewrite (fill_lower_ok k a) by (cbn [hi I32]; lia). rewrite bind_Ret.
      set (m1 := Z.min a (Z.max 0 (t - len lower))). assert (Hm1 : 0 <= m1 <= a) by (unfold m1; lia).
      rewrite (fill_upper_ok k (l (k + 1)) (l 256 - t) (a - m1)) by (cbn [hi I32]; nia). rewrite bind_Ret.
      assert (Lru : len (rev upper) = len upper) by (unfold len; rewrite rev_length; reflexivity). rewrite Lru.
      set (m2 := if l 256 - t <? l (k + 1) then _ else 0).
      unfold scan_state. rewrite (in_order_snoc cn k) by lia. cbn beta. fold a.
      assert (E1 : firstn (Z.to_nat t) (P k ++ repeat k (Z.to_nat a)) = lower ++ repeat k (Z.to_nat m1)).
      { rewrite firstn_app. fold lower. f_equal. rewrite firstn_repeat. f_equal. pose proof (P_len k ltac:(lia)) as E. unfold len in E. unfold m1. lia. }
      assert (E2 : firstn (Z.to_nat t) (skipn (Z.to_nat q) (P k ++ repeat k (Z.to_nat a))) = upper ++ repeat k (Z.to_nat m2)).
      { pose proof (P_len k ltac:(lia)) as E. unfold len in E. rewrite skipn_app, firstn_app. fold upper. f_equal. rewrite skipn_repeat, firstn_repeat. f_equal.
        rewrite skipn_length. destruct Hcross as [Hz|[c (Hc1 & Hc2 & Hc3)]].
        - assert (Em : m2 = 0).
          { unfold m2. pose proof (len_nonneg upper) as Hlu. clear - Hz Hlu Hm1. destruct (l 256 - t <? l (k + 1)); lia. }
          rewrite Em, Hz. reflexivity.
        - unfold m2. destruct (Z.ltb_spec (l 256 - t) (l (k + 1))) as [G|G].
          + assert (Hck : c <= k).
            { destruct (Z.le_gt_cases c k); [assumption|]. pose proof (Lle _ _ _ i (k + 1) c HL Hi ltac:(lia) ltac:(lia)). lia. }
            unfold m1. rewrite Ll, Lu. apply upper_arith; [exact Ht|exact Hcn|exact Hq|exact E|].
            destruct (Z.eq_dec c k) as [Hck2|Hne]; [left; rewrite <- Hck2; exact Hc3|right].
            pose proof (Lle _ _ _ i (c + 1) k HL Hi ltac:(lia) ltac:(lia)) as G1. pose proof (Lle _ _ _ i c (c + 1) HL Hi ltac:(lia) ltac:(lia)) as G2.
            clear - G1 G2 Hc2 Hc3 Ht2. lia.
          + assert (Hck : k < c).
            { destruct (Z.lt_ge_cases k c); [assumption|]. pose proof (Lle _ _ _ i (c + 1) (k + 1) HL Hi ltac:(lia) ltac:(lia)). lia. }
            pose proof (Lle _ _ _ i (k + 1) c HL Hi ltac:(lia) ltac:(lia)) as G1.
            assert (Ez : (Z.to_nat a - (Z.to_nat q - length (P k)) = 0)%nat) by (unfold a; clear - G1 Hc3 E Hcn; lia).
            rewrite Ez, Nat.min_0_r. reflexivity. }
      assert (Hm2 : 0 <= m2) by (unfold m2; destruct (_ <? _); lia).
      rewrite E1, E2, rev_app_distr, rev_repeat, !sum_of_app, !sum_of_repeat. rewrite !Z2Nat.id by lia.
      f_equal. f_equal. f_equal. f_equal. unfold s0. fold lower upper. lia.
    Qed.

    Lemma scan_ok : mfold (scan_key p nc alpha d i (l 256 - t)) (zrange 0 256) (0, 0, [], []) = Ret (scan_state 256).
    Proof.
      assert (E0 : (0, 0, [], []) = scan_state 0).
      { unfold scan_state. rewrite in_order_0, firstn_nil, skipn_nil, firstn_nil. rewrite (L0 _ _ _ HL) by exact Hi. reflexivity. }
      rewrite E0.
      destruct (mfold_zrange_inv (fun k st => st = scan_state k) (scan_key p nc alpha d i (l 256 - t)) 0 256 (scan_state 0)) as [st [E ->]].
      - lia.
      - reflexivity.
      - intros k st Hk ->. rewrite scan_key_ok by exact Hk. eauto.
      - exact E.
    Qed.
  End Scan.
End Hist.
