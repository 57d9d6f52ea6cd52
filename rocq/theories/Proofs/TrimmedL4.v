(** Lemmas about Model/Trimmed.v: the rows after the first, for constant images. *)
From Verif.Model Require Import Base Float Image Median Trimmed.
From Verif.Spec Require Import ImageS SumS MedianS TrimmedS.
From Verif.Proofs Require Import BaseL ImageL ImageOps SumL LoopL MedianL MedianL2 MedianL3 MeanL TrimmedL TrimmedL2 TrimmedL3.
Open Scope Z_scope.

Section Const.
  Context (p : profile) (bs : search) (r nc alpha : Z).
  Hypothesis Hr : 0 <= r <= 127.
  Hypothesis Hnc : 0 < nc < 2 ^ 31.
  Hypothesis Hodd : nc mod 2 = 1.
  Notation sz := (ksize r).
  Hypothesis Ha : 2 <= alpha < sz * sz.
  Hypothesis Hev : alpha mod 2 = 0.
  Notation t := (trim alpha).

  Definition Lc (k m : Z) (n s : Z) : Z := if k <? s then m else 0.

  (** every list of column histograms holds the value k only *)
  Definition cstate (k m : Z) (sumf : Z -> Z) (h : meanhist) : Prop :=
    datrep nc (th_data h) (Lc k m) /\ len (th_sums h) = nc /\ (forall n, 0 <= n < nc -> nth (Z.to_nat n) (th_sums h) 0 = sumf n) /\
    th_lower h = repeat (repeat k (Z.to_nat t)) (Z.to_nat nc) /\ th_upper h = repeat (repeat k (Z.to_nat t)) (Z.to_nat nc).

  Lemma Lc_ok k m : 0 <= k < 256 -> 0 <= m -> Lok nc (Lc k m) m.
  Proof.
    intros Hk Hm. constructor; intros; unfold Lc.
    - destruct (Z.ltb_spec k 0); lia.
    - destruct (Z.ltb_spec k t); destruct (Z.ltb_spec k (t + 1)); lia.
    - destruct (Z.ltb_spec k 256); lia.
  Qed.

  Lemma cstate_ext k m f g h : cstate k m f h -> (forall n, 0 <= n < nc -> f n = g n) -> cstate k m g h.
  Proof.
    intros (A & B & C & D & E) G. split; [exact A|]. split; [exact B|]. split; [|split; [exact D|exact E]].
    intros n Hn. rewrite <- G by exact Hn. apply C. exact Hn.
  Qed.

  Lemma sz_b : 1 <= sz <= 255 /\ 1 <= sz * sz <= 65025.
  Proof. unfold ksize. assert (1 <= 2 * r + 1 <= 255) by lia. set (k := 2 * r + 1) in *. clearbody k. split; [lia|]. nia. Qed.
  Lemma t_pos : 1 <= t /\ 2 * t = alpha /\ t <= 65025.
  Proof. pose proof sz_b as [_ S]. unfold trim. pose proof (Z.div_mod alpha 2 ltac:(lia)). lia. Qed.

  Lemma nth_rep {A} (x d : A) n i : 0 <= i < n -> nth (Z.to_nat i) (repeat x (Z.to_nat n)) d = x.
  Proof. intros Hi. apply nth_repeat'. lia. Qed.

  Lemma get_lower_c k m f h n : cstate k m f h -> 0 <= n < nc -> get_lower p alpha h n = Ret k.
  Proof.
    intros (A & B & C & D & E) Hn. pose proof t_pos. unfold get_lower. rewrite D. rewrite (vget_ok _ n []) by (rewrite len_repeat; lia).
    rewrite bind_Ret, nth_rep by lia. rewrite isub_ok by ity_lia. rewrite bind_Ret. rewrite (vget_ok _ _ 0) by (rewrite len_repeat; lia). rewrite nth_rep by lia. reflexivity.
  Qed.
  Lemma get_upper_c k m f h n : cstate k m f h -> 0 <= n < nc -> get_upper p alpha h n = Ret k.
  Proof.
    intros (A & B & C & D & E) Hn. pose proof t_pos. unfold get_upper. rewrite E. rewrite (vget_ok _ n []) by (rewrite len_repeat; lia).
    rewrite bind_Ret, nth_rep by lia. rewrite isub_ok by ity_lia. rewrite bind_Ret. rewrite (vget_ok _ _ 0) by (rewrite len_repeat; lia). rewrite nth_rep by lia. reflexivity.
  Qed.

  Lemma add_sum_c k m f h n v : cstate k m f h -> 0 <= n < nc -> lo I32 <= f n + v <= hi I32 ->
    exists h', add_sum p h n v = Ret h' /\ cstate k m (fun j => if j =? n then f j + v else f j) h'.
  Proof.
    intros (A & B & C & D & E) Hn Hb. unfold add_sum. rewrite (vget_ok _ n 0) by lia. rewrite bind_Ret, C by exact Hn.
    rewrite iadd_ok by exact Hb. rewrite bind_Ret. rewrite vset_ok by lia. rewrite bind_Ret. eexists. split; [reflexivity|].
    split; [exact A|]. cbn [th_sums th_lower th_upper]. split; [rewrite len_upd; exact B|]. split; [|split; [exact D|exact E]].
    intros j Hj. rewrite nth_upd by (unfold len in B; lia). destruct (Nat.eqb_spec (Z.to_nat j) (Z.to_nat n)); destruct (Z.eqb_spec j n); try lia; [subst j; reflexivity|].
    apply C. exact Hj.
  Qed.
  Lemma sub_sum_c k m f h n v : cstate k m f h -> 0 <= n < nc -> lo I32 <= f n - v <= hi I32 ->
    exists h', sub_sum p h n v = Ret h' /\ cstate k m (fun j => if j =? n then f j - v else f j) h'.
  Proof.
    intros (A & B & C & D & E) Hn Hb. unfold sub_sum. rewrite (vget_ok _ n 0) by lia. rewrite bind_Ret, C by exact Hn.
    rewrite isub_ok by exact Hb. rewrite bind_Ret. rewrite vset_ok by lia. rewrite bind_Ret. eexists. split; [reflexivity|].
    split; [exact A|]. cbn [th_sums th_lower th_upper]. split; [rewrite len_upd; exact B|]. split; [|split; [exact D|exact E]].
    intros j Hj. rewrite nth_upd by (unfold len in B; lia). destruct (Nat.eqb_spec (Z.to_nat j) (Z.to_nat n)); destruct (Z.eqb_spec j n); try lia; [subst j; reflexivity|].
    apply C. exact Hj.
  Qed.

  (** every entry of the row holds k in channel c *)
  Definition crow (p_in : list (list Z)) (c k : Z) : Prop := rowok r nc p_in c (fun _ => k).

  Lemma add_one_c k m f h p_in c n i : cstate k m f h -> crow p_in c k -> 0 <= n < nc -> n <= i < n + sz -> lo I32 <= f n + k <= hi I32 ->
    exists h', add_one p bs alpha p_in c n h i = Ret h' /\ cstate k m (fun j => if j =? n then f j + k else f j) h'.
  Proof.
    intros Hc Hrow Hn Hi Hb. unfold add_one. destruct (Hrow i) as [_ [px [E1 E2]]]; [unfold ksize in Hi; lia|].
    rewrite E1, bind_Ret, E2, bind_Ret. rewrite (get_lower_c k m f) by assumption. rewrite bind_Ret. rewrite (get_upper_c k m f) by assumption. rewrite bind_Ret.
    rewrite Z.ltb_irrefl. apply add_sum_c; assumption.
  Qed.

  Lemma count_rest_c p_in c k n : forall j lc uc, crow p_in c k -> 0 <= n < nc -> n <= j <= n + sz -> 0 <= lc <= 100000000 ->
    mfold (count_rest p p_in c k k) (zrange j (n + sz)) (lc, uc) = Ret (lc + (n + sz - j), uc).
  Proof.
    intros j lc uc Hrow Hn Hj Hlc. pose proof sz_b as [S _].
    destruct (mfold_zrange_inv (fun i st => st = (lc + (i - j), uc)) (count_rest p p_in c k k) j (n + sz) (lc, uc)) as [st [E ->]].
    - lia.
    - f_equal. lia.
    - intros i st Hi ->. unfold count_rest. destruct (Hrow i) as [_ [px [E1 E2]]]; [unfold ksize in Hi; lia|].
      rewrite E1, bind_Ret, E2, bind_Ret, Z.eqb_refl. rewrite iadd_ok by ity_lia. rewrite bind_Ret. eexists. split; [reflexivity|]. f_equal. lia.
    - exact E.
  Qed.

  Lemma drop_run_c k : forall n c, 0 <= c - Z.of_nat n -> c <= hi I32 -> drop_run p (repeat k n) k c = Ret (c - Z.of_nat n).
  Proof.
    induction n as [|n IH]; intros c Hc Hh; cbn [repeat drop_run].
    - f_equal. lia.
    - rewrite Z.eqb_refl. cbn [hi I32] in Hh. rewrite isub_ok by (cbn [lo hi I32]; lia). rewrite bind_Ret, IH by (cbn [hi I32]; lia). f_equal. lia.
  Qed.

  Lemma remove_one_c k m f h p_in c n i : 0 <= k < 256 -> sz * sz <= m <= 65025 -> cstate k m f h -> crow p_in c k -> 0 <= n < nc -> n <= i < n + sz ->
    lo I32 <= f n - k <= hi I32 ->
    exists h', remove_one p bs r nc alpha p_in c n h i = Ret h' /\ cstate k m (fun j => if j =? n then f j - k else f j) h'.
  Proof.
    intros Hk Hm Hc Hrow Hn Hi Hb. pose proof sz_b as [S1 S2]. pose proof t_pos as (T1 & T2 & T3).
    unfold remove_one. destruct (Hrow i) as [_ [px [E1 E2]]]; [unfold ksize in Hi; lia|].
    rewrite E1, bind_Ret, E2, bind_Ret. rewrite (get_lower_c k m f) by assumption. rewrite bind_Ret. rewrite (get_upper_c k m f) by assumption. rewrite bind_Ret.
    pose proof Hc as (A & B & C & D & E).
    assert (G : get_count p nc (th_data h) k n = Ret m).
    { rewrite (get_count_ok p nc Hnc Hodd (th_data h) (Lc k m) m n k A); [|apply Lc_ok; lia|cbn [hi I32]; lia|exact Hn|exact Hk].
      f_equal. unfold Lc. destruct (Z.ltb_spec k (k + 1)); [|lia]. rewrite Z.ltb_irrefl. lia. }
    rewrite !G, !bind_Ret. rewrite (count_rest_c p_in c k n i m m Hrow Hn) by lia. rewrite bind_Ret.
    rewrite D, E. rewrite (vget_ok _ n []) by (rewrite len_repeat; lia). rewrite bind_Ret, nth_rep by lia. rewrite rev_repeat.
    rewrite drop_run_c by (cbn [hi I32]; lia). rewrite bind_Ret. rewrite bind_Ret. rewrite rev_repeat. rewrite drop_run_c by (cbn [hi I32]; lia). rewrite bind_Ret.
    rewrite Z.eqb_refl, Z.ltb_irrefl. cbn [andb].
    destruct (Z.eqb_spec (m + (n + sz - i) - Z.of_nat (Z.to_nat t)) 0); [lia|].
    destruct (Z.eqb_spec (m - Z.of_nat (Z.to_nat t)) 0); [lia|].
    apply sub_sum_c; assumption.
  Qed.

  Lemma update_add_c k m b h p_in c : 0 <= k < 256 -> 0 <= m <= 1000000 -> 0 <= b <= 100000000 ->
    cstate k m (fun _ => b) h -> crow p_in c k ->
    exists h', meanhist_update p bs r nc alpha h p_in c true = Ret h' /\ cstate k (m + sz) (fun _ => b + sz * k) h'.
  Proof.
    intros Hk Hm Hb Hc Hrow. pose proof sz_b as [S1 S2]. unfold meanhist_update.
    assert (Hl : len (th_sums h) = nc) by apply Hc. destruct (Z.eqb_spec (len (th_sums h)) 0) as [Hz0|_]; [lia|]. cbn [negb].
    assert (Hsk : 0 <= sz * k <= 255 * 255) by nia.
    destruct (mfold_zrange_inv (fun n => cstate k m (fun j => if j <? n then b + sz * k else b))
       (fun h n => mfold (add_one p bs alpha p_in c n) (zrange n (n + sz)) h) 0 nc h) as [h1 [E1 C1]].
    - lia.
    - eapply cstate_ext; [exact Hc|]. intros j Hj. cbn beta. destruct (Z.ltb_spec j 0); lia.
    - intros n h1 Hn C1.
      destruct (mfold_zrange_inv (fun i => cstate k m (fun j => if j <? n then b + sz * k else if j =? n then b + (i - n) * k else b))
         (add_one p bs alpha p_in c n) n (n + sz) h1) as [h2 [E2 C2]].
      + lia.
      + eapply cstate_ext; [exact C1|]. intros j Hj. cbn beta. destruct (Z.ltb_spec j n); [lia|]. destruct (Z.eqb_spec j n); lia.
      + intros i h2 Hi C2. assert (0 <= (i - n) * k <= 255 * 255) by (clear - Hi Hk S1; nia).
        destruct (add_one_c k m _ h2 p_in c n i C2 Hrow Hn Hi) as [h3 [E3 C3]].
        { cbn beta. rewrite Z.ltb_irrefl, Z.eqb_refl. cbn [lo hi I32]. lia. }
        exists h3. split; [exact E3|]. eapply cstate_ext; [exact C3|]. intros j Hj. cbn beta.
        destruct (Z.eqb_spec j n); destruct (Z.ltb_spec j n); lia.
      + exists h2. split; [exact E2|]. eapply cstate_ext; [exact C2|]. intros j Hj. cbn beta.
        destruct (Z.ltb_spec j n); destruct (Z.eqb_spec j n); destruct (Z.ltb_spec j (n + 1)); try lia.
    - rewrite E1, bind_Ret. pose proof C1 as (A & B & C & D & E).
      destruct (data_update_ok p r nc ltac:(lia) Hnc Hodd (th_data h1) (Lc k m) m p_in c (fun _ => k) true A) as [d' [F1 F2]].
      + apply Lc_ok; lia.
      + cbn [hi I32]. lia.
      + exact Hrow.
      + rewrite F1, bind_Ret. eexists. split; [reflexivity|]. split.
        * cbn [th_data set_data]. eapply datrep_ext; [exact Hnc|exact Hodd|exact F2|]. intros n0 s _ _. unfold moved, Lc, cnt.
          unfold b2z. rewrite Zsum_const by lia. destruct (k <? s); lia.
        * cbn [set_data th_sums th_lower th_upper]. split; [exact B|]. split; [|split; assumption].
          intros j Hj. rewrite C by exact Hj. destruct (Z.ltb_spec j nc); lia.
  Qed.

  Lemma update_remove_c k m b h p_in c : 0 <= k < 256 -> sz * sz <= m <= 65025 -> sz * k <= b <= 100000000 ->
    cstate k (m + sz) (fun _ => b) h -> crow p_in c k ->
    exists h', meanhist_update p bs r nc alpha h p_in c false = Ret h' /\ cstate k m (fun _ => b - sz * k) h'.
  Proof.
    intros Hk Hm Hb Hc Hrow. pose proof sz_b as [S1 S2]. unfold meanhist_update.
    assert (Hl : len (th_sums h) = nc) by apply Hc. destruct (Z.eqb_spec (len (th_sums h)) 0) as [Hz0|_]; [lia|]. cbn [negb].
    assert (Hsk : 0 <= sz * k <= 255 * 255) by nia.
    pose proof Hc as (A & B & C & D & E).
    destruct (data_update_ok p r nc ltac:(lia) Hnc Hodd (th_data h) (Lc k (m + sz)) (m + sz) p_in c (fun _ => k) false A) as [d' [F1 F2]].
    { apply Lc_ok; lia. }
    { cbn [hi I32]. lia. }
    { exact Hrow. }
    rewrite F1, bind_Ret.
    assert (C0 : cstate k m (fun _ => b) (set_data h d')).
    { split.
      - cbn [th_data set_data]. eapply datrep_ext; [exact Hnc|exact Hodd|exact F2|]. intros n0 s _ _. unfold moved, Lc, cnt.
        unfold b2z. rewrite Zsum_const by lia. destruct (k <? s); lia.
      - cbn [set_data th_sums th_lower th_upper]. split; [exact B|]. split; [exact C|split; assumption]. }
    destruct (mfold_zrange_inv (fun n => cstate k m (fun j => if j <? n then b - sz * k else b))
       (fun h n => mfold (remove_one p bs r nc alpha p_in c n) (zrange n (n + sz)) h) 0 nc (set_data h d')) as [h1 [E1 C1]].
    - lia.
    - eapply cstate_ext; [exact C0|]. intros j Hj. cbn beta. destruct (Z.ltb_spec j 0); lia.
    - intros n h1 Hn C1.
      destruct (mfold_zrange_inv (fun i => cstate k m (fun j => if j <? n then b - sz * k else if j =? n then b - (i - n) * k else b))
         (remove_one p bs r nc alpha p_in c n) n (n + sz) h1) as [h2 [E2 C2]].
      + lia.
      + eapply cstate_ext; [exact C1|]. intros j Hj. cbn beta. destruct (Z.ltb_spec j n); [lia|]. destruct (Z.eqb_spec j n); lia.
      + intros i h2 Hi C2. assert (0 <= (i - n) * k <= 255 * 255) by (clear - Hi Hk S1; nia).
        destruct (remove_one_c k m _ h2 p_in c n i Hk Hm C2 Hrow Hn Hi) as [h3 [E3 C3]].
        { cbn beta. rewrite Z.ltb_irrefl, Z.eqb_refl. cbn [lo hi I32]. lia. }
        exists h3. split; [exact E3|]. eapply cstate_ext; [exact C3|]. intros j Hj. cbn beta.
        destruct (Z.eqb_spec j n); destruct (Z.ltb_spec j n); lia.
      + exists h2. split; [exact E2|]. eapply cstate_ext; [exact C2|]. intros j Hj. cbn beta.
        destruct (Z.ltb_spec j n); destruct (Z.eqb_spec j n); destruct (Z.ltb_spec j (n + 1)); try lia.
    - exists h1. split; [exact E1|]. eapply cstate_ext; [exact C1|]. intros j Hj. cbn beta. destruct (Z.ltb_spec j nc); lia.
  Qed.
End Const.

Lemma in_order_single k m : 0 <= k < 256 -> in_order (fun s => if k =? s then m else 0) 256 = repeat k (Z.to_nat m).
Proof.
  intros Hk. rewrite (in_order_split _ 256 k) by lia. rewrite (zrange_cons k 256) by lia. cbn [flat_map]. rewrite Z.eqb_refl.
  assert (G : forall l, (forall x, In x l -> x <> k) -> flat_map (fun s => repeat s (Z.to_nat (if k =? s then m else 0))) l = []).
  { induction l as [|a l IH]; intros Hl; [reflexivity|]. cbn [flat_map]. destruct (Z.eqb_spec k a) as [->|].
    - exfalso. apply (Hl a); [left|]; reflexivity.
    - cbn. apply IH. intros x Hx. apply Hl. right. exact Hx. }
  unfold in_order. rewrite !G; [apply app_nil_r| |]; intros x Hx; apply in_zrange in Hx; lia.
Qed.

Lemma sum_repeat k n : sum_of (repeat k n) = k * Z.of_nat n.
Proof. induction n as [|n IH]; unfold sum_of in *; cbn [repeat fold_right]; [lia|]. rewrite IH. lia. Qed.
Lemma skipn_repeat' {A} (x : A) n m : skipn n (repeat x m) = repeat x (m - n).
Proof. revert m. induction n as [|n IH]; intros [|m]; cbn; auto. Qed.
Lemma firstn_repeat' {A} (x : A) n m : firstn n (repeat x m) = repeat x (Nat.min n m).
Proof. revert m. induction n as [|n IH]; intros [|m]; cbn; auto. f_equal. apply IH. Qed.

Section ConstImage.
  Context (p : profile) (bs : search) (r nc alpha : Z) (img : image Z) (ks : list Z).
  Hypothesis Hr : 0 <= r <= 127.
  Hypothesis Hnc : 0 < nc < 2 ^ 31.
  Hypothesis Hodd : nc mod 2 = 1.
  Hypothesis Hwf : wf img.
  Hypothesis Hu8 : samples is_u8 img.
  Notation W := (width (info_of img)).
  Notation H := (height (info_of img)).
  Notation C := (channels (info_of img)).
  Hypothesis HW : 0 < W.
  Hypothesis HWb : W + nc + r < 2 ^ 31.
  Hypothesis HH : 0 < H.
  Hypothesis HHb : H + r < 2 ^ 31.
  Notation sz := (ksize r).
  Hypothesis Ha : 2 <= alpha < sz * sz.
  Hypothesis Hev : alpha mod 2 = 0.
  Hypothesis Hk : forall x y, inside img x y -> pixel_at img x y = ks.
  Notation t := (trim alpha).
  Notation k c := (nth (Z.to_nat c) ks 0).

  Lemma clamped_c c i j : clamped img c i j = k c.
  Proof. unfold clamped. rewrite Hk; [reflexivity|]. split; apply clamp_in; assumption. Qed.
  Lemma k_u8 c : 0 <= c < C -> 0 <= k c < 256.
  Proof. intros Hc. rewrite <- (clamped_c c 0 0). apply v_u8; assumption. Qed.

  Lemma srt_c x0 c n : 0 <= c < C -> srt r img x0 c n = repeat (k c) (Z.to_nat (sz * sz)).
  Proof.
    intros Hc. unfold srt, sorted_window. rewrite <- (in_order_single (k c) (sz * sz)) by (apply k_u8; exact Hc).
    apply in_order_ext. intros s Hs. unfold window_count, rect_sum.
    transitivity (Zsum (fun _ => Zsum (fun _ => if k c =? s then 1 else 0) (x0 + n - r) (x0 + n + r + 1)) (0 - r) (0 + r + 1)).
    - apply Zsum_ext. intros j _. apply Zsum_ext. intros i _. unfold row0. rewrite clamped_c. reflexivity.
    - rewrite !Zsum_const by lia. unfold ksize. destruct (k c =? s); ring.
  Qed.

  Lemma rep_list {A} (l : list A) (x d : A) n : 0 <= n -> len l = n -> (forall i, 0 <= i < n -> nth (Z.to_nat i) l d = x) -> l = repeat x (Z.to_nat n).
  Proof.
    intros Hn Hl Hx. apply (nth_ext _ _ d d).
    - rewrite repeat_length. unfold len in Hl. lia.
    - intros i Hi. unfold len in Hl. rewrite nth_repeat' by lia. replace i with (Z.to_nat (Z.of_nat i)) by lia. apply Hx. lia.
  Qed.

  Lemma cut_const x : upper_cut (repeat x (Z.to_nat (sz * sz))) alpha = t.
  Proof.
    pose proof (sz_b r Hr) as [S1 S2]. pose proof (t_pos r alpha Hr Ha Hev) as (T1 & T2 & T3).
    unfold upper_cut. rewrite len_repeat. rewrite Z2Nat.id by lia. fold t. rewrite nth_repeat' by lia.
    assert (E : forall n, filter (fun s => s <? x) (repeat x n) = []).
    { induction n as [|n IH]; [reflexivity|]. cbn [repeat filter]. rewrite Z.ltb_irrefl. exact IH. }
    rewrite E. change (len (@nil Z)) with 0. lia.
  Qed.

  Lemma first_c x0 c h : 0 <= c < C -> first_hist r nc alpha img x0 nc c h -> cstate nc alpha (k c) (sz * sz) (fun _ => k c * (sz * sz - alpha)) h.
  Proof.
    intros Hc (D & L1 & L2 & L3 & Hn).
    pose proof (sz_b r Hr) as [S1 S2]. pose proof (t_pos r alpha Hr Ha Hev) as (T1 & T2 & T3).
    assert (El : forall n, low1 r alpha img x0 c n = repeat (k c) (Z.to_nat t)).
    { intros n. unfold low1. rewrite srt_c by exact Hc. rewrite firstn_repeat'. f_equal. lia. }
    assert (Eu : forall n, upp1 r alpha img x0 c n = repeat (k c) (Z.to_nat t)).
    { intros n. unfold upp1. rewrite srt_c by exact Hc. rewrite cut_const. rewrite skipn_repeat', firstn_repeat'. f_equal. lia. }
    split.
    - eapply datrep_ext; [exact Hnc|exact Hodd|exact D|]. intros n s _ _. unfold Lm, cnt0, Lc, cnt.
      transitivity (sz * Zsum (fun _ => if k c <? s then 1 else 0) n (n + sz)).
      + f_equal. apply Zsum_ext. intros j _. unfold b2z, rowfn. rewrite clamped_c. reflexivity.
      + rewrite Zsum_const by lia. destruct (k c <? s); ring.
    - split; [exact L1|]. split; [|split].
      + intros n Hn'. destruct (Hn n Hn') as [E _]. rewrite E. unfold sum1. rewrite El, Eu, srt_c by exact Hc. rewrite !sum_repeat. rewrite !Z2Nat.id by lia. replace (sz * sz - alpha) with (sz * sz - 2 * t) by lia. ring.
      + apply (rep_list _ _ []); [lia|exact L2|]. intros n Hn'. destruct (Hn n Hn') as (_ & E & _). rewrite E. apply El.
      + apply (rep_list _ _ []); [lia|exact L3|]. intros n Hn'. destruct (Hn n Hn') as (_ & _ & E). rewrite E, Eu. apply rev_repeat.
  Qed.

  Lemma mean_c c h i : 0 <= c < C -> 0 <= i < nc -> cstate nc alpha (k c) (sz * sz) (fun _ => k c * (sz * sz - alpha)) h -> get_mean r alpha h i = Ret (k c).
  Proof.
    intros Hc Hi (A & B & D & E & F). pose proof (sz_b r Hr) as [S1 S2]. pose proof (k_u8 c Hc) as Hb.
    unfold get_mean. rewrite (vget_ok _ i 0) by lia. rewrite bind_Ret, D by exact Hi.
    assert (Ek : kept r alpha = sz * sz - alpha).
    { unfold kept. rewrite (cast_id USIZE (sz * sz)) by ity_lia. rewrite cast_id by ity_lia. reflexivity. }
    rewrite Ek. set (n := sz * sz - alpha) in *. assert (Hn : 0 < n <= 65535) by (unfold n; lia).
    rewrite mean_byte by (clear - Hn Hb; nia). f_equal. symmetry. apply (Z.div_unique_pos _ _ _ n); [lia|]. ring.
  Qed.

  Lemma crow_c x0 y pxs c : (forall c, 0 <= c < C -> rowok r nc pxs c (rowfn r img c x0 y)) -> 0 <= c < C -> crow r nc pxs c (k c).
  Proof.
    intros Hrow Hc j Hj. destruct (Hrow c Hc j Hj) as [A B]. unfold rowfn in *. rewrite clamped_c in *. split; assumption.
  Qed.

  Lemma process_cols_mean_c x0 out : 0 <= x0 < W -> wf out -> info_of out = info_of img ->
    exists out', process_cols_mean p bs r nc alpha img out x0 = Ret out' /\ wf out' /\ info_of out' = info_of img /\
      forall x y, inside img x y -> pixel_at out' x y =
        if (x0 <=? x) && (x <? x0 + nc) then map (fun c => k c) (zrange 0 C) else pixel_at out x y.
  Proof.
    intros Hx Hwo Hio. pose proof (sz_b r Hr) as [S1 S2]. unfold process_cols_mean. rewrite meanhist_new_ok by (try assumption; lia). rewrite bind_Ret. cbv zeta.
    destruct (init_cols_mean_ok p bs r nc alpha img Hr Hnc Hodd Hwf Hu8 HW HWb HH HHb ltac:(lia) Hev x0 out Hx Hwo Hio) as [o0 [hs0 (E & A1 & A2 & A3 & A4 & A5)]].
    rewrite E, bind_Ret.
    set (CS := fun c => cstate nc alpha (k c) (sz * sz) (fun _ => k c * (sz * sz - alpha))).
    destruct (mfold_zrange_inv (fun j '(o, hs) => wf o /\ info_of o = info_of img /\ len hs = C /\ teach CS 0 hs /\
          forall x y, inside img x y -> pixel_at o x y = if (y <? j) && (x0 <=? x) && (x <? x0 + nc)
            then map (fun c => k c) (zrange 0 C) else pixel_at out x y)
       (mean_next_row p bs r nc alpha img x0) 1 H (o0, hs0)) as [[o hs] [E' (B1 & B2 & B3 & B4 & B5)]].
    - lia.
    - split; [exact A1|]. split; [exact A2|]. split; [exact A3|]. split.
      + intros j Hj. apply (first_c x0); [lia|]. apply A4. exact Hj.
      + intros x y Hin. rewrite A5 by exact Hin. destruct Hin as [_ Hy].
        assert (Ey : (y <? 1) = (y =? 0)) by (destruct (Z.ltb_spec y 1); destruct (Z.eqb_spec y 0); lia). rewrite Ey.
        destruct ((y =? 0) && (x0 <=? x) && (x <? x0 + nc)); [|reflexivity]. unfold pixel.
        apply map_ext_in. intros c Hc. apply in_zrange in Hc. unfold mean1. rewrite srt_c by exact Hc.
        unfold first_row_mean. rewrite cut_const, len_repeat. rewrite Z2Nat.id by lia. unfold part. fold t.
        pose proof (t_pos r alpha Hr Ha Hev) as (T1 & T2 & T3). cbn [Z.to_nat skipn].
        rewrite skipn_repeat', !firstn_repeat', !sum_repeat. rewrite Z2Nat.id by lia.
        replace (Z.of_nat (Nat.min (Z.to_nat (t - 0)) (Z.to_nat (sz * sz)))) with t by lia.
        replace (Z.of_nat (Nat.min (Z.to_nat (t + t - t)) (Z.to_nat (sz * sz) - Z.to_nat t))) with t by lia.
        unfold rounded_quotient. set (n := sz * sz - alpha). assert (0 < n) by (unfold n; lia).
        symmetry. apply (Z.div_unique_pos _ _ _ n); [lia|]. unfold n. replace (sz * sz - alpha) with (sz * sz - 2 * t) by lia. ring.
    - clear hs0 o0 E A1 A2 A3 A4 A5. intros j [o hs] Hj (B1 & B2 & B3 & B4 & B5). unfold mean_next_row.
      rewrite iadd_ok by ity_lia. rewrite bind_Ret. rewrite isub_ok by ity_lia. rewrite bind_Ret, iclamp_eq, bind_Ret by assumption.
      rewrite !cast_id by ity_lia. rewrite isub_ok by ity_lia. rewrite bind_Ret. rewrite isub_ok by ity_lia. rewrite bind_Ret.
      rewrite isub_ok by ity_lia. rewrite bind_Ret, iclamp_eq, bind_Ret by assumption.
      pose proof (clamp_in H (j + r) HH) as Hc1. pose proof (clamp_in H (j - r - 1) HH) as Hc2. rewrite cast_id by ity_lia.
      destruct (row_pixels_ok p r nc img ltac:(lia) Hnc Hwf Hu8 HW HWb HH x0 _ Hx Hc1) as [p1 [P1 Q1]].
      destruct (row_pixels_ok p r nc img ltac:(lia) Hnc Hwf Hu8 HW HWb HH x0 _ Hx Hc2) as [p2 [P2 Q2]].
      rewrite P1, bind_Ret, P2, bind_Ret.
      set (CS1 := fun c => cstate nc alpha (k c) (sz * sz + sz) (fun _ => k c * (sz * sz - alpha) + sz * k c)).
      assert (Bk : forall c, 0 <= c < C -> 0 <= k c * (sz * sz - alpha) <= 255 * 65025 /\ 0 <= sz * k c <= 255 * 255).
      { intros c Hc. pose proof (k_u8 c Hc) as Hb8. clear - Hb8 S1 S2 Ha. nia. }
      destruct (mean_update_all_ok p bs r nc alpha CS CS1 p1 true hs 0 B4) as [hs1 [U1 [U2 U3]]].
      { intros c h Hc Hh. rewrite Z.add_0_l, B3 in Hc. apply update_add_c; try assumption; try lia.
        - apply k_u8; exact Hc.
        - specialize (Bk c Hc). lia.
        - eapply crow_c; [exact Q1|exact Hc]. }
      destruct (mean_update_all_ok p bs r nc alpha CS1 CS p2 false hs1 0 U3) as [hs2 [V1 [V2 V3]]].
      { intros c h Hc Hh. rewrite Z.add_0_l, U2, B3 in Hc. specialize (Bk c Hc).
        destruct (update_remove_c p bs r nc alpha Hr Hnc Hodd Ha Hev (k c) (sz * sz) (k c * (sz * sz - alpha) + sz * k c) h p2 c) as [h' [W1 W2]]; try assumption; try lia.
        - apply k_u8; exact Hc.
        - eapply crow_c; [exact Q2|exact Hc].
        - exists h'. split; [exact W1|]. eapply cstate_ext; [exact W2|]. intros n Hn. cbn beta. lia. }
      rewrite U1, bind_Ret, V1, bind_Ret.
      destruct (mean_row_ok p nc img Hnc Hwf HW ltac:(lia) (mean_next r alpha) (fun _ => CS) (fun c _ => k c) x0 o hs2 j) as [o' [hs' (G0 & G1 & G2 & G3 & G4 & G5)]]; try assumption; try lia.
      { intros c i h Hc Hi Hh. unfold mean_next. rewrite (mean_c c h i Hc Hi Hh), bind_Ret. exists h. split; [reflexivity|exact Hh]. }
      exists (o', hs'). split; [exact G0|]. split; [exact G1|]. split; [exact G2|]. split; [exact G3|]. split; [exact G4|].
      intros x y Hin. rewrite G5 by exact Hin. rewrite B5 by exact Hin. destruct Hin as [_ Hy].
      destruct (Z.eqb_spec y j); destruct (Z.ltb_spec y j); destruct (Z.ltb_spec y (j + 1)); try lia; cbn [andb];
        destruct ((x0 <=? x) && (x <? x0 + nc)); reflexivity.
    - rewrite E', bind_Ret. exists o. split; [reflexivity|]. split; [exact B1|]. split; [exact B2|].
      intros x y Hin. rewrite B5 by exact Hin. destruct Hin as [_ Hy]. destruct (Z.ltb_spec y H); [|lia]. reflexivity.
  Qed.
End ConstImage.
