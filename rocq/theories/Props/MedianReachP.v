(** * C96: what a sample of the median filter depends on *)
From Verif.Model Require Import Base Float Image Median Transform.
From Verif.Spec Require Import ImageS SumS MedianS ColorS.
From Verif.Proofs Require Import BaseL ImageL ImageOps SumL LoopL MedianL MedianL2 MedianL3 TransformL ToneL.
From Verif.Props Require Import MedianP.
Open Scope Z_scope.

(** ** two runs of the recurrence *)
Lemma Zsum_shift f d (n : nat) : forall a, Zsum f a (a + Z.of_nat n) = Zsum (fun k => f (k + d)) (a - d) (a - d + Z.of_nat n).
Proof.
  induction n as [|n IH]; intros a.
  - rewrite !Zsum_nil by lia. reflexivity.
  - rewrite (Zsum_cons f a) by lia. rewrite (Zsum_cons _ (a - d)) by lia. replace (a - d + d) with a by lia.
    replace (a + Z.of_nat (S n)) with (a + 1 + Z.of_nat n) by lia. rewrite (IH (a + 1)).
    replace (a + 1 - d) with (a - d + 1) by lia. replace (a - d + Z.of_nat (S n)) with (a - d + 1 + Z.of_nat n) by lia. reflexivity.
Qed.
Lemma count_shift q v v' r x x' y : 0 <= r -> (forall i j, - r <= i <= r -> y - r <= j <= y + r -> v (x + i) j = v' (x' + i) j) ->
  window_count q v r x y = window_count q v' r x' y.
Proof.
  intros Hr H. unfold window_count, rect_sum. apply Zsum_ext. intros j Hj.
  replace (x + r + 1) with (x - r + Z.of_nat (Z.to_nat (2 * r + 1))) by lia. rewrite (Zsum_shift _ (x - x')).
  replace (x - r - (x - x')) with (x' - r) by lia. replace (x' - r + Z.of_nat (Z.to_nat (2 * r + 1))) with (x' + r + 1) by lia.
  apply Zsum_ext. intros k Hk. specialize (H (k - x') j ltac:(lia) ltac:(lia)).
  replace (k + (x - x')) with (x + (k - x')) by lia. rewrite H. replace (x' + (k - x')) with k by lia. reflexivity.
Qed.
Definition runs (v : Z -> Z -> Z) (r x : Z) (m : Z -> Z) : Prop :=
  is_median v r x 0 (m 0) /\ forall y, 0 <= y ->
    if window_count (fun s => s <? m y) v r x (y + 1) =? median_rank r then m (y + 1) = m y else is_median v r x (y + 1) (m (y + 1)).
Lemma follow v v' r x x' m m' Y : 0 <= r -> runs v r x m -> runs v' r x' m' ->
  (forall i j, - r <= i <= r -> j <= Y + r -> v (x + i) j = v' (x' + i) j) -> forall k : nat, Z.of_nat k <= Y -> m (Z.of_nat k) = m' (Z.of_nat k).
Proof.
  intros Hr [A0 A] [B0 B] H k. 
  assert (M : forall y t, y <= Y -> is_median v r x y t -> is_median v' r x' y t).
  { intros y t Hy. unfold is_median. rewrite !(count_shift _ v v' r x x' y Hr) by (intros; apply H; lia). auto. }
  induction k as [|k IH]; intros Hk.
  - apply (is_median_unique v' r x' 0); [apply M; [lia|exact A0]|exact B0].
  - specialize (IH ltac:(lia)). specialize (A (Z.of_nat k) ltac:(lia)). specialize (B (Z.of_nat k) ltac:(lia)).
    replace (Z.of_nat k + 1) with (Z.of_nat (S k)) in * by lia.
    rewrite (count_shift _ v v' r x x' _ Hr) in A by (intros; apply H; lia). rewrite <- IH in B.
    destruct (_ =? median_rank r); [congruence|]. apply (is_median_unique v' r x' (Z.of_nat (S k))); [apply M; [lia|exact A]|exact B].
Qed.

Lemma nth_error_nth_eq {A} (l l' : list A) n d : nth_error l n = nth_error l' n -> nth n l d = nth n l' d.
Proof. intros H. rewrite <- !nth_default_eq. unfold nth_default. rewrite H. reflexivity. Qed.

(** the result, sample by sample *)
Lemma median_samples p lm (img : image Z) r : median_input lm img r -> 0 < width (info_of img) -> 0 < height (info_of img) ->
  exists out (m : Z -> Z -> Z -> Z), median_filter p lm img r = Ret out /\ wf out /\ info_of out = info_of img
    /\ (forall c x, 0 <= c < channels (info_of img) -> runs (clamped img c) r x (m c x))
    /\ forall c x y, inside img x y -> 0 <= c < channels (info_of img) ->
         sample out x y c = Some (m c (shown_column (width (info_of img)) (median_cols lm r) x) y).
Proof.
  intros Hin HW HH. destruct (C57_median_filter p lm img r Hin HW HH) as (out & m & E & A1 & A2 & A3 & A4 & A5).
  exists out, m. split; [exact E|]. split; [exact A1|]. split; [exact A2|]. split.
  { intros c x Hc. split; [apply A3; exact Hc|]. intros y Hy. apply A4; assumption. }
  intros c x y Hxy Hc. unfold sample. rewrite (A5 x y Hxy).
  rewrite (map_nth_error _ (Z.to_nat c) (zrange 0 (channels (info_of img))) (d := c)); [reflexivity|].
  rewrite (nth_error_nth' _ 0) by (rewrite zrange_length; lia). f_equal. rewrite nth_zrange by lia. lia.
Qed.
Lemma shown_range lm r w x : 0 <= x < w -> let s := shown_column w (median_cols lm r) x in x <= s /\ (s = x \/ x = w - 1).
Proof.
  intros Hx s. unfold s, shown_column. destruct (median_cols_ok lm r) as [Hn _]. set (n := median_cols lm r) in *.
  destruct (Z.eqb_spec x (w - 1)) as [->|]; [|lia]. pose proof (Z.div_mod (w - 1) n ltac:(lia)). pose proof (Z.mod_pos_bound (w - 1) n Hn).
  split; [nia|right; reflexivity].
Qed.

(** ** a sample depends only on its own channel, on the columns within the radius, and on the rows down to y + r *)
Theorem C96_reach p lm (img img' : image Z) r c x y : median_input lm img r -> median_input lm img' r -> info_of img = info_of img' ->
  inside img x y -> 0 <= c < channels (info_of img) ->
  (forall x' y', inside img x' y' -> Z.abs (x' - x) <= r -> y' <= y + r -> sample img x' y' c = sample img' x' y' c) ->
  exists out out', median_filter p lm img r = Ret out /\ median_filter p lm img' r = Ret out' /\ sample out x y c = sample out' x y c.
Proof.
  intros H H' Hi Hxy Hc Heq. pose proof Hxy as [Hx Hy]. pose proof (mi_r _ _ _ H) as Hr.
  destruct (median_samples p lm img r H ltac:(lia) ltac:(lia)) as (out & m & E & _ & _ & R & S).
  destruct (median_samples p lm img' r H') as (out' & m' & E' & _ & _ & R' & S'); [rewrite <- Hi; lia|rewrite <- Hi; lia|].
  exists out, out'. split; [exact E|]. split; [exact E'|].
  rewrite (S c x y Hxy Hc). rewrite (S' c x y) by (unfold inside; rewrite <- Hi; assumption). rewrite <- Hi. f_equal.
  pose proof (shown_range lm r (width (info_of img)) x Hx) as Hs. cbv zeta in Hs. set (s := shown_column _ _ x) in *.
  replace y with (Z.of_nat (Z.to_nat y)) by lia.
  apply (follow (clamped img c) (clamped img' c) r s s (m c s) (m' c s) y ltac:(lia) (R c s Hc) (R' c s ltac:(rewrite <- Hi; exact Hc))); [|lia].
  intros i j Hij Hj. unfold clamped. rewrite <- Hi. set (X := clamp_to _ (s + i)). set (Y := clamp_to _ j).
  assert (HX : inside img X Y) by (unfold inside, X, Y, clamp_to; lia).
  specialize (Heq X Y HX ltac:(unfold X, clamp_to; lia) ltac:(unfold Y, clamp_to; lia)). unfold sample in Heq.
  apply nth_error_nth_eq. exact Heq.
Qed.

(** ** filtering a part that reaches up to the first row: away from the other three sides the same *)
Theorem C96_crop p lm (img : image Z) r x0 w h : median_input lm img r -> 0 <= x0 -> 0 < w -> 0 < h ->
  x0 + w < width (info_of img) -> h < height (info_of img) ->
  exists out part part', median_filter p lm img r = Ret out /\ crop_seq p num_u8 img x0 0 w h = Ret part /\ median_filter p lm part r = Ret part'
    /\ forall i y, r <= i -> i + r < w -> 0 <= y -> y + r < h -> pixel_at part' i y = pixel_at out (x0 + i) y.
Proof.
  intros H Hx0 Hw Hh Hxw Hyh. pose proof H as [W U Hr Ww Wh].
  destruct (median_samples p lm img r H ltac:(lia) ltac:(lia)) as (out & m & E & Wo & Io & R & S).
  destruct (crop_seq_ok p num_u8 img x0 0 w h W) as (part & Ep & Wp & Ip & Pp); try lia.
  assert (Hp : median_input lm part r).
  { constructor; auto; rewrite ?Ip; cbn [width height]; try lia. apply (samples_pixels is_u8 part Wp). intros i j Hin. rewrite Pp by exact Hin. apply pixels_samples. exact U. }
  destruct (median_samples p lm part r Hp ltac:(rewrite Ip; exact Hw) ltac:(rewrite Ip; exact Hh)) as (part' & m' & E' & Wq & Iq & R' & S').
  exists out, part, part'. split; [exact E|]. split; [exact Ep|]. split; [exact E'|]. intros i y Hi1 Hi2 Hy1 Hy2.
  assert (I1 : inside part i y) by (unfold inside; rewrite Ip; cbn [width height]; lia).
  assert (I2 : inside img (x0 + i) y) by (unfold inside; lia).
  assert (I3 : inside part' i y) by (unfold inside in *; rewrite Iq; exact I1). assert (I4 : inside out (x0 + i) y) by (unfold inside in *; rewrite Io; exact I2).
  pose proof (pixel_at_len part' Wq i y I3) as L3. pose proof (pixel_at_len out Wo (x0 + i) y I4) as L4. rewrite Iq, Ip in L3. rewrite Io in L4. cbn [channels] in L3.
  apply nth_error_ext. intros n. destruct (Z_lt_ge_dec (Z.of_nat n) (channels (info_of img))) as [Hn|Hn].
  2: { unfold len in *. rewrite !(proj2 (nth_error_None _ _)) by lia. reflexivity. }
  set (c := Z.of_nat n). specialize (S c (x0 + i) y I2 ltac:(lia)). specialize (S' c i y I1 ltac:(rewrite Ip; cbn [channels]; lia)).
  unfold sample in S, S'. unfold c in S at 1. unfold c in S' at 1. rewrite Nat2Z.id in S, S'. rewrite S, S'. f_equal.
  pose proof (shown_range lm r (width (info_of part)) i ltac:(apply I1)) as Hs'. cbv zeta in Hs'. rewrite Ip in *. cbn [width height channels] in *.
  replace (shown_column (width (info_of img)) (median_cols lm r) (x0 + i)) with (x0 + i).
  2: { unfold shown_column. destruct (Z.eqb_spec (x0 + i) (width (info_of img) - 1)); [lia|reflexivity]. }
  set (s := shown_column w (median_cols lm r) i) in *. symmetry.
  replace y with (Z.of_nat (Z.to_nat y)) by lia.
  apply (follow (clamped img c) (clamped part c) r (x0 + i) s (m c (x0 + i)) (m' c s) y); [lia|apply R; lia|apply R'; rewrite ?Ip; cbn [channels]; lia| |lia].
  intros a j Ha Hj. unfold clamped. rewrite Ip. cbn [width height].
  assert (Hin : inside part (clamp_to w (s + a)) (clamp_to h j)) by (unfold inside, clamp_to; rewrite Ip; cbn [width height]; lia).
  rewrite (Pp _ _ Hin). f_equal. f_equal; unfold clamp_to; lia.
Qed.

(** ** radius 0: the running maximum of the column *)
Theorem C96_radius_0 p lm (img : image Z) : median_input lm img 0 -> 0 < width (info_of img) -> 0 < height (info_of img) ->
  exists out, median_filter p lm img 0 = Ret out /\ info_of out = info_of img
    /\ forall x y c, inside img x y -> 0 <= c < channels (info_of img) ->
       exists t, sample out x y c = Some t /\ (exists j, 0 <= j <= y /\ sample img x j c = Some t)
         /\ forall j s, 0 <= j <= y -> sample img x j c = Some s -> s <= t.
Proof.
  intros H HW HH. pose proof (mi_wf _ _ _ H) as W. destruct (median_samples p lm img 0 H HW HH) as (out & m & E & Wo & Io & R & S).
  exists out. split; [exact E|]. split; [exact Io|]. intros x y c Hxy Hc. pose proof Hxy as [Hx Hy].
  rewrite (S c x y Hxy Hc). eexists. split; [reflexivity|].
  pose proof (shown_range lm 0 (width (info_of img)) x Hx) as Hs. cbv zeta in Hs. set (s := shown_column _ _ x) in *.
  assert (V : forall j, 0 <= j < height (info_of img) -> sample img x j c = Some (clamped img c s j)).
  { intros j Hj. unfold sample, clamped. assert (Hi : inside img x j) by (split; assumption). pose proof (pixel_at_length img W x j Hi) as L.
    replace (clamp_to (width (info_of img)) s) with x by (unfold clamp_to; lia). replace (clamp_to (height (info_of img)) j) with j by (unfold clamp_to; lia).
    apply nth_error_nth'. lia. }
  set (v := fun j => clamped img c s j) in *. destruct (R c s Hc) as [M0 MS]. set (mm := m c s) in *.
  assert (C : forall q j, window_count q (clamped img c) 0 s j = if q (v j) then 1 else 0).
  { intros q j. unfold window_count. rewrite !Z.sub_0_r, !Z.add_0_r. rewrite rect_one. reflexivity. }
  assert (Med : forall j t, is_median (clamped img c) 0 s j t -> t = v j).
  { intros j t [A B]. rewrite C in A, B. change (median_rank 0) with 1 in *. destruct (Z.ltb_spec (v j) t), (Z.leb_spec (v j) t); lia. }
  assert (G : forall k : nat, (exists j, 0 <= j <= Z.of_nat k /\ v j = mm (Z.of_nat k)) /\ forall j, 0 <= j <= Z.of_nat k -> v j <= mm (Z.of_nat k)).
  { induction k as [|k [[j0 [Hj0 E0]] IH]].
    - cbn [Z.of_nat]. rewrite (Med 0 (mm 0) M0). split; [exists 0; split; [lia|reflexivity]|]. intros j Hj. replace j with 0 by lia. lia.
    - specialize (MS (Z.of_nat k) ltac:(lia)). replace (Z.of_nat k + 1) with (Z.of_nat (Datatypes.S k)) in MS by lia.
      rewrite C in MS. change (median_rank 0) with 1 in MS. destruct (Z.ltb_spec (v (Z.of_nat (Datatypes.S k))) (mm (Z.of_nat k))) as [L|L]; cbn [Z.eqb Pos.eqb] in MS.
      + rewrite MS. split; [exists j0; split; [lia|exact E0]|]. intros j Hj. destruct (Z.eq_dec j (Z.of_nat (Datatypes.S k))) as [->|]; [lia|]. apply IH. lia.
      + apply Med in MS. rewrite MS. split; [exists (Z.of_nat (Datatypes.S k)); split; [lia|reflexivity]|].
        intros j Hj. destruct (Z.eq_dec j (Z.of_nat (Datatypes.S k))) as [->|]; [lia|]. specialize (IH j ltac:(lia)). lia. }
  destruct (G (Z.to_nat y)) as [[j [Hj Ej]] GM]. rewrite Z2Nat.id in * by lia. split.
  - exists j. split; [exact Hj|]. rewrite V by lia. f_equal. exact Ej.
  - intros j' s' Hj' Es. rewrite V in Es by lia. injection Es as <-. apply GM. exact Hj'.
Qed.

(** ** but not only on its window: no distance is too far *)
Section Far.
  Context (p : profile) (lm : libm) (Hp : powf lm (f32_of_Z 1) (f32_div (f32_of_Z 2) (f32_of_Z 3)) = f32_of_Z 1).
  (** three columns: black, a middle column that is white in every third row, white; [top] is the middle pixel of the first row *)
  Definition level (top x y : Z) : Z := if x =? 0 then 0 else if x =? 2 then 9 else if y =? 0 then top else if y mod 3 =? 0 then 9 else 0.
  Definition tie (top h : Z) : image Z := Image (Info 3 h 1 false) (concat (map (fun k => [level top (k mod 3) (k / 3)]) (zrange 0 (3 * h)))).

  Lemma tie_px top h x y : 0 <= h -> 0 <= x < 3 -> 0 <= y < h -> pixel_at (tie top h) x y = [level top x y].
  Proof using.
    intros Hh Hx Hy. unfold tie. rewrite (pixel_at_concat _ _ x y []); cbn [width height channels]; try lia.
    - rewrite (nth_indep _ [] [level top (0 mod 3) (0 / 3)]) by (rewrite map_length, zrange_length; lia).
      rewrite (map_nth (fun k => [level top (k mod 3) (k / 3)])). cbv beta. rewrite nth_zrange by lia. match goal with |- context [(0 + ?q) mod 3] => replace (0 + q) with (x + y * 3) by lia end.
      rewrite Z.mod_add, Z.div_add by lia.
      rewrite Z.mod_small, Z.div_small by lia. reflexivity.
    - rewrite len_map. unfold len. rewrite zrange_length. lia.
    - intros px Hpx. apply in_map_iff in Hpx as [k [<- _]]. reflexivity.
  Qed.
  Lemma tie_input top h : is_u8 top -> 0 < h <= 2 ^ 30 -> median_input lm (tie top h) 1.
  Proof using Hp.
    intros Ht Hh. assert (E : median_cols lm 1 = 5) by (unfold median_cols; rewrite Hp; vm_compute; reflexivity).
    assert (W : wf (tie top h)).
    { apply concat_wf; cbn [width height channels].
      - unfold info_ok, u32_max. cbn [width height channels alpha]. lia.
      - rewrite len_map. unfold len. rewrite zrange_length. lia.
      - intros px Hpx. apply in_map_iff in Hpx as [k [<- _]]. reflexivity. }
    constructor; rewrite ?E; cbn [tie info_of width height]; try lia; [exact W|].
    unfold samples, tie. cbn [data]. apply Forall_forall. intros s Hs. apply in_concat in Hs as [l [Hl Hs]]. apply in_map_iff in Hl as [k [<- _]]. destruct Hs as [<-|[]].
    unfold level, is_u8 in *. repeat destruct (_ =? _); lia.
  Qed.
  Lemma nine (test : Z -> bool) (v : Z -> Z -> Z) x y : window_count test v 1 x y =
    (let t := fun a b : Z => if test (v a b) then 1 else 0 in
     t (x - 1) (y - 1) + t x (y - 1) + t (x + 1) (y - 1) + t (x - 1) y + t x y + t (x + 1) y + t (x - 1) (y + 1) + t x (y + 1) + t (x + 1) (y + 1)).
  Proof using.
    cbv zeta. unfold window_count, rect_sum.
    assert (K : forall f a, Zsum f (a - 1) (a + 1 + 1) = f (a - 1) + f a + f (a + 1)).
    { intros f a. rewrite (Zsum_cons f (a - 1)) by lia. replace (a - 1 + 1) with a by lia. rewrite (Zsum_cons f a) by lia. rewrite (Zsum_single f (a + 1)). lia. }
    rewrite !K. lia.
  Qed.
  Lemma tie_run top n : (top = 9 \/ top = 0) -> 0 <= n <= 2 ^ 29 ->
    exists out, median_filter p lm (tie top (n + 2)) 1 = Ret out /\ sample out 1 n 0 = Some top.
  Proof using Hp.
    intros Ht Hn. assert (Ht' : is_u8 top) by (unfold is_u8; lia).
    destruct (median_samples p lm (tie top (n + 2)) 1 (tie_input top (n + 2) Ht' ltac:(lia)) ltac:(cbn; lia) ltac:(cbn [tie info_of height]; lia)) as (out & m & E & _ & _ & R & S).
    exists out. split; [exact E|]. rewrite (S 0 1 n) by (unfold inside; cbn [tie info_of width height channels]; lia). f_equal. change (shown_column _ _ 1) with 1.
    destruct (R 0 1 ltac:(cbn [tie info_of channels]; lia)) as [M0 MS]. set (mm := m 0 1) in *. clearbody mm.
    assert (V : forall x y, 0 <= x < 3 -> y < n + 2 -> clamped (tie top (n + 2)) 0 x y = level top x (Z.max 0 y)).
    { intros x y Hx Hy. unfold clamped. change (width (info_of (tie top (n + 2)))) with 3. change (height (info_of (tie top (n + 2)))) with (n + 2).
      replace (clamp_to 3 x) with x by (unfold clamp_to; lia). replace (clamp_to (n + 2) y) with (Z.max 0 y) by (unfold clamp_to; lia).
      rewrite tie_px by lia. reflexivity. }
    set (v := clamped (tie top (n + 2)) 0) in *. clearbody v. change (median_rank 1) with 5 in *.
    assert (Cnt : forall test y, test 0 = true -> test 9 = false -> 1 <= y <= n -> (2 <= y \/ top = 9) -> window_count test v 1 1 y = 5).
    { intros test y T0 T9 Hy Hyt. rewrite nine. cbv beta zeta. rewrite !V by lia. change (1 - 1) with 0. change (1 + 1) with 2. rewrite !Z.max_r by lia.
      assert (L0 : forall b, level top 0 b = 0) by reflexivity. assert (L2 : forall b, level top 2 b = 9) by reflexivity.
      rewrite !L0, !L2. assert (L1 : forall b, level top 1 b = if b =? 0 then top else if b mod 3 =? 0 then 9 else 0) by reflexivity. rewrite !L1.
      assert (D : (y - 1) mod 3 + y mod 3 + (y + 1) mod 3 = 3 /\ (y - 1) mod 3 <> y mod 3 /\ y mod 3 <> (y + 1) mod 3).
      { assert (y mod 3 = 0 \/ y mod 3 = 1 \/ y mod 3 = 2) as Hm by (pose proof (Z.mod_pos_bound y 3 ltac:(lia)); lia).
        rewrite (Z.add_mod y 1), (Zminus_mod y 1) by lia. destruct Hm as [-> |[-> | ->]]; cbn; lia. }
      pose proof (Z.mod_pos_bound (y - 1) 3 ltac:(lia)). pose proof (Z.mod_pos_bound y 3 ltac:(lia)). pose proof (Z.mod_pos_bound (y + 1) 3 ltac:(lia)).
      destruct (Z.eqb_spec (y - 1) 0) as [Y0|Y0].
      - assert (y = 1) by lia. subst y. destruct Hyt as [|Hyt]; [lia|]. subst top. cbn. rewrite T0, T9. reflexivity.
      - destruct (Z.eqb_spec y 0); [lia|]. destruct (Z.eqb_spec (y + 1) 0); [lia|].
        destruct (Z.eqb_spec ((y - 1) mod 3) 0), (Z.eqb_spec (y mod 3) 0), (Z.eqb_spec ((y + 1) mod 3) 0); rewrite ?T0, ?T9; lia. }
    assert (G : forall k : nat, Z.of_nat k <= n -> mm (Z.of_nat k) = top).
    { induction k as [|k IH]; intros Hk.
      - cbn [Z.of_nat]. apply (is_median_unique v 1 1 0); [exact M0|]. unfold is_median. rewrite !nine. cbv beta zeta. rewrite !V by lia.
        destruct Ht as [-> | ->]; split; vm_compute; intros; reflexivity || discriminate.
      - specialize (IH ltac:(lia)). specialize (MS (Z.of_nat k) ltac:(lia)). rewrite IH in MS. replace (Z.of_nat k + 1) with (Z.of_nat (Datatypes.S k)) in MS by lia.
        set (y := Z.of_nat (Datatypes.S k)) in *. destruct Ht as [-> | ->].
        + rewrite (Cnt (fun s => s <? 9) y eq_refl eq_refl) in MS by lia. cbn in MS. exact MS.
        + assert (N0 : forall y' : Z, window_count (fun s => s <? 0) v 1 1 y' = 0 \/ n + 1 < y' + 1).
          { intros y'. destruct (Z_lt_ge_dec (n + 1) (y' + 1)); [right; lia|left]. rewrite nine. cbv beta zeta. rewrite !V by lia.
            assert (P : forall a b, (level 0 a b <? 0) = false) by (intros a b; unfold level; repeat destruct (_ =? _); reflexivity). rewrite !P. reflexivity. }
          destruct (N0 y) as [N|N]; [|lia]. rewrite N in MS. cbn [Z.eqb] in MS. apply (is_median_unique v 1 1 y); [exact MS|]. unfold is_median. change (median_rank 1) with 5. rewrite N. split; [lia|].
          destruct (Z.eq_dec y 1) as [-> |Hy1].
          * rewrite nine. cbv beta zeta. rewrite !V by lia. vm_compute. discriminate.
          * rewrite (Cnt (fun s => s <=? 0) y eq_refl eq_refl) by lia. lia. }
    replace n with (Z.of_nat (Z.to_nat n)) by lia. apply G. lia.
  Qed.

  (** radius 1: two images that differ only in one pixel of the first row; their results differ n rows below, for every n *)
  Theorem C96_far_refuted n : 0 <= n <= 2 ^ 29 ->
    exists img img' out out', median_input lm img 1 /\ median_input lm img' 1 /\ info_of img = info_of img' /\ inside img 1 n
      /\ (forall x y, inside img x y -> (x, y) <> (1, 0) -> pixel_at img x y = pixel_at img' x y)
      /\ median_filter p lm img 1 = Ret out /\ median_filter p lm img' 1 = Ret out' /\ sample out 1 n 0 = Some 9 /\ sample out' 1 n 0 = Some 0.
  Proof using Hp.
    intros Hn. exists (tie 9 (n + 2)), (tie 0 (n + 2)).
    destruct (tie_run 9 n ltac:(lia) Hn) as (o & E & S). destruct (tie_run 0 n ltac:(lia) Hn) as (o' & E' & S'). exists o, o'.
    split; [apply tie_input; [unfold is_u8|]; lia|]. split; [apply tie_input; [unfold is_u8|]; lia|]. split; [reflexivity|].
    split; [unfold inside; cbn [tie info_of width height]; lia|]. split; [|auto].
    intros x y Hxy Hne. unfold inside in Hxy. cbn [tie info_of width height] in Hxy. rewrite !tie_px by lia. f_equal. unfold level.
    destruct (Z.eqb_spec x 0); [reflexivity|]. destruct (Z.eqb_spec x 2); [reflexivity|]. destruct (Z.eqb_spec y 0); [|reflexivity].
    exfalso. apply Hne. f_equal; lia.
  Qed.
End Far.

Example C96_example : median_input ex_lm ex_med 0 /\ median_input ex_lm ex_med 1
  /\ exists out, median_filter Debug ex_lm ex_med 0 = Ret out /\ data out = [9; 1; 8; 9; 7; 8; 9; 7; 8].
Proof.
  split; [|split; [apply C57_example|eexists; split; [vm_compute; reflexivity|reflexivity]]].
  assert (E : median_cols ex_lm 0 = 1) by (vm_compute; reflexivity). destruct (proj1 C57_example) as [A B _ _ _].
  constructor; rewrite ?E; auto; cbn; lia.
Qed.
