(** * C89: laws of the linear filters: superposition, separability, mirror images, crops *)
From Verif.Proofs Require Import BaseL ImageL ImageOps ImageProps FilterL FloatL FloatL2 SumL TransformL.
From Verif.Model Require Import Transform.
From Verif.Spec Require Import ImageS SumS FilterS FilterLawS.
From Verif.Props Require Import ImageP FloatP TransformP MatP FilterP FilterP2 FilterP3 FilterP4 EdgeP.
Open Scope Z_scope.

(** ** finite sums *)
Lemma Zsum_shift f a b d : Zsum f a b = Zsum (fun i => f (i + d)) (a - d) (b - d).
Proof.
  destruct (Z_le_gt_dec b a) as [L|L]; [rewrite !Zsum_nil by lia; reflexivity|].
  remember (Z.to_nat (b - a)) as n eqn:E. revert b L E. induction n as [|n IH]; intros b L E; [lia|].
  rewrite (Zsum_last f a b), (Zsum_last _ (a - d) (b - d)) by lia. replace (b - d - 1) with (b - 1 - d) by lia.
  replace (b - 1 - d + d) with (b - 1) by lia. f_equal.
  destruct (Z_le_gt_dec (b - 1) a) as [L'|L']; [rewrite !Zsum_nil by lia; reflexivity|]. apply IH; lia.
Qed.
Lemma Zsum_swap (f : Z -> Z -> Z) a b c d :
  Zsum (fun i => Zsum (fun j => f i j) c d) a b = Zsum (fun j => Zsum (fun i => f i j) a b) c d.
Proof.
  destruct (Z_le_gt_dec b a) as [L|L].
  { rewrite Zsum_nil by lia. symmetry. apply Zsum_zero. intros. apply Zsum_nil. lia. }
  remember (Z.to_nat (b - a)) as n eqn:E. revert b L E. induction n as [|n IH]; intros b L E; [lia|].
  rewrite Zsum_last by lia.
  assert (H : Zsum (fun j => Zsum (fun i => f i j) a b) c d = Zsum (fun j => Zsum (fun i => f i j) a (b - 1) + f (b - 1) j) c d).
  { apply Zsum_ext. intros j _. apply Zsum_last. lia. }
  rewrite H, Zsum_add. f_equal.
  destruct (Z_le_gt_dec (b - 1) a) as [L'|L']; [|apply IH; lia].
  rewrite Zsum_nil by lia. symmetry. apply Zsum_zero. intros. apply Zsum_nil. lia.
Qed.
Lemma Zsum_rev f a b : Zsum f a b = Zsum (fun i => f (- i)) (1 - b) (1 - a).
Proof.
  destruct (Z_le_gt_dec b a) as [L|L]; [rewrite !Zsum_nil by lia; reflexivity|].
  remember (Z.to_nat (b - a)) as n eqn:E. revert b L E. induction n as [|n IH]; intros b L E; [lia|].
  rewrite (Zsum_last f a b) by lia. rewrite (Zsum_cons _ (1 - b) (1 - a)) by lia.
  replace (- (1 - b)) with (b - 1) by lia. replace (1 - b + 1) with (1 - (b - 1)) by lia. rewrite Z.add_comm. f_equal.
  destruct (Z_le_gt_dec (b - 1) a) as [L'|L']; [rewrite !Zsum_nil by lia; reflexivity|]. apply IH; lia.
Qed.
Lemma Zsum_grid s (f : Z -> Z -> Z) : 0 < s -> forall n, 0 <= n ->
  Zsum (fun i => f (i mod s) (i / s)) 0 (n * s) = Zsum (fun b => Zsum (fun a => f a b) 0 s) 0 n.
Proof.
  intros Hs. apply natlike_ind; [reflexivity|]. intros n Hn IH. unfold Z.succ.
  rewrite (Zsum_app _ 0 (n * s) ((n + 1) * s)) by nia. rewrite IH, (Zsum_snoc _ 0 n) by lia. f_equal.
  rewrite (Zsum_shift _ (n * s) _ (n * s)). replace (n * s - n * s) with 0 by lia. replace ((n + 1) * s - n * s) with s by lia.
  apply Zsum_ext. intros k Hk. rewrite Z_mod_plus_full, Z.div_add, Z.mod_small, Z.div_small by lia. reflexivity.
Qed.
Lemma square_rect h (f : Z -> Z -> Z) : 0 <= h -> let s := 2 * h + 1 in
  Zsum (fun i => f (i mod s - h) (i / s - h)) 0 (s * s) = rect_sum f (- h) (- h) h h.
Proof.
  intros Hh s. rewrite (Zsum_grid s (fun a b => f (a - h) (b - h))) by lia. unfold rect_sum.
  rewrite (Zsum_shift _ (- h) (h + 1) (- h)). replace (- h - - h) with 0 by lia. replace (h + 1 - - h) with s by lia.
  apply Zsum_ext. intros b _. rewrite (Zsum_shift _ (- h) (h + 1) (- h)). replace (- h - - h) with 0 by lia. replace (h + 1 - - h) with s by lia.
  apply Zsum_ext. intros a _. reflexivity.
Qed.
Lemma rect_mul k f x0 y0 x1 y1 : rect_sum (fun x y => k * f x y) x0 y0 x1 y1 = k * rect_sum f x0 y0 x1 y1.
Proof. unfold rect_sum. rewrite <- Zsum_mul. apply Zsum_ext. intros y _. apply Zsum_mul. Qed.
Lemma rect_add f g x0 y0 x1 y1 : rect_sum (fun x y => f x y + g x y) x0 y0 x1 y1 = rect_sum f x0 y0 x1 y1 + rect_sum g x0 y0 x1 y1.
Proof. unfold rect_sum. rewrite <- Zsum_add. apply Zsum_ext. intros y _. apply Zsum_add. Qed.
Lemma rect_le f g x0 y0 x1 y1 : (forall x y, x0 <= x <= x1 -> y0 <= y <= y1 -> f x y <= g x y) -> rect_sum f x0 y0 x1 y1 <= rect_sum g x0 y0 x1 y1.
Proof. intros H. unfold rect_sum. apply Zsum_le. intros y Hy. apply Zsum_le. intros x Hx. apply H; lia. Qed.
Lemma odd_2h h : Z.odd (2 * h + 1) = true.
Proof. replace (2 * h + 1) with (1 + 2 * h) by ring. rewrite Z.odd_add_mul_2. reflexivity. Qed.
Lemma half_2h h : (2 * h + 1) / 2 = h.
Proof. rewrite Z.mul_comm, Z.div_add_l by lia. cbn. lia. Qed.

(** ** exact filtering *)
Lemma Forall2_maps {A B C} (P : B -> C -> Prop) (f : A -> B) (g : A -> C) l : (forall a, In a l -> P (f a) (g a)) -> Forall2 P (map f l) (map g l).
Proof. induction l as [|a l IH]; intros H; cbn; constructor; [apply H; left; reflexivity|apply IH; intros; apply H; right; assumption]. Qed.
Lemma Zcorr_map (f : Z -> Z) (kw dx dy : Z -> Z) n inf v x y c :
  Zcorrelation f (map (fun i => (kw i, dx i, dy i)) (zrange 0 n)) inf v x y c
  = Zsum (fun i => f (kw i * v (padded (width inf) x (dx i)) (padded (height inf) y (dy i)) c)) 0 n.
Proof. unfold Zcorrelation, Zsum. rewrite map_map. reflexivity. Qed.
Lemma square_taps h k K : 0 <= h -> int_kernel h k K -> let s := 2 * h + 1 in
  Ztaps (square s k) (map (fun i => (K (i mod s - h) (i / s - h), i mod s - h, i / s - h)) (zrange 0 (s * s))).
Proof.
  intros Hh [Hk HK] s. unfold Ztaps, square. assert (E : s / 2 = h) by (unfold s; apply half_2h). rewrite E.
  apply Forall2_maps. intros i Hi. apply in_zrange in Hi. cbn [fst snd]. split; [|split; reflexivity].
  assert (Hs : 0 < s) by (unfold s; lia). pose proof (Z.mod_pos_bound i s Hs). pose proof (Z.div_mod i s ltac:(lia)).
  assert (0 <= i / s < s) by (split; [apply Z.div_pos; lia|apply Z.div_lt_upper_bound; lia]).
  specialize (HK (i mod s - h) (i / s - h) ltac:(unfold s in *; lia) ltac:(unfold s in *; lia)).
  replace (i / s - h + h) with (i / s) in HK by lia. replace (i mod s - h + h) with (i mod s) in HK by lia. fold s in HK.
  replace (i / s * s + i mod s) with i in HK by lia. exact HK.
Qed.
Lemma padded_in img x y dx dy : @inside f32 img x y -> inside img (padded (width (info_of img)) x dx) (padded (height (info_of img)) y dy).
Proof. intros [? ?]. split; apply padded_range; assumption. Qed.
Lemma value_nth (img : image f32) x y c : wf img -> inside img x y -> 0 <= c < channels (info_of img) ->
  nth_error (pixel_at img x y) (Z.to_nat c) = Some (value img x y c).
Proof.
  intros Hwf Hin Hc. pose proof (pixel_at_len img Hwf x y Hin) as L. unfold value. apply nth_error_nth'. unfold len in L. lia.
Qed.
Lemma value_holds (img : image f32) v x y c : int_image img v -> inside img x y -> 0 <= c < channels (info_of img) -> holds (value img x y c) (v x y c).
Proof.
  intros Hv Hin Hc. destruct (Hv x y c Hin Hc) as (s & E & Hs). unfold value. rewrite (nth_error_nth _ _ _ E). exact Hs.
Qed.
Lemma conv_bound h K inf v m x y c : 0 <= h -> bounded_by inf m v -> 0 <= x < width inf -> 0 <= y < height inf -> 0 <= c < channels inf ->
  rect_sum (fun dx dy => Z.abs (K dx dy * v (padded (width inf) x dx) (padded (height inf) y dy) c)) (- h) (- h) h h <= mass h K * m.
Proof.
  intros Hh Hv Hx Hy Hc. unfold mass. rewrite Z.mul_comm, <- rect_mul. apply rect_le. intros dx dy _ _. rewrite Z.abs_mul, Z.mul_comm.
  apply Z.mul_le_mono_nonneg_r; [apply Z.abs_nonneg|]. apply Hv; auto; apply padded_range; assumption.
Qed.

Theorem C89_exact p b n (img : image f32) h k K v m : filterable b img -> 0 <= h -> (2 * h + 1) * (2 * h + 1) <= 16777216 ->
  int_kernel h k K -> int_image img v -> bounded_by (info_of img) m v -> mass h K * m <= 16777216 ->
  exists out, unseparable_filter p b n img k = Ret out /\ wf out /\ info_of out = info_of img
    /\ int_image out (convolved h K (info_of img) v) /\ bounded_by (info_of img) (mass h K * m) (convolved h K (info_of img) v).
Proof.
  intros (Hwf & Hsm & Hb) Hh Hmax HK Hv Hm HM.
  destruct (C50_unseparable_filter p b n img (2 * h + 1) k Hwf Hsm (proj1 HK) ltac:(lia) (odd_2h h) Hmax Hb) as (out & E & C).
  exists out. split; [exact E|]. pose proof C as (Io & Wo & _). split; [exact Wo|]. split; [exact Io|]. split.
  - intros x y c Hin Hc. rewrite Io in Hc. assert (Hin' : inside img x y) by (unfold inside in *; rewrite <- Io; exact Hin).
    exists (value out x y c). split; [apply value_nth; auto; rewrite Io; exact Hc|].
    pose proof (C50_integers_exact _ _ img out v x y c C (square_taps h k K Hh HK) Hv Hin' Hc) as X.
    rewrite !Zcorr_map in X.
    rewrite (square_rect h (fun dx dy => Z.abs (K dx dy * v (padded (width (info_of img)) x dx) (padded (height (info_of img)) y dy) c)) Hh) in X.
    rewrite (square_rect h (fun dx dy => K dx dy * v (padded (width (info_of img)) x dx) (padded (height (info_of img)) y dy) c) Hh) in X.
    apply X. eapply Z.le_trans; [|exact HM]. apply conv_bound; auto; apply Hin'.
  - intros x y c Hx Hy Hc. unfold convolved. eapply Z.le_trans; [apply rect_abs|]. apply conv_bound; auto.
Qed.

(** the same for one line *)
Lemma line_taps h k K (vert : bool) : 0 <= h -> int_line h k K -> 
  Ztaps (if vert then column k else row k)
    (map (fun i => (K (i - h), if vert then 0 else i - h, if vert then i - h else 0)) (zrange 0 (2 * h + 1))).
Proof.
  intros Hh [Hk HK]. unfold column, row. rewrite Hk, half_2h.
  destruct vert; apply Forall2_maps; intros i Hi; apply in_zrange in Hi; cbn [fst snd]; (split; [|split; reflexivity]);
    specialize (HK (i - h) ltac:(lia)); replace (i - h + h) with i in HK by lia; exact HK.
Qed.
Definition convolved_line (vert : bool) (h : Z) (K : Z -> Z) (inf : info) (v : Z -> Z -> Z -> Z) (x y c : Z) : Z :=
  Zsum (fun d => K d * v (if vert then x else padded (width inf) x d) (if vert then padded (height inf) y d else y) c) (- h) (h + 1).
Lemma line_bound (vert : bool) h K inf v m x y c : 0 <= h -> bounded_by inf m v -> 0 <= x < width inf -> 0 <= y < height inf -> 0 <= c < channels inf ->
  Zsum (fun d => Z.abs (K d * v (if vert then x else padded (width inf) x d) (if vert then padded (height inf) y d else y) c)) (- h) (h + 1) <= mass_line h K * m.
Proof.
  intros Hh Hv Hx Hy Hc. unfold mass_line. rewrite Z.mul_comm, <- Zsum_mul. apply Zsum_le. intros d _. rewrite Z.abs_mul, Z.mul_comm.
  apply Z.mul_le_mono_nonneg_r; [apply Z.abs_nonneg|]. apply Hv; auto; destruct vert; auto; apply padded_range; assumption.
Qed.
Lemma line_exact b n p (img : image f32) h k K (vert : bool) v m : filterable b img -> 0 <= h -> 2 * h + 1 <= 2 ^ 30 ->
  int_line h k K -> int_image img v -> bounded_by (info_of img) m v -> mass_line h K * m <= 16777216 ->
  exists out, filter_1d p b n img k vert = Ret out /\ wf out /\ info_of out = info_of img
    /\ int_image out (convolved_line vert h K (info_of img) v) /\ bounded_by (info_of img) (mass_line h K * m) (convolved_line vert h K (info_of img) v).
Proof.
  intros (Hwf & Hsm & Hb) Hh Hmax HK Hv Hm HM.
  destruct (C50_filter_1d p b n img k vert Hwf Hsm) as (out & E & C); [rewrite (proj1 HK); apply odd_2h|rewrite (proj1 HK); lia|exact Hb|].
  exists out. split; [exact E|]. pose proof C as (Io & Wo & _). split; [exact Wo|]. split; [exact Io|]. split.
  - intros x y c Hin Hc. rewrite Io in Hc. assert (Hin' : inside img x y) by (unfold inside in *; rewrite <- Io; exact Hin).
    exists (value out x y c). split; [apply value_nth; auto; rewrite Io; exact Hc|].
    pose proof (C50_integers_exact _ _ img out v x y c C (line_taps h k K vert Hh HK) Hv Hin' Hc) as X.
    assert (Q : forall f : Z -> Z, Zcorrelation f (map (fun i => (K (i - h), if vert then 0 else i - h, if vert then i - h else 0)) (zrange 0 (2 * h + 1))) (info_of img) v x y c
       = Zsum (fun d => f (K d * v (if vert then x else padded (width (info_of img)) x d) (if vert then padded (height (info_of img)) y d else y) c)) (- h) (h + 1)).
    { intros f. unfold Zcorrelation. rewrite map_map. rewrite (Zsum_shift _ (- h) (h + 1) (- h)). replace (- h - - h) with 0 by lia. replace (h + 1 - - h) with (2 * h + 1) by lia.
      unfold Zsum. f_equal. apply map_ext. intros i. replace (i + - h) with (i - h) by lia. destruct vert; rewrite padded_0; reflexivity. }
    rewrite !Q in X. apply X. eapply Z.le_trans; [|exact HM]. apply line_bound; auto; apply Hin'.
  - intros x y c Hx Hy Hc. unfold convolved_line. eapply Z.le_trans; [apply Zsum_abs|]. apply line_bound; auto.
Qed.

(** ** superposition *)
Theorem C89_superposition p b n (A B S : image f32) h k K va vb al be m :
  filterable b A -> filterable b B -> filterable b S -> info_of B = info_of A -> info_of S = info_of A ->
  0 <= h -> (2 * h + 1) * (2 * h + 1) <= 16777216 -> int_kernel h k K -> mass h K * m <= 16777216 ->
  int_image A va -> int_image B vb -> int_image S (fun x y c => al * va x y c + be * vb x y c) ->
  bounded_by (info_of A) m va -> bounded_by (info_of A) m vb -> bounded_by (info_of A) m (fun x y c => al * va x y c + be * vb x y c) ->
  exists oa ob os ua ub, unseparable_filter p b n A k = Ret oa /\ unseparable_filter p b n B k = Ret ob /\ unseparable_filter p b n S k = Ret os
    /\ int_image oa ua /\ int_image ob ub /\ int_image os (fun x y c => al * ua x y c + be * ub x y c).
Proof.
  intros FA FB FS IB IS Hh Hmax HK HM HA HB HS MA MB MS.
  destruct (C89_exact p b n A h k K va m) as (oa & Ea & _ & _ & Va & _); auto.
  destruct (C89_exact p b n B h k K vb m) as (ob & Eb & _ & _ & Vb & _); auto; [rewrite IB; exact MB|].
  destruct (C89_exact p b n S h k K _ m FS Hh Hmax HK HS) as (os & Es & _ & Ios & Vs & _); auto; [rewrite IS; exact MS|].
  exists oa, ob, os, (convolved h K (info_of A) va), (convolved h K (info_of A) vb). rewrite IB in Vb. rewrite IS in Vs. conj; auto.
  intros x y c Hin Hc. destruct (Vs x y c Hin Hc) as (s & E & Hs). exists s. split; [exact E|].
  match goal with |- holds s ?t => match type of Hs with holds s ?u => replace t with u; [exact Hs|] end end.
  unfold convolved. rewrite <- !rect_mul, <- rect_add. apply rect_ext. intros dx dy _ _. ring.
Qed.

(** ** a product kernel can be applied in two passes *)
Theorem C89_separable_is_outer p b n n' (img : image f32) h k vk hk KV KH v m : filterable b img -> 0 <= h -> (2 * h + 1) * (2 * h + 1) <= 16777216 ->
  int_line h vk KV -> int_line h hk KH -> int_kernel h k (fun dx dy => KH dx * KV dy) ->
  int_image img v -> bounded_by (info_of img) m v -> 0 <= m -> mass_line h KH * mass_line h KV * m <= 16777216 -> mass_line h KV * m <= 16777216 ->
  exists one two w, unseparable_filter p b n img k = Ret one /\ separable_filter p b n' img vk hk = Ret two
    /\ int_image one w /\ int_image two w.
Proof.
  intros F Hh Hmax HV HH HK Hv Hm M0 HM HMV.
  assert (EM : mass h (fun dx dy => KH dx * KV dy) = mass_line h KH * mass_line h KV).
  { unfold mass, mass_line, rect_sum. rewrite <- Zsum_mul. apply Zsum_ext. intros y _. rewrite Z.mul_comm, <- Zsum_mul. apply Zsum_ext. intros x _. rewrite Z.abs_mul. ring. }
  destruct (C89_exact p b n img h k _ v m F Hh Hmax HK Hv Hm) as (one & E1 & W1 & I1 & V1 & _); [rewrite EM; exact HM|].
  destruct (line_exact b n' p img h vk KV true v m F Hh ltac:(nia) HV Hv Hm HMV) as (mid & E2 & W2 & I2 & V2 & B2).
  assert (F2 : filterable b mid) by (destruct F as (_ & ? & ?); split; [exact W2|]; rewrite I2; auto).
  rewrite <- I2 in V2, B2. destruct (line_exact b (S n') p mid h hk KH false _ _ F2 Hh ltac:(nia) HH V2 B2) as (two & E3 & W3 & I3 & V3 & _); [nia|].
  exists one, two, (convolved h (fun dx dy => KH dx * KV dy) (info_of img) v). conj; auto.
  - unfold separable_filter. assert (O : Z.odd (len vk) = true) by (rewrite (proj1 HV); apply odd_2h).
    pose proof (proj1 HV) as LV. pose proof (proj1 HH) as LH.
    assert (h <= 4096) by nia. rewrite !check_odd_ok by (rewrite ?LV, ?LH; ity_lia). rewrite O, LH, <- LV, O. cbn [bind]. unfold check_equal_Z. rewrite Z.eqb_refl. cbn [bind]. rewrite E2. cbn [bind]. exact E3.
  - intros x y c Hin Hc. destruct (V3 x y c Hin Hc) as (s & E & Hs). exists s. split; [exact E|].
    match goal with |- holds s ?t => match type of Hs with holds s ?u => replace t with u; [exact Hs|] end end.
    unfold convolved, convolved_line, rect_sum. rewrite I2.
    rewrite (Zsum_swap (fun dy dx => KH dx * KV dy * v (padded (width (info_of img)) x dx) (padded (height (info_of img)) y dy) c)).
    apply Zsum_ext. intros dx _. rewrite <- Zsum_mul. apply Zsum_ext. intros dy _. ring.
Qed.

(** ** mirror images *)
Definition mirrored_kernel (axis : refl) (K : Z -> Z -> Z) : Z -> Z -> Z :=
  match axis with Vertical => fun dx dy => K (- dx) dy | Horizontal => fun dx dy => K dx (- dy) end.
Lemma padded_mirror W x d : padded W (W - 1 - x) (- d) = W - 1 - padded W x d.
Proof. unfold padded. replace (W - 1 - x + - d) with (W - 1 - (x + d)) by lia. destruct (Z.leb_spec 0 (x + d)), (Z.ltb_spec (x + d) W), (Z.leb_spec 0 (W - 1 - (x + d))), (Z.ltb_spec (W - 1 - (x + d)) W); cbn [andb]; lia. Qed.
Lemma reflect_value p (img out : image f32) axis x y c : wf img -> reflect_image p num_f32 img axis = Ret out -> inside img x y ->
  value out x y c = match axis with Vertical => value img (width (info_of img) - 1 - x) y c | Horizontal => value img x (height (info_of img) - 1 - y) c end.
Proof.
  intros Hwf E Hin. destruct (C21_reflect p num_f32 img axis Hwf) as (o & E' & _ & _ & P). rewrite E in E'. injection E' as <-.
  unfold value. rewrite P by exact Hin. destruct axis; reflexivity.
Qed.
Lemma reflect_int p (img out : image f32) axis v : wf img -> reflect_image p num_f32 img axis = Ret out -> int_image img v ->
  int_image out (fun x y c => match axis with Vertical => v (width (info_of img) - 1 - x) y c | Horizontal => v x (height (info_of img) - 1 - y) c end).
Proof.
  intros Hwf E Hv x y c Hin Hc. destruct (C21_reflect p num_f32 img axis Hwf) as (o & E' & _ & Io & P). rewrite E in E'. injection E' as <-.
  rewrite Io in Hc. assert (Hin' : inside img x y) by (unfold inside in *; rewrite <- Io; exact Hin). rewrite P by exact Hin'. pose proof Hin' as [Hx Hy].
  destruct axis; apply Hv; auto; split; lia.
Qed.
Theorem C89_mirror p b n (img : image f32) axis h k k' K v m : filterable b img -> 0 <= h -> (2 * h + 1) * (2 * h + 1) <= 16777216 ->
  int_kernel h k K -> int_kernel h k' (mirrored_kernel axis K) -> int_image img v -> bounded_by (info_of img) m v -> mass h K * m <= 16777216 ->
  exists r out out' ro w, reflect_image p num_f32 img axis = Ret r /\ unseparable_filter p b n img k = Ret out /\ unseparable_filter p b n r k' = Ret out'
    /\ reflect_image p num_f32 out axis = Ret ro /\ int_image out' w /\ int_image ro w.
Proof.
  intros F Hh Hmax HK HK' Hv Hm HM. pose proof F as (Hwf & Hsm & Hb).
  destruct (C21_reflect p num_f32 img axis Hwf) as (r & Er & Wr & Ir & Pr).
  destruct (C89_exact p b n img h k K v m F Hh Hmax HK Hv Hm HM) as (out & Eo & Wo & Io & Vo & _).
  destruct (C21_reflect p num_f32 out axis Wo) as (ro & Ero & _ & _ & _).
  assert (EM : mass h (mirrored_kernel axis K) = mass h K).
  { unfold mass, rect_sum. destruct axis; cbn [mirrored_kernel].
    - apply Zsum_ext. intros y _. rewrite Zsum_rev. replace (1 - (h + 1)) with (- h) by lia. replace (1 - - h) with (h + 1) by lia.
      apply Zsum_ext. intros x _. rewrite Z.opp_involutive. reflexivity.
    - rewrite Zsum_rev. replace (1 - (h + 1)) with (- h) by lia. replace (1 - - h) with (h + 1) by lia.
      apply Zsum_ext. intros y _. apply Zsum_ext. intros x _. rewrite Z.opp_involutive. reflexivity. }
  pose proof (reflect_int p img r axis v Hwf Er Hv) as Vr. pose proof (reflect_int p out ro axis _ Wo Ero Vo) as Vro.
  assert (Fr : filterable b r) by (split; [exact Wr|]; rewrite Ir; auto).
  destruct (C89_exact p b n r h k' (mirrored_kernel axis K) _ m Fr Hh Hmax HK' Vr) as (out' & Eo' & Wo' & Io' & Vo' & _).
  - intros x y c Hx Hy Hc. rewrite Ir in *. destruct axis; apply Hm; auto; lia.
  - rewrite EM. exact HM.
  - exists r, out, out', ro. eexists. conj; [exact Er|exact Eo|exact Eo'|exact Ero|exact Vo'|].
    intros x y c Hin Hc. destruct (Vro x y c Hin Hc) as (s & E & Hs). exists s. split; [exact E|]. rewrite Io, Ir in *.
    match goal with |- holds s ?t => match type of Hs with holds s ?u => replace t with u; [exact Hs|] end end.
    unfold convolved, rect_sum. destruct axis; cbn [mirrored_kernel].
    + apply Zsum_ext. intros dy _. rewrite Zsum_rev. replace (1 - (h + 1)) with (- h) by lia. replace (1 - - h) with (h + 1) by lia.
      apply Zsum_ext. intros dx _. rewrite padded_mirror. reflexivity.
    + rewrite Zsum_rev. replace (1 - (h + 1)) with (- h) by lia. replace (1 - - h) with (h + 1) by lia.
      apply Zsum_ext. intros dy _. apply Zsum_ext. intros dx _. rewrite padded_mirror. reflexivity.
Qed.

(** bit for bit, for all samples: a column filter and left-right mirroring, a row filter and up-down mirroring *)
Lemma values_pixel (a b : image f32) x y x' y' : wf a -> wf b -> inside a x y -> inside b x' y' -> channels (info_of a) = channels (info_of b) ->
  (forall c, 0 <= c < channels (info_of a) -> value a x y c = value b x' y' c) -> pixel_at a x y = pixel_at b x' y'.
Proof.
  intros Wa Wb Ia Ib HC HV. pose proof (pixel_at_len a Wa x y Ia) as La. pose proof (pixel_at_len b Wb x' y' Ib) as Lb. unfold len in *.
  apply (nth_ext _ _ f32_0 f32_0); [lia|]. intros n Hn. specialize (HV (Z.of_nat n) ltac:(lia)). unfold value in HV. rewrite Nat2Z.id in HV. exact HV.
Qed.
Theorem C89_mirror_lines p b n (img : image f32) k (vert : bool) : filterable b img -> Z.odd (len k) = true -> len k <= 2 ^ 30 ->
  let axis := if vert then Vertical else Horizontal in
  exists out, (let! r := reflect_image p num_f32 img axis in filter_1d p b n r k vert) = Ret out
           /\ (let! o := filter_1d p b n img k vert in reflect_image p num_f32 o axis) = Ret out.
Proof.
  intros (Hwf & Hsm & Hb) Ho Hk axis.
  destruct (C21_reflect p num_f32 img axis Hwf) as (r & Er & Wr & Ir & Pr).
  destruct (C50_filter_1d p b n img k vert Hwf Hsm Ho Hk Hb) as (o & Eo & Io & Wo & Vo).
  destruct (C50_filter_1d p b n r k vert Wr) as (o' & Eo' & Io' & Wo' & Vo'); try (rewrite Ir); auto.
  destruct (C21_reflect p num_f32 o axis Wo) as (ro & Ero & Wro & Iro & Pro).
  rewrite Er, Eo. cbn [bind]. exists o'. split; [exact Eo'|]. rewrite Ero. f_equal.
  apply image_ext; auto; [congruence|]. intros x y Hin. assert (Hi : inside img x y) by (unfold inside in *; rewrite Iro, Io in Hin; exact Hin).
  assert (Hi' : inside r x y) by (unfold inside in *; rewrite Ir; exact Hi).
  apply values_pixel; auto; try congruence.
  - unfold inside in *. rewrite Io', Ir. exact Hi.
  - intros c Hc. rewrite Iro, Io in Hc. rewrite (reflect_value p o ro axis x y c Wo Ero) by (unfold inside in *; rewrite Io; exact Hi).
    rewrite (Vo' x y c) by (rewrite ?Ir; auto). rewrite Io. unfold axis in *. pose proof Hi as [Hx Hy]. destruct vert.
    + rewrite (Vo _ _ c) by (auto; split; lia). unfold correlation, column. rewrite !map_map. f_equal. apply map_ext. intros i. f_equal. rewrite !padded_0.
      rewrite (reflect_value p img r Vertical _ _ _ Hwf Er) by (rewrite ?Ir; split; [lia|apply padded_range; lia]). rewrite Ir. reflexivity.
    + rewrite (Vo _ _ c) by (auto; split; lia). unfold correlation, row. rewrite !map_map. f_equal. apply map_ext. intros i. f_equal. rewrite !padded_0.
      rewrite (reflect_value p img r Horizontal _ _ _ Hwf Er) by (rewrite ?Ir; split; [apply padded_range; lia|lia]). rewrite Ir. reflexivity.
Qed.

(** ** crops *)
(** the linear filters with their parameters, and how far they look to the left/right and up/down *)
Inductive filter_op (p : profile) : (build -> image f32 -> outcome (image f32)) -> Z -> Z -> Prop :=
| op_column n k : Z.odd (len k) = true -> len k <= 2 ^ 30 -> filter_op p (fun b img => filter_1d p b n img k true) 0 (len k / 2)
| op_row n k : Z.odd (len k) = true -> len k <= 2 ^ 30 -> filter_op p (fun b img => filter_1d p b n img k false) (len k / 2) 0
| op_separable n vk hk : Z.odd (len vk) = true -> len hk = len vk -> len vk <= 2 ^ 30 ->
    filter_op p (fun b img => separable_filter p b n img vk hk) (len hk / 2) (len vk / 2)
| op_unseparable n k s : len k = s * s -> 0 <= s -> Z.odd s = true -> s * s <= 16777216 ->
    filter_op p (fun b img => unseparable_filter p b n img k) (s / 2) (s / 2)
| op_linear svd k sz s u v : len k = sz * sz -> 0 < sz -> Z.odd sz = true -> sz * sz <= 16777216 ->
    svd sz k = Ret (s, u, v) -> len s = sz * sz -> len u = sz * sz -> len v = sz * sz ->
    filter_op p (fun b img => linear_filter p b svd img k) (sz / 2) (sz / 2)
| op_gaussian lm svd sz sigma : 0 <= sz -> Z.odd sz = true -> sz * sz <= 16777216 ->
    (forall k, len k = sz * sz -> exists s u v, svd sz k = Ret (s, u, v) /\ len s = sz * sz /\ len u = sz * sz /\ len v = sz * sz) ->
    filter_op p (fun b img => gaussian_blur p b lm svd img sz sigma) (sz / 2) (sz / 2)
| op_box sz : 0 <= sz -> Z.odd sz = true -> sz * sz <= 2 ^ 30 -> filter_op p (fun b img => box_filter p b img sz) (sz * sz / 2) (sz * sz / 2)
| op_weighted sz w : 0 <= sz -> Z.odd sz = true -> sz * sz <= 16777216 -> 0 <= w -> sz * sz - 1 + w <= u32_max ->
    filter_op p (fun b img => weighted_avg_filter p b img sz w) (sz / 2) (sz / 2)
| op_sharpen : filter_op p (fun b img => sharpen p b img) 1 1
| op_unsharp : filter_op p (fun b img => unsharp_masking p b img) 2 2
| op_laplacian : filter_op p (fun b img => laplacian p b img) 1 1
| op_log lm sz sigma : 0 <= sz -> Z.odd sz = true -> sz * sz <= 16777216 ->
    filter_op p (fun b img => laplacian_of_gaussian p b lm img sz sigma) (sz / 2) (sz / 2).

(** the window of the pixel decides the result, wherever it lies *)
Definition windowed (op : build -> image f32 -> outcome (image f32)) (rx ry : Z) : Prop :=
  0 <= rx /\ 0 <= ry /\ forall b b' (img img' : image f32), filterable b img -> filterable b' img' ->
  exists out out', op b img = Ret out /\ op b' img' = Ret out' /\ info_of out = info_of img /\ wf out /\ info_of out' = info_of img' /\ wf out'
  /\ forall x y a d c, 0 <= c < channels (info_of img) -> 0 <= c < channels (info_of img') ->
     (forall dx dy, Z.abs dx <= rx -> Z.abs dy <= ry -> inside img (x + dx) (y + dy) /\ inside img' (x + a + dx) (y + d + dy)
        /\ value img' (x + a + dx) (y + d + dy) c = value img (x + dx) (y + dy) c) ->
     value out' (x + a) (y + d) c = value out x y c.
Lemma windowed_ext op op' rx ry : (forall b img, filterable b img -> op b img = op' b img) -> windowed op' rx ry -> windowed op rx ry.
Proof.
  intros H (A & B & W). split; [exact A|]. split; [exact B|]. intros b b' img img' F F'. destruct (W b b' img img' F F') as (o & o' & E & E' & R).
  exists o, o'. rewrite !H by assumption. split; [exact E|]. split; [exact E'|exact R].
Qed.
Lemma windowed_taps op taps rx ry : 0 <= rx -> 0 <= ry ->
  (forall b img, filterable b img -> exists out, op b img = Ret out /\ correlates taps img out) ->
  (forall k dx dy, In (k, dx, dy) taps -> Z.abs dx <= rx /\ Z.abs dy <= ry) -> windowed op rx ry.
Proof.
  intros Hx Hy H HT. split; [exact Hx|]. split; [exact Hy|]. intros b b' img img' F F'.
  destruct (H b img F) as (o & E & C). destruct (H b' img' F') as (o' & E' & C'). exists o, o'. pose proof C as (I & W & _). pose proof C' as (I' & W' & _). conj; auto.
  intros x y a d c Hc Hc' HW. destruct (HW 0 0 ltac:(lia) ltac:(lia)) as (J & J' & _). rewrite !Z.add_0_r in *.
  apply (correlates_translated taps img img' o o'); auto. intros k dx dy Ht. apply HW; apply (HT k dx dy Ht).
Qed.
Lemma windowed_then op1 op2 rx1 ry1 rx2 ry2 : windowed op1 rx1 ry1 -> windowed op2 rx2 ry2 ->
  windowed (fun b img => let! m := op1 b img in op2 b m) (rx1 + rx2) (ry1 + ry2).
Proof.
  intros (A1 & B1 & W1) (A2 & B2 & W2). split; [lia|]. split; [lia|]. intros b b' img img' F F'.
  destruct (W1 b b' img img' F F') as (m & m' & E1 & E1' & I1 & Wm & I1' & Wm' & V1).
  assert (Fm : filterable b m) by (destruct F as (_ & ? & ?); split; [exact Wm|]; rewrite I1; auto).
  assert (Fm' : filterable b' m') by (destruct F' as (_ & ? & ?); split; [exact Wm'|]; rewrite I1'; auto).
  destruct (W2 b b' m m' Fm Fm') as (o & o' & E2 & E2' & I2 & Wo & I2' & Wo' & V2).
  exists o, o'. rewrite E1, E1'. cbn [bind]. conj; auto; try congruence.
  intros x y a d c Hc Hc' HW. apply V2; try congruence. intros dx dy Hx Hy. unfold inside. rewrite I1, I1'.
  destruct (HW dx dy ltac:(lia) ltac:(lia)) as (J & J' & _). split; [exact J|]. split; [exact J'|].
  replace (x + a + dx) with (x + dx + a) by ring. replace (y + d + dy) with (y + dy + d) by ring. apply V1; auto.
  intros ex ey Hex Hey. replace (x + dx + a + ex) with (x + a + (dx + ex)) by ring. replace (y + dy + d + ey) with (y + d + (dy + ey)) by ring.
  replace (x + dx + ex) with (x + (dx + ex)) by ring. replace (y + dy + ey) with (y + (dy + ey)) by ring. apply HW; lia.
Qed.
Lemma windowed_1d p n k (vert : bool) : Z.odd (len k) = true -> len k <= 2 ^ 30 ->
  windowed (fun b img => filter_1d p b n img k vert) (if vert then 0 else len k / 2) (if vert then len k / 2 else 0).
Proof.
  intros Ho Hk. pose proof (len_nonneg k). pose proof (odd_half (len k) Ho). assert (0 <= len k / 2) by (apply Z.div_pos; lia).
  apply windowed_taps with (taps := if vert then column k else row k); try (destruct vert; lia).
  - intros b img (Hwf & Hsm & Hb). apply (C50_filter_1d p b n img k vert); auto.
  - intros w dx dy Ht. destruct vert; unfold column, row in Ht; apply in_map_iff in Ht as [i [Ei Hi]]; apply in_zrange in Hi; injection Ei as _ <- <-; lia.
Qed.
Lemma windowed_sep p n vk hk : Z.odd (len vk) = true -> len hk = len vk -> len vk <= 2 ^ 30 ->
  windowed (fun b img => separable_filter p b n img vk hk) (len hk / 2) (len vk / 2).
Proof.
  intros Ho He Hk. pose proof (len_nonneg vk).
  apply windowed_ext with (op' := fun b img => let! m := filter_1d p b n img vk true in filter_1d p b (S n) m hk false).
  - intros b img _. unfold separable_filter. rewrite He. rewrite !check_odd_ok by ity_lia. rewrite Ho. cbn [bind]. unfold check_equal_Z. rewrite Z.eqb_refl. reflexivity.
  - pose proof (windowed_1d p n vk true Ho Hk) as W1. pose proof (windowed_1d p (S n) hk false ltac:(congruence) ltac:(lia)) as W2. cbv iota in W1, W2.
    pose proof (windowed_then _ _ _ _ _ _ W1 W2) as W. rewrite Z.add_0_l, Z.add_0_r in W. exact W.
Qed.
Lemma windowed_unsep p n k s : len k = s * s -> 0 <= s -> Z.odd s = true -> s * s <= 16777216 ->
  windowed (fun b img => unseparable_filter p b n img k) (s / 2) (s / 2).
Proof.
  intros Hk H0 Ho Hs. pose proof (odd_half s Ho). assert (0 <= s / 2) by (apply Z.div_pos; lia).
  apply windowed_taps with (taps := square s k); auto.
  - intros b img (Hwf & Hsm & Hb). apply (C50_unseparable_filter p b n img s k); auto.
  - intros w dx dy Ht. unfold square in Ht. apply in_map_iff in Ht as [i [Ei Hi]]. apply in_zrange in Hi. injection Ei as _ <- <-.
    pose proof (Z.mod_pos_bound i s ltac:(lia)). assert (0 <= i / s < s) by (split; [apply Z.div_pos; lia|apply Z.div_lt_upper_bound; lia]). lia.
Qed.
Lemma windowed_linear p svd k sz s u v : len k = sz * sz -> 0 < sz -> Z.odd sz = true -> sz * sz <= 16777216 ->
  svd sz k = Ret (s, u, v) -> len s = sz * sz -> len u = sz * sz -> len v = sz * sz ->
  windowed (fun b img => linear_filter p b svd img k) (sz / 2) (sz / 2).
Proof.
  intros Hk H0 Ho Hmax Hsvd Hs Hu Hv.
  destruct (square_side sz k Hk ltac:(lia) Hmax) as [Hsq _].
  destruct (separate_ok svd k sz s u v Hk H0 Hmax Hsvd Hs Hu Hv) as [[Hr E]|[Hr E]].
  - match type of E with _ = Ret (Some (?a, ?c)) => set (vk := a) in *; set (hk := c) in * end.
    assert (Lv : len vk = sz) by (unfold vk; rewrite len_map, len_zrange; lia).
    assert (Lh : len hk = sz) by (unfold hk; rewrite len_map, len_zrange; lia).
    apply windowed_ext with (op' := fun b img => separable_filter p b 0 img vk hk).
    + intros b img _. unfold linear_filter. rewrite check_odd_ok by (cbn; nia). rewrite Hk, Z.odd_mul, Ho. cbn [andb bind]. rewrite <- Hk, Hsq. cbn [bind]. rewrite E. reflexivity.
    + pose proof (windowed_sep p 0 vk hk) as W. rewrite Lv, Lh in W. apply W; auto. nia.
  - apply windowed_ext with (op' := fun b img => unseparable_filter p b 0 img k).
    + intros b img _. unfold linear_filter. rewrite check_odd_ok by (cbn; nia). rewrite Hk, Z.odd_mul, Ho. cbn [andb bind]. rewrite <- Hk, Hsq. cbn [bind]. rewrite E. reflexivity.
    + apply windowed_unsep; auto. lia.
Qed.
Lemma filter_op_windowed p op rx ry : filter_op p op rx ry -> windowed op rx ry.
Proof.
  intros [n k Ho Hk|n k Ho Hk|n vk hk Ho He Hk|n k s Hk H0 Ho Hs|svd k sz s u v Hk H0 Ho Hmax Hsvd Hs Hu Hv|lm svd sz sigma H0 Ho Hmax Hsvd|sz H0 Ho Hmax|sz w H0 Ho Hmax Hw Hsum| | | |lm sz sigma H0 Ho Hmax].
  - exact (windowed_1d p n k true Ho Hk).
  - exact (windowed_1d p n k false Ho Hk).
  - apply windowed_sep; auto.
  - apply windowed_unsep; auto.
  - apply (windowed_linear p svd k sz s u v); auto.
  - destruct (C30_gaussian_kernel p lm sz sigma H0 ltac:(lia)) as [HG _]. destruct (HG Ho) as (k & E & Lk & _).
    destruct (Hsvd k Lk) as (s & u & v & Es & Ls & Lu & Lv).
    apply windowed_ext with (op' := fun b img => linear_filter p b svd img k); [intros b img _; unfold gaussian_blur; rewrite E; reflexivity|].
    apply (windowed_linear p svd k sz s u v); auto. destruct (Z.eq_dec sz 0) as [->|]; [discriminate|lia].
  - set (k := repeat (f32_div f32_1 (f32_of_Z (sz * sz))) (Z.to_nat (sz * sz))). assert (Hk : len k = sz * sz) by (unfold k, len; rewrite repeat_length; nia).
    apply windowed_ext with (op' := fun b img => separable_filter p b 0 img k k).
    + intros b img _. unfold box_filter. rewrite check_odd_ok by (cbn; nia). rewrite Ho. cbn [bind]. rewrite imul_ok by (cbn; nia). reflexivity.
    + rewrite <- Hk. apply windowed_sep; auto; [rewrite Hk, Z.odd_mul, Ho; reflexivity|lia].
  - unfold u32_max in *. assert (Hpos : 0 < sz) by (destruct (Z.eq_dec sz 0) as [->|]; [discriminate|lia]). assert (1 <= sz * sz) by nia.
    pose proof (odd_half sz Ho) as Hodd. set (h := sz / 2) in *. assert (Hh : 0 <= h < sz) by lia. assert (0 <= h * sz /\ h * sz + h < sz * sz) by nia.
    set (sum := f32_of_Z (sz * sz - 1 + w)). set (r := repeat (f32_div f32_1 sum) (Z.to_nat (sz * sz))).
    assert (Hl : len r = sz * sz) by (unfold r, len; rewrite repeat_length; lia).
    apply windowed_ext with (op' := fun b img => unseparable_filter p b 0 img (upd r (Z.to_nat (h * sz + h)) (f32_div (f32_of_Z w) sum))).
    + intros b img _. unfold weighted_avg_filter. rewrite check_odd_ok by (cbn; nia). rewrite Ho. cbn [bind].
      rewrite imul_ok by ity_lia. cbn [bind]. rewrite isub_ok by ity_lia. cbn [bind]. rewrite iadd_ok by ity_lia. cbn [bind].
      rewrite idiv_ok by ity_lia. cbn [bind]. fold h. rewrite imul_ok by ity_lia. cbn [bind]. rewrite iadd_ok by ity_lia. cbn [bind].
      fold sum. fold r. rewrite vset_ok by lia. reflexivity.
    + apply windowed_unsep; auto. rewrite len_upd. exact Hl.
  - apply (windowed_unsep p 0 K_SHARPEN 3); auto; lia || reflexivity.
  - apply (windowed_unsep p 0 K_UNSHARP_MASKING 5); auto; lia || reflexivity.
  - apply (windowed_unsep p 0 K_LAPLACIAN 3); auto; lia || reflexivity.
  - destruct (C30_log_kernel p lm sz sigma H0 ltac:(lia)) as [HG _]. destruct (HG Ho) as (k & E & Lk & _).
    apply windowed_ext with (op' := fun b img => unseparable_filter p b 0 img k); [intros b img _; unfold laplacian_of_gaussian; rewrite E; reflexivity|].
    apply windowed_unsep; auto.
Qed.
(** filtering a crop gives in its interior, bit for bit, the crop of the filtered image *)
Theorem C89_crop p op rx ry b b' (img : image f32) x y w h : filter_op p op rx ry -> filterable b img ->
  0 <= x -> 0 <= y -> 0 <= w -> 0 <= h -> x + w < width (info_of img) -> y + h < height (info_of img) ->
  scheduled b' (Info w h (channels (info_of img)) (alpha (info_of img))) ->
  exists part out out', crop_seq p num_f32 img x y w h = Ret part /\ op b img = Ret out /\ op b' part = Ret out'
    /\ forall i j, rx <= i < w - rx -> ry <= j < h - ry -> pixel_at out' i j = pixel_at out (x + i) (y + j).
Proof.
  intros Hop F Hx Hy Hw Hh Hxw Hyh Hb'. destruct (filter_op_windowed p op rx ry Hop) as (Rx & Ry & W). pose proof F as (Hwf & [S1 S2] & Hb).
  destruct (crop_seq_ok p num_f32 img x y w h Hwf Hx Hy Hw Hh Hxw Hyh) as (c & Ec & Wc & Ic & Pc).
  assert (Fc : filterable b' c).
  { split; [exact Wc|]. rewrite Ic. split; [|exact Hb']. unfold small. cbn [width height]. lia. }
  destruct (W b' b c img Fc F) as (o' & o & E' & E & I' & W' & I & Wo & V).
  exists c, o, o'. conj; auto. intros i j Hi Hj.
  apply values_pixel; auto.
  - unfold inside. rewrite I', Ic. cbn [width height]. lia.
  - unfold inside. rewrite I. lia.
  - rewrite I, I', Ic. reflexivity.
  - intros k Hk. rewrite I', Ic in Hk. cbn [channels] in Hk. rewrite (Z.add_comm x), (Z.add_comm y). symmetry. apply V; [rewrite Ic; exact Hk|exact Hk|].
    intros dx dy Hdx Hdy. assert (J : inside c (i + dx) (j + dy)) by (unfold inside; rewrite Ic; cbn [width height]; lia).
    split; [exact J|]. split; [unfold inside; lia|]. unfold value. rewrite Pc by exact J.
    replace (x + (i + dx)) with (i + x + dx) by ring. replace (y + (j + dy)) with (j + y + dy) by ring. reflexivity.
Qed.

(** the same for the edge operators on gray images *)
Lemma twice_translated vk hk (img img' out out' : image f32) x y a d c : len hk = len vk -> Z.odd (len vk) = true ->
  filtered_twice vk hk img out -> filtered_twice vk hk img' out' -> 0 <= c < channels (info_of img) -> 0 <= c < channels (info_of img') ->
  (forall dx dy, Z.abs dx <= len vk / 2 -> Z.abs dy <= len vk / 2 -> inside img (x + dx) (y + dy) /\ inside img' (x + a + dx) (y + d + dy)
     /\ value img' (x + a + dx) (y + d + dy) c = value img (x + dx) (y + dy) c) ->
  value out' (x + a) (y + d) c = value out x y c.
Proof.
  intros He Ho (m & C1 & C2) (m' & C1' & C2') Hc Hc' HW. pose proof (len_nonneg vk). pose proof (odd_half (len vk) Ho). assert (0 <= len vk / 2) by (apply Z.div_pos; lia).
  pose proof (proj1 C1) as I. pose proof (proj1 C1') as I'.
  destruct (HW 0 0 ltac:(lia) ltac:(lia)) as (J0 & J0' & _). rewrite !Z.add_0_r in J0, J0'.
  assert (M : forall dx, Z.abs dx <= len vk / 2 -> value m' (x + dx + a) (y + d) c = value m (x + dx) y c).
  { intros dx Hdx. destruct (HW dx 0 ltac:(lia) ltac:(lia)) as (J & J' & _). rewrite !Z.add_0_r in J, J'. replace (x + a + dx) with (x + dx + a) in J' by ring.
    apply (correlates_translated (column vk) img img' m m'); auto.
    intros w ex ey Ht. unfold column in Ht. apply in_map_iff in Ht as [i [Ei Hi]]. apply in_zrange in Hi. injection Ei as _ <- <-.
    rewrite !Z.add_0_r. replace (x + dx + a) with (x + a + dx) by ring. apply HW; lia. }
  apply (correlates_translated (row hk) m m' out out'); auto; try (unfold inside; rewrite ?I, ?I'; assumption); try congruence.
  intros w ex ey Ht. unfold row in Ht. apply in_map_iff in Ht as [i [Ei Hi]]. apply in_zrange in Hi. injection Ei as _ <- <-.
  rewrite He in *. destruct (HW (i - len vk / 2) 0 ltac:(lia) ltac:(lia)) as (J & J' & _).
  split; [unfold inside; rewrite I; exact J|]. split; [unfold inside; rewrite I'; exact J'|]. rewrite !Z.add_0_r.
  replace (x + a + (i - len vk / 2)) with (x + (i - len vk / 2) + a) by ring. apply M. lia.
Qed.
Theorem C89_crop_edges p b b' lm (img : image f32) vk hk x y w h : filterable b img -> channels (info_of img) = 1 -> alpha (info_of img) = false ->
  Z.odd (len vk) = true -> len hk = len vk -> len vk <= 2 ^ 30 ->
  0 <= x -> 0 <= y -> 0 <= w -> 0 <= h -> x + w < width (info_of img) -> y + h < height (info_of img) -> scheduled b' (Info w h 1 false) ->
  let r := len vk / 2 in
  exists part out out', crop_seq p num_f32 img x y w h = Ret part /\ derivative_mask p b lm img vk hk = Ret out /\ derivative_mask p b' lm part vk hk = Ret out'
    /\ forall i j, r <= i < w - r -> r <= j < h - r -> pixel_at out' i j = pixel_at out (x + i) (y + j).
Proof.
  intros (Hwf & [S1 S2] & Hb) HC HA Ho He Hk Hx Hy Hw Hh Hxw Hyh Hb' r.
  pose proof (len_nonneg vk). assert (0 <= r) by (unfold r; apply Z.div_pos; lia).
  destruct (crop_seq_ok p num_f32 img x y w h Hwf Hx Hy Hw Hh Hxw Hyh) as (c & Ec & Wc & Ic & Pc). rewrite HC, HA in Ic.
  destruct (C55_derivative_mask p b lm img vk hk Hwf (conj S1 S2) Hb HC HA Ho He Hk) as (gx & gy & o & E & Gx & Gy & I & Wo & V).
  destruct (C55_derivative_mask p b' lm c vk hk Wc) as (gx' & gy' & o' & E' & Gx' & Gy' & I' & Wo' & V'); try (rewrite Ic); auto.
  { unfold small. cbn [width height]. lia. }
  exists c, o, o'. conj; auto. intros i j Hi Hj.
  assert (Jc : inside c i j) by (unfold inside; rewrite Ic; cbn [width height]; lia). assert (Ji : inside img (i + x) (j + y)) by (unfold inside; lia).
  apply values_pixel; auto.
  - unfold inside. rewrite I'. exact Jc.
  - unfold inside. rewrite I. lia.
  - rewrite I, I', Ic, HC. reflexivity.
  - intros k Hk'. rewrite I', Ic in Hk'. cbn [channels] in Hk'. replace k with 0 by lia. rewrite (Z.add_comm x), (Z.add_comm y).
    rewrite V' by exact Jc. rewrite V by exact Ji.
    assert (HW : forall dx dy, Z.abs dx <= r -> Z.abs dy <= r -> inside c (i + dx) (j + dy) /\ inside img (i + x + dx) (j + y + dy)
       /\ value img (i + x + dx) (j + y + dy) 0 = value c (i + dx) (j + dy) 0).
    { intros dx dy Hdx Hdy. assert (J : inside c (i + dx) (j + dy)) by (unfold inside; rewrite Ic; cbn [width height]; lia).
      split; [exact J|]. split; [unfold inside; lia|]. unfold value. rewrite Pc by exact J.
      replace (x + (i + dx)) with (i + x + dx) by ring. replace (y + (j + dy)) with (j + y + dy) by ring. reflexivity. }
    f_equal; symmetry.
    + apply (twice_translated vk hk c img gx' gx); auto; rewrite ?Ic, ?HC; cbn [channels]; lia.
    + apply (twice_translated hk vk c img gy' gy); auto; try congruence; try (rewrite ?Ic, ?HC; cbn [channels]; lia). rewrite He. exact HW.
Qed.

(** ** concrete cases *)
Definition ex_row : image f32 := Image (Info 3 1 1 false) (map f32_of_Z [16777216; 1; 1]).
Definition ex_ones : list f32 := map f32_of_Z [0; 0; 0; 1; 1; 1; 0; 0; 0].
(** beyond 2^24 the order of the summation shows: the mean of a mirrored row is not the mirrored mean *)
Theorem C89_mirror_refuted : filterable Seq ex_row /\
  match unseparable_filter Release Seq 0 ex_row ex_ones, reflect_image Release num_f32 ex_row Vertical with
  | Ret o, Ret r => match unseparable_filter Release Seq 0 r ex_ones with
      Ret o' => f32_eqb (value o 1 0 0) (f32_of_Z 16777216) = true /\ f32_eqb (value o' 1 0 0) (f32_of_Z 16777218) = true | _ => False end
  | _, _ => False end.
Proof.
  split; [|vm_compute; split; reflexivity]. split; [apply wfb_wf; reflexivity|]. split; [|exact I]. split; vm_compute; discriminate.
Qed.
(** a 3x3 image, the binomial kernel 1 2 1 and its square: all hypotheses of the exact laws are met *)
Definition ex_binomial : list f32 := map f32_of_Z [1; 2; 1; 2; 4; 2; 1; 2; 1].
Theorem C89_example : int_kernel 1 ex_binomial (fun dx dy => (2 - Z.abs dx) * (2 - Z.abs dy))
  /\ int_line 1 (map f32_of_Z [1; 2; 1]) (fun d => 2 - Z.abs d)
  /\ mass 1 (fun dx dy => (2 - Z.abs dx) * (2 - Z.abs dy)) = 16 /\ filterable Seq ex_avg
  /\ exists p op, filter_op p op 2 2 /\ exists out, op Seq ex_avg = Ret out.
Proof.
  assert (D3 : forall d, -1 <= d <= 1 -> d = -1 \/ d = 0 \/ d = 1) by (intros; lia).
  assert (Fa : filterable Seq ex_avg) by (split; [apply wfb_wf; reflexivity|]; split; [split; vm_compute; discriminate|exact I]).
  conj; auto.
  - split; [reflexivity|]. intros dx dy Hx Hy. destruct (D3 dx Hx) as [-> |[-> | ->]], (D3 dy Hy) as [-> |[-> | ->]];
      match goal with |- holds _ ?z => let z' := eval vm_compute in z in change (isZ (f32_of_Z z') z'); apply of_Z_isZ; lia end.
  - split; [reflexivity|]. intros d Hd. destruct (D3 d Hd) as [-> |[-> | ->]];
      match goal with |- holds _ ?z => let z' := eval vm_compute in z in change (isZ (f32_of_Z z') z'); apply of_Z_isZ; lia end.
  - exists Debug, (fun b img => unsharp_masking Debug b img). split; [constructor|].
    destruct (filter_op_windowed Debug _ _ _ (op_unsharp Debug)) as (_ & _ & W). destruct (W Seq Seq ex_avg ex_avg Fa Fa) as (o & _ & E & _). exists o. exact E.
Qed.
