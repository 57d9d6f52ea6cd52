(** * C93: median_filter and tone curves *)
From Verif.Model Require Import Base Float Image Transform Tone Median.
From Verif.Spec Require Import ImageS SumS ColorS MedianS.
From Verif.Proofs Require Import BaseL ImageL ImageOps SumL ToneL MedianL MedianL2 MedianL3.
From Verif.Props Require Import ToneP MedianP.
Open Scope Z_scope.

Lemma clamped_sample (img : image Z) c x y : wf img -> 0 < width (info_of img) -> 0 < height (info_of img) -> 0 <= c < channels (info_of img) ->
  In (clamped img c x y) (data img).
Proof.
  intros W HW HH Hc. unfold clamped.
  assert (Hi : inside img (clamp_to (width (info_of img)) x) (clamp_to (height (info_of img)) y)) by (unfold inside, clamp_to; lia).
  pose proof (pixel_at_length img W _ _ Hi) as L.
  assert (I1 : In (nth (Z.to_nat c) (pixel_at img (clamp_to (width (info_of img)) x) (clamp_to (height (info_of img)) y)) 0)
                  (pixel_at img (clamp_to (width (info_of img)) x) (clamp_to (height (info_of img)) y))) by (apply nth_In; lia).
  unfold pixel_at in I1 at 2. cbv zeta in I1. rewrite <- (firstn_skipn (Z.to_nat ((clamp_to (height (info_of img)) y * width (info_of img) + clamp_to (width (info_of img)) x) * channels (info_of img))) (data img)).
  apply in_or_app. right. match type of I1 with In _ (firstn ?n ?l) => rewrite <- (firstn_skipn n l) end. apply in_or_app. left. exact I1.
Qed.
Lemma clamped_map (f : Z -> Z) (img : image Z) c x y : wf img -> 0 < width (info_of img) -> 0 < height (info_of img) -> 0 <= c < channels (info_of img) ->
  clamped (Image (info_of img) (map f (data img))) c x y = f (clamped img c x y).
Proof.
  intros W HW HH Hc. unfold clamped. cbn [info_of]. rewrite pixel_at_map.
  assert (Hi : inside img (clamp_to (width (info_of img)) x) (clamp_to (height (info_of img)) y)) by (unfold inside, clamp_to; lia).
  pose proof (pixel_at_length img W _ _ Hi) as L. rewrite (nth_indep _ 0 (f 0)) by (rewrite map_length; lia). apply map_nth.
Qed.

(** the values computed are samples of the image *)
Lemma values_are_samples (img : image Z) r (m : Z -> Z -> Z -> Z) c X : 0 <= c < channels (info_of img) ->
  is_median (clamped img c) r X 0 (m c X 0) ->
  (forall y, 0 <= y -> if window_count (fun s => s <? m c X y) (clamped img c) r X (y + 1) =? median_rank r
     then m c X (y + 1) = m c X y else is_median (clamped img c) r X (y + 1) (m c X (y + 1))) ->
  forall k : nat, exists i j, clamped img c i j = m c X (Z.of_nat k).
Proof.
  intros Hc A3 A4 k. induction k as [|k IH].
  - apply (is_median_sample _ r X 0). exact A3.
  - specialize (A4 (Z.of_nat k) ltac:(lia)). replace (Z.of_nat k + 1) with (Z.of_nat (S k)) in A4 by lia.
    destruct (_ =? median_rank r); [rewrite A4; exact IH|]. apply (is_median_sample _ r X (Z.of_nat (S k))). exact A4.
Qed.

Section Law.
  Context (p : profile) (lm : libm) (img : image Z) (r : Z) (f : Z -> Z).
  Context (Hin : median_input lm img r) (HW : 0 < width (info_of img)) (HH : 0 < height (info_of img)).
  Context (Hf : forall a b, In a (data img) -> In b (data img) -> a < b -> f a < f b).
  Context (Hu : forall a, In a (data img) -> is_u8 (f a)).
  Notation img' := (Image (info_of img) (map f (data img))).

  Lemma f_ltb a b : In a (data img) -> In b (data img) -> (f a <? f b) = (a <? b).
  Proof using Hf.
    intros Ha Hb. destruct (Z.ltb_spec a b) as [L|L]; [apply Z.ltb_lt; apply Hf; assumption|]. apply Z.ltb_ge.
    destruct (Z.eq_dec a b) as [-> |]; [lia|]. pose proof (Hf b a Hb Ha ltac:(lia)). lia.
  Qed.
  Lemma f_leb a b : In a (data img) -> In b (data img) -> (f a <=? f b) = (a <=? b).
  Proof using Hf. intros Ha Hb. rewrite !Z.leb_antisym. f_equal. apply f_ltb; assumption. Qed.
  Lemma input' : median_input lm img' r.
  Proof using Hin Hu.
    destruct Hin as [W U R Ww Wh]. constructor; cbn [info_of]; auto.
    - apply map_data_wf. exact W.
    - unfold samples. cbn [data]. apply Forall_forall. intros v Hv. apply in_map_iff in Hv as (a & <- & Ha). apply Hu. exact Ha.
  Qed.
  Lemma counts c x y v : 0 <= c < channels (info_of img) -> In v (data img) ->
    window_count (fun s => s <? f v) (clamped img' c) r x y = window_count (fun s => s <? v) (clamped img c) r x y /\
    window_count (fun s => s <=? f v) (clamped img' c) r x y = window_count (fun s => s <=? v) (clamped img c) r x y.
  Proof using Hin HW HH Hf.
    intros Hc Hv. pose proof (mi_wf _ _ _ Hin) as W. unfold window_count. split; apply rect_ext; intros i j _ _; rewrite clamped_map by assumption;
      [rewrite f_ltb|rewrite f_leb]; auto; apply clamped_sample; auto.
  Qed.

  Lemma law : exists out, median_filter p lm img r = Ret out /\ wf out /\ info_of out = info_of img /\
    median_filter p lm img' r = Ret (Image (info_of out) (map f (data out))).
  Proof using Hin HW HH Hf Hu.
    destruct (C57_median_filter p lm img r Hin HW HH) as (out & m & E & A1 & A2 & A3 & A4 & A5).
    destruct (C57_median_filter p lm img' r input' HW HH) as (out' & m' & E' & B1 & B2 & B3 & B4 & B5).
    cbn [info_of] in *. exists out. conj; auto. rewrite E'. f_equal.
    pose proof (mi_wf _ _ _ Hin) as W.
    assert (G : forall c X, 0 <= c < channels (info_of img) -> forall k : nat, m' c X (Z.of_nat k) = f (m c X (Z.of_nat k))).
    { intros c X Hc.
      assert (Smp : forall k : nat, In (m c X (Z.of_nat k)) (data img)).
      { intros k. destruct (values_are_samples img r m c X Hc (A3 c X Hc) (fun y Hy => A4 c X y Hc Hy) k) as (i & j & <-). apply clamped_sample; auto. }
      assert (Med : forall k : nat, is_median (clamped img c) r X (Z.of_nat k) (m c X (Z.of_nat k)) -> is_median (clamped img' c) r X (Z.of_nat k) (f (m c X (Z.of_nat k)))).
      { intros k Hm. unfold is_median in *. destruct (counts c X (Z.of_nat k) _ Hc (Smp k)) as [-> ->]. exact Hm. }
      induction k as [|k IH].
      - apply (is_median_unique (clamped img' c) r X 0); [apply (B3 c X Hc)|]. apply (Med O). apply (A3 c X Hc).
      - specialize (A4 c X (Z.of_nat k) Hc ltac:(lia)). specialize (B4 c X (Z.of_nat k) Hc ltac:(lia)).
        replace (Z.of_nat k + 1) with (Z.of_nat (S k)) in * by lia.
        rewrite IH in B4. destruct (counts c X (Z.of_nat (S k)) _ Hc (Smp k)) as [Ec _]. rewrite Ec in B4.
        destruct (_ =? median_rank r); [congruence|].
        apply (is_median_unique (clamped img' c) r X (Z.of_nat (S k))); [exact B4|]. apply Med. exact A4. }
    apply image_ext; auto.
    - apply map_data_wf. exact A1.
    - cbn [info_of]. congruence.
    - intros x y Hxy. assert (Hi : inside img x y) by (unfold inside in *; rewrite B2 in Hxy; exact Hxy).
      rewrite (B5 x y Hi). rewrite pixel_at_map, (A5 x y Hi), map_map. apply map_ext_in. intros c Hc. apply in_zrange in Hc.
      destruct Hi as [_ Hy]. replace y with (Z.of_nat (Z.to_nat y)) by lia. apply G. exact Hc.
  Qed.
End Law.

(** A tone curve that keeps apart and in order the levels which occur in the picture may be applied before or
    after the median filter. *)
Theorem C93_increasing p lm (img : image Z) r (f : Z -> Z) :
  median_input lm img r -> 0 < width (info_of img) -> 0 < height (info_of img) ->
  (forall a b, In a (data img) -> In b (data img) -> a < b -> f a < f b) -> (forall a, In a (data img) -> is_u8 (f a)) ->
  exists toned out both,
    map_channels p (fun s => Ret (f s)) img = Ret toned /\ median_filter p lm img r = Ret out /\
    median_filter p lm toned r = Ret both /\ map_channels p (fun s => Ret (f s)) out = Ret both.
Proof.
  intros Hin HW HH Hf Hu. destruct (law p lm img r f Hin HW HH Hf Hu) as (out & E & Wo & Io & E2).
  do 3 eexists. conj; [apply map_channels_pure; apply (mi_wf _ _ _ Hin)|exact E|exact E2|]. apply map_channels_pure. exact Wo.
Qed.

(** ** brightness without saturation *)
Lemma in_data_pixel (img : image Z) : wf img -> forall s, In s (data img) ->
  exists x y c, inside img x y /\ 0 <= c < channels (info_of img) /\ nth (Z.to_nat c) (pixel_at img x y) 0 = s.
Proof.
  intros W s Hs. rewrite (data_concat img W) in Hs. apply in_concat in Hs as (px & Hpx & Hs). apply in_map_iff in Hpx as (i & <- & Hi). apply in_zrange in Hi.
  destruct W as [w1 w2 w3 w4 w5 w6].
  destruct (pos_surj (width (info_of img)) (height (info_of img)) i) as (A & B & _); try lia.
  assert (0 < width (info_of img)) by lia. rewrite pixel_i_at in Hs by assumption.
  apply (In_nth _ _ 0) in Hs as (n & Hn & <-). exists (i mod width (info_of img)), (i / width (info_of img)), (Z.of_nat n).
  split; [split; assumption|]. rewrite Nat2Z.id. split; [|reflexivity].
  rewrite pixel_at_length in Hn; [lia|constructor; auto|split; assumption].
Qed.
Lemma recolored_all (f g : Z -> Z) (img out : image Z) : wf img -> alpha (info_of img) = false -> recolored f g img out ->
  out = Image (info_of img) (map f (data img)).
Proof.
  intros W Ha (Io & Wo & H). apply image_ext; [exact Wo|apply map_data_wf; exact W|exact Io|].
  intros x y Hxy. assert (Hi : inside img x y) by (unfold inside in *; rewrite Io in Hxy; exact Hxy). rewrite pixel_at_map.
  apply (nth_ext _ _ 0 (f 0)).
  - rewrite map_length, (pixel_at_length out Wo x y Hxy), (pixel_at_length img W x y Hi). rewrite Io. reflexivity.
  - intros n Hn. rewrite (pixel_at_length out Wo x y Hxy), Io in Hn. rewrite map_nth. pose proof (pixel_at_length img W x y Hi) as L.
    specialize (H x y (Z.of_nat n) (nth n (pixel_at img x y) 0) Hi ltac:(lia)). unfold sample in H. rewrite !Nat2Z.id in H.
    assert (Hn2 : (n < length (pixel_at img x y))%nat) by lia. specialize (H (nth_error_nth' _ 0 Hn2)). unfold is_alpha in H. rewrite Ha in H. cbn [andb] in H. apply (nth_error_nth _ _ 0) in H. exact H.
Qed.
Theorem C93_brightness p lm (img : image Z) r b :
  median_input lm img r -> 0 < width (info_of img) -> 0 < height (info_of img) -> alpha (info_of img) = false ->
  -255 <= b <= 255 -> samples (fun s => 0 <= s + b <= 255) img ->
  exists bright out both, brightness p false img b = Ret bright /\ median_filter p lm img r = Ret out /\
    median_filter p lm bright r = Ret both /\ brightness p false out b = Ret both.
Proof.
  intros Hin HW HH Ha Hb Hs. pose proof (mi_wf _ _ _ Hin) as W. unfold samples in Hs. rewrite Forall_forall in Hs.
  assert (HC : has_channels (info_of img)) by (left; exact Ha).
  assert (Eb : forall s, In s (data img) -> byte (s + b) = s + b) by (intros s Hi; specialize (Hs s Hi); unfold byte; lia).
  destruct (law p lm img r (fun s => byte (s + b)) Hin HW HH) as (out & E & Wo & Io & E2).
  { intros u v Hu Hv L. rewrite !Eb by assumption. lia. }
  { intros u Hu. rewrite Eb by exact Hu. unfold is_u8. apply Hs. exact Hu. }
  destruct (C39_brightness p img b W (mi_u8 _ _ _ Hin) HC Hb) as (bright & E3 & R3). apply recolored_all in R3; auto. subst bright.
  assert (Uo : samples is_u8 out).
  { destruct (C57_values_of_input p lm img r Hin HW HH) as (out2 & Eo & _ & V). replace out2 with out in * by congruence.
    unfold samples. apply Forall_forall. intros s Hi. destruct (in_data_pixel out Wo s Hi) as (x & y & c & Hxy & Hc & <-). rewrite Io in Hc.
    assert (Hxy' : inside img x y) by (unfold inside in *; rewrite Io in Hxy; exact Hxy).
    destruct (V c x y Hxy' Hc) as (i & j & Hij & ->). pose proof (mi_u8 _ _ _ Hin) as U. unfold samples in U. rewrite Forall_forall in U. apply U. apply (pixel_in_data img i j). apply nth_In. rewrite (pixel_at_length img W i j Hij). lia. }
  destruct (C39_brightness p out b Wo Uo ltac:(rewrite Io; exact HC) Hb) as (both & E4 & R4). apply recolored_all in R4; [|exact Wo|rewrite Io; exact Ha].
  exists (Image (info_of img) (map (fun s => byte (s + b)) (data img))), out, both. conj; auto. rewrite E2. congruence.
Qed.

(** A picture of one level per channel is left alone *)
Theorem C93_constant p lm (img : image Z) r : median_input lm img r -> 0 < width (info_of img) -> 0 < height (info_of img) ->
  (forall x y x' y', inside img x y -> inside img x' y' -> pixel_at img x y = pixel_at img x' y') ->
  median_filter p lm img r = Ret img.
Proof.
  intros Hin HW HH K. pose proof (mi_wf _ _ _ Hin) as W. destruct (C57_values_of_input p lm img r Hin HW HH) as (out & E & Io & V).
  destruct (C57_median_filter p lm img r Hin HW HH) as (out2 & m & E2 & Wo & _). replace out2 with out in * by congruence.
  rewrite E. f_equal. apply image_ext; auto. intros x y Hxy. assert (Hi : inside img x y) by (unfold inside in *; rewrite Io in Hxy; exact Hxy).
  apply (nth_ext _ _ 0 0).
  - rewrite (pixel_at_length out Wo x y Hxy), (pixel_at_length img W x y Hi). rewrite Io. reflexivity.
  - intros n Hn. rewrite (pixel_at_length out Wo x y Hxy), Io in Hn. destruct (V (Z.of_nat n) x y Hi ltac:(lia)) as (i & j & Hij & Ev).
    rewrite Nat2Z.id in Ev. rewrite Ev. rewrite (K i j x y Hij Hi). reflexivity.
Qed.

(** ** what one might expect besides *)
Section Refuted.
  Context (p : profile) (lm : libm) (Hp : powf lm (f32_of_Z 1) (f32_div (f32_of_Z 2) (f32_of_Z 3)) = f32_of_Z 1).
  Lemma cols5 : median_cols lm 1 = 5.
  Proof using Hp. unfold median_cols. rewrite Hp. vm_compute. reflexivity. Qed.
  Notation gray w h d := (Image (Info w h 1 false) d).
  (** a curve that merges two levels does not commute with the filter *)
  Theorem C93_posterize_refuted : let f := fun s : Z => Z.min s 1 in let img := gray 2 3 [2; 2; 0; 0; 0; 1] in
    median_filter p lm img 1 = Ret (gray 2 3 [2; 2; 0; 1; 0; 1]) /\
    median_filter p lm (gray 2 3 (map f (data img))) 1 = Ret (gray 2 3 [1; 1; 1; 1; 0; 1]).
  Proof using Hp. cbv zeta. unfold median_filter. rewrite cols5. split; destruct p; vm_compute; reflexivity. Qed.
  (** nor does the negative *)
  Theorem C93_negative_refuted : let img := gray 2 2 [0; 1; 1; 0] in
    median_filter p lm img 1 = Ret (gray 2 2 [0; 1; 1; 0]) /\
    median_filter p lm (gray 2 2 (map (fun s => 255 - s) (data img))) 1 = Ret (gray 2 2 [255; 254; 255; 255]).
  Proof using Hp. cbv zeta. unfold median_filter. rewrite cols5. split; destruct p; vm_compute; reflexivity. Qed.
  (** brightening two pixels can darken another one *)
  Theorem C93_monotone_refuted :
    median_filter p lm (gray 2 3 [1; 1; 0; 1; 0; 0]) 1 = Ret (gray 2 3 [1; 1; 1; 1; 0; 0]) /\
    median_filter p lm (gray 2 3 [2; 2; 0; 1; 0; 0]) 1 = Ret (gray 2 3 [2; 2; 0; 1; 0; 0]).
  Proof using Hp. unfold median_filter. rewrite cols5. split; destruct p; vm_compute; reflexivity. Qed.
  (** and the mirror image of the result is not the result for the mirror image, in either direction *)
  Theorem C93_mirror_refuted : let upright := gray 2 2 [0; 2; 2; 1] in let wide := gray 2 2 [2; 2; 1; 2] in
    (exists a b c, median_filter p lm upright 1 = Ret a /\ reflect_image p num_u8 a Horizontal = Ret b /\
       (let! m := reflect_image p num_u8 upright Horizontal in median_filter p lm m 1) = Ret c /\ b <> c) /\
    (exists a b c, median_filter p lm wide 1 = Ret a /\ reflect_image p num_u8 a Vertical = Ret b /\
       (let! m := reflect_image p num_u8 wide Vertical in median_filter p lm m 1) = Ret c /\ b <> c).
  Proof using Hp.
    cbv zeta. unfold median_filter. rewrite cols5.
    split; destruct p; do 3 eexists; (split; [vm_compute; reflexivity|]); (split; [vm_compute; reflexivity|]); (split; [vm_compute; reflexivity|discriminate]).
  Qed.
End Refuted.

(** a concrete case: three levels spread out *)
Example C93_example : exists toned out both,
  map_channels Release (fun s => Ret (28 * s)) ex_med = Ret toned /\ median_filter Release ex_lm ex_med 1 = Ret out /\
  median_filter Release ex_lm toned 1 = Ret both /\ map_channels Release (fun s => Ret (28 * s)) out = Ret both.
Proof.
  apply C93_increasing; try (apply C57_example); try (cbn; lia); [intros a b _ _; lia|].
  intros a Ha. unfold is_u8. cbn in Ha. lia.
Qed.
