(** * C34-C38: src/morphology.rs *)
From Verif.Model Require Import Morph.
From Verif.Spec Require Import SumS MorphS.
From Verif.Proofs Require Import BaseL ImageL ImageOps FloatL SumL Safe MorphL.
From Verif.Props Require Import UtilP.
Open Scope Z_scope.

(** a grayscale image without alpha and with u8 samples *)
Definition gray (img : image Z) : Prop :=
  wf img /\ alpha (info_of img) = false /\ channels (info_of img) = 1 /\ samples is_u8 img.

Lemma gray_pixel (img : image Z) x y : gray img -> inside img x y ->
  pixel_at img x y = [sample_at img x y 0] /\ 0 <= sample_at img x y 0 <= 255.
Proof.
  intros (Hwf & _ & HC & Hu) Hin. pose proof (pixel_at_len img Hwf x y Hin) as Hl. rewrite HC in Hl.
  destruct (sample_u8 img x y 0 Hwf Hu Hin ltac:(lia)) as [Hb He].
  split; [|exact Hb]. destruct (pixel_at img x y) as [|a [|b l]] eqn:E; cbn in Hl; try discriminate; try lia.
  unfold sample_at. rewrite E. reflexivity.
Qed.
Lemma gray_white (img : image Z) x y : gray img -> inside img x y -> (white img x y <-> sample_at img x y 0 = 255).
Proof.
  intros Hg Hin. destruct (gray_pixel img x y Hg Hin) as [E _]. unfold white. rewrite E. split.
  - intros [_ H]. congruence.
  - intros ->. auto.
Qed.
Lemma samples_of_pixels {T} (P : T -> Prop) (img : image T) : wf img ->
  (forall x y, inside img x y -> Forall P (pixel_at img x y)) -> samples P img.
Proof.
  intros Hwf H. unfold samples. rewrite (data_concat img Hwf). apply Forall_concat. apply Forall_map. apply Forall_forall.
  intros k Hk. apply in_zrange in Hk. pose proof Hwf as [Hw Hh _ _ _ _].
  destruct (Z.eq_dec (width (info_of img)) 0) as [E|E]; [rewrite E in Hk; lia|].
  rewrite pixel_i_at by lia. destruct (pos_surj (width (info_of img)) (height (info_of img)) k) as (?&?&?); try lia.
  apply H. split; assumption.
Qed.
Lemma Forall_firstn_ss {A} (P : A -> Prop) n l : Forall P l -> Forall P (firstn n l).
Proof. intros H. revert n. induction H; intros [|n]; cbn; constructor; auto. Qed.
Lemma Forall_skipn_ss {A} (P : A -> Prop) n l : Forall P l -> Forall P (skipn n l).
Proof. intros H. revert n. induction H; intros [|n]; cbn; auto. Qed.
Lemma binary_gray (img : image Z) : wf img -> binary img -> gray img.
Proof.
  intros Hwf (Ha & HC & Hs). unfold gray. conj; auto. unfold samples in *. eapply Forall_impl; [|exact Hs].
  cbv beta. unfold is_u8. intros; lia.
Qed.
Lemma check_gray_ok (img : image Z) : gray img -> check_grayscale img = Ret tt.
Proof. intros (_ & Ha & HC & _). unfold check_grayscale. rewrite Ha, HC. reflexivity. Qed.

Lemma reach_win w r x x' : reach w r x x' <-> win_lo r x <= x' <= win_hi w r x.
Proof. reflexivity. Qed.

(** the result of a scan is binary, white exactly where [P] holds *)
Lemma scan_result p q qz (img : image Z) r (P : Z -> Z -> Prop) :
  gray img -> small_sums img -> 0 <= r <= width (info_of img) -> r <= height (info_of img) ->
  (forall s z, isZ s z -> 0 <= z <= 8388608 -> q s = qz z) ->
  (forall x y, inside img x y -> (qz (wsum img r x y) = true <-> P x y)) ->
  exists out, morph_scan p q img r = Ret out /\ wf out /\ info_of out = info_of img /\ binary out
    /\ forall x y, inside img x y -> (white out x y <-> P x y).
Proof.
  intros Hg Hsm Hr Hrh Hq HP. pose proof Hg as (Hwf & Ha & HC & Hu).
  destruct (scan_ok p img Hwf Hu Hsm r Hr Hrh ltac:(lia) q qz Hq HC) as [out (E & W & I & Px)].
  exists out. conj; auto.
  - unfold binary. rewrite I. conj; auto. apply samples_of_pixels; [exact W|].
    intros x y Hin. unfold inside in Hin. rewrite I in Hin. rewrite (Px x y Hin).
    destruct (qz (wsum img r x y)); constructor; auto.
  - intros x y Hin. rewrite <- (HP x y Hin). unfold white, inside. rewrite I, (Px x y Hin).
    destruct (qz (wsum img r x y)); split; try congruence; auto.
    intros [_ H]. discriminate.
Qed.

Section Windows.
  Context (img : image Z) (Hg : gray img) (r : Z) (Hr : 0 <= r <= width (info_of img)) (Hrh : r <= height (info_of img)).
  Notation W := (width (info_of img)).
  Notation Ht := (height (info_of img)).

  Lemma wsum_erode x y : inside img x y ->
    (wsum img r x y = (2 * r + 1) * (2 * r + 1) * 255 <-> eroded img r x y).
  Proof.
    intros [Hx Hy]. destruct (win_bounds W r x) as (?&?&?&?); try lia. destruct (win_bounds Ht r y) as (?&?&?&?); try lia.
    unfold wsum. set (x0 := win_lo r x) in *. set (x1 := win_hi W r x) in *. set (y0 := win_lo r y) in *. set (y1 := win_hi Ht r y) in *.
    assert (Hle : forall i j, x0 <= i <= x1 -> y0 <= j <= y1 -> sample_at img i j 0 <= 255).
    { intros i j Hi Hj. destruct (gray_pixel img i j Hg ltac:(split; lia)) as [_ ?]. lia. }
    split.
    - intros E. pose proof (rect_le (fun i j => sample_at img i j 0) 255 x0 y0 x1 y1 ltac:(lia) ltac:(lia) Hle) as U.
      assert (Ex : x1 - x0 + 1 = 2 * r + 1 /\ y1 - y0 + 1 = 2 * r + 1).
      { rewrite E in U. clear - U H H0 H1 H2 H3 H4 H5 H6.
        assert (A : 1 <= x1 - x0 + 1 <= 2 * r + 1) by lia. assert (B : 1 <= y1 - y0 + 1 <= 2 * r + 1) by lia.
        set (a := x1 - x0 + 1) in *. set (b := y1 - y0 + 1) in *. set (n := 2 * r + 1) in *. clearbody a b n. nia. }
      intros x' y' [Nx Ny]. assert (Hin : inside img x' y') by (split; lia). apply (gray_white img x' y' Hg Hin).
      apply (rect_full (fun i j => sample_at img i j 0) 255 x0 y0 x1 y1); try lia; try exact Hle.
    - intros He.
      assert (Hc1 : white img (x - r) (y - r)) by (apply He; split; lia). assert (Hc2 : white img (x + r) (y + r)) by (apply He; split; lia).
      destruct Hc1 as [[? ?] _]. destruct Hc2 as [[? ?] _].
      assert (Ex0 : x0 = x - r) by (unfold x0, win_lo; destruct (Z.leb_spec r x); lia).
      assert (Ex1 : x1 = x + r) by (unfold x1, win_hi; destruct (Z.ltb_spec x (W - r)); lia).
      assert (Ey0 : y0 = y - r) by (unfold y0, win_lo; destruct (Z.leb_spec r y); lia).
      assert (Ey1 : y1 = y + r) by (unfold y1, win_hi; destruct (Z.ltb_spec y (Ht - r)); lia).
      rewrite (rect_ext _ (fun _ _ => 255)).
      + rewrite rect_const by lia. rewrite Ex0, Ex1, Ey0, Ey1. ring.
      + intros i j Hi Hj. apply (gray_white img i j Hg); [split; lia|]. apply He. split; lia.
  Qed.

  Lemma wsum_dilate x y : binary img -> inside img x y -> (255 <= wsum img r x y <-> dilated_actual img r x y).
  Proof.
    intros (_ & _ & Hbin) [Hx Hy]. destruct (win_bounds W r x) as (?&?&?&?); try lia. destruct (win_bounds Ht r y) as (?&?&?&?); try lia.
    unfold wsum, dilated_actual.
    assert (Hn : forall i j, win_lo r x <= i <= win_hi W r x -> win_lo r y <= j <= win_hi Ht r y -> 0 <= sample_at img i j 0).
    { intros i j Hi Hj. destruct (gray_pixel img i j Hg ltac:(split; lia)) as [_ ?]. lia. }
    split.
    - intros S. destruct (rect_pos _ _ _ _ _ Hn ltac:(lia)) as (i & j & Hi & Hj & Hp).
      exists i, j. conj; [exact Hi|exact Hj|]. assert (Hin : inside img i j) by (split; lia).
      apply (gray_white img i j Hg Hin). destruct (gray_pixel img i j Hg Hin) as [Epx _].
      assert (Hb : In (sample_at img i j 0) (data img)).
      { assert (In (sample_at img i j 0) (pixel_at img i j)) by (rewrite Epx; left; reflexivity).
        unfold pixel_at in H7. rewrite <- (firstn_skipn (Z.to_nat ((j * W + i) * channels (info_of img))) (data img)).
        apply in_or_app. right. revert H7. generalize (skipn (Z.to_nat ((j * W + i) * channels (info_of img))) (data img)).
        intros l Hl. rewrite <- (firstn_skipn (Z.to_nat (channels (info_of img))) l). apply in_or_app. left. exact Hl. }
      unfold samples in Hbin. rewrite Forall_forall in Hbin. specialize (Hbin _ Hb). cbv beta in Hbin. lia.
    - intros (i & j & Hi & Hj & Hw). apply (proj1 (reach_win _ _ _ _)) in Hi, Hj. assert (Hin : inside img i j) by (split; lia).
      apply (gray_white img i j Hg Hin) in Hw. rewrite <- Hw.
      apply (rect_term (fun i j => sample_at img i j 0)); assumption.
  Qed.
End Windows.

(** size of the erosion mask in u32 *)
Definition mask_fits (r : Z) : Prop := (2 * r + 1) * (2 * r + 1) * 255 <= u32_max.
Lemma max_sum_ok p r : 0 <= r -> mask_fits r -> max_sum p r = Ret (f32_of_Z ((2 * r + 1) * (2 * r + 1) * 255)).
Proof.
  unfold mask_fits, u32_max. intros Hr Hf. unfold max_sum. assert (r <= 4294967295) by nia. assert (2 * r + 1 <= 4294967295) by nia.
  ari. reflexivity.
Qed.

(** ** C34 *)
Theorem C34_erode p (img : image Z) r :
  gray img -> small_sums img -> mask_fits r -> 0 <= r <= width (info_of img) -> r <= height (info_of img) ->
  exists out, erode p img r = Ret out /\ wf out /\ info_of out = info_of img /\ binary out
    /\ forall x y, inside img x y -> (white out x y <-> eroded img r x y).
Proof.
  intros Hg Hsm Hf Hr Hrh. unfold erode. rewrite (check_gray_ok img Hg), bind_Ret, max_sum_ok by (try assumption; lia). rewrite bind_Ret.
  assert (0 <= (2 * r + 1) * (2 * r + 1) * 255) by nia.
  apply (scan_result p _ (fun z => z =? (2 * r + 1) * (2 * r + 1) * 255)); auto.
  - intros s z Hs Hz. apply erodes_Z; auto.
  - intros x y Hin. rewrite Z.eqb_eq. apply wsum_erode; auto.
Qed.

(** ** C35 *)
Theorem C35_dilate p (img : image Z) r :
  wf img -> binary img -> small_sums img -> 0 <= r <= width (info_of img) -> r <= height (info_of img) ->
  exists out, dilate p img r = Ret out /\ wf out /\ info_of out = info_of img /\ binary out
    /\ (forall x y, inside img x y -> (white out x y <-> dilated_actual img r x y))
    (* hence: never more than the dilation, and exactly the dilation where the whole window is inside *)
    /\ (forall x y, white out x y -> dilated img r x y)
    /\ (forall x y, r <= x < width (info_of img) - r -> r <= y < height (info_of img) - r ->
          (white out x y <-> dilated img r x y)).
Proof.
  intros Hwf Hb Hsm Hr Hrh. pose proof (binary_gray img Hwf Hb) as Hg. unfold dilate. rewrite (check_gray_ok img Hg), bind_Ret.
  destruct (scan_result p dilates (fun z => 255 <=? z) img r (dilated_actual img r)) as [out (E & W & I & B & P)]; auto.
  - intros s z Hs _. apply dilates_Z. exact Hs.
  - intros x y Hin. rewrite Z.leb_le. apply wsum_dilate; auto.
  - exists out. conj; auto.
    + intros x y Hw. pose proof Hw as [Hin _]. unfold inside in Hin. rewrite I in Hin.
      apply (P x y Hin) in Hw as (x' & y' & Hx & Hy & Hw'). exists x', y'. split; [|exact Hw'].
      apply (proj1 (reach_win _ _ _ _)) in Hx, Hy. destruct Hin. destruct (win_bounds (width (info_of img)) r x) as (?&?&?&?); try lia.
      destruct (win_bounds (height (info_of img)) r y) as (?&?&?&?); try lia. split; lia.
    + intros x y Hx Hy. rewrite P by (split; lia). split; intros (x' & y' & H).
      * destruct H as (Rx & Ry & Hw). exists x', y'. split; [|exact Hw]. unfold reach in *.
        destruct (Z.leb_spec r x), (Z.leb_spec r y), (Z.ltb_spec x (width (info_of img) - r)), (Z.ltb_spec y (height (info_of img) - r)); try lia.
        split; lia.
      * destruct H as ([Nx Ny] & Hw). exists x', y'. conj; [| |exact Hw]; unfold reach;
          destruct (Z.leb_spec r x), (Z.leb_spec r y), (Z.ltb_spec x (width (info_of img) - r)), (Z.ltb_spec y (height (info_of img) - r)); lia.
Qed.
(** near the border white neighbours are missed *)
Definition ex_corner : image Z := Image (Info 3 3 1 false) [0; 255; 0; 0; 0; 0; 0; 0; 0].
Theorem C35_dilation_refuted p : exists out, dilate p ex_corner 2 = Ret out /\ dilated ex_corner 2 1 1 /\ ~ white out 1 1.
Proof.
  exists (Image (Info 3 3 1 false) [255; 255; 255; 0; 0; 0; 255; 255; 255]). conj.
  - destruct p; vm_compute; reflexivity.
  - exists 1, 0. split; [split; lia|]. split; [split; cbn; lia|reflexivity].
  - intros [_ H]. discriminate.
Qed.
Lemma ex_binary w h d : forallb (fun s => (s =? 0) || (s =? 255)) d = true -> binary (Image (Info w h 1 false) d).
Proof.
  intros H. unfold binary. conj; auto. unfold samples. apply Forall_forall. intros s Hs. cbn in Hs.
  rewrite forallb_forall in H. specialize (H s Hs). lia.
Qed.
Example C34_C35_example : wf ex_corner /\ binary ex_corner /\ gray ex_corner /\ small_sums ex_corner /\ mask_fits 2
  /\ 0 <= 2 <= width (info_of ex_corner) /\ 2 <= height (info_of ex_corner)
  /\ dilated_actual ex_corner 2 2 2 /\ ~ eroded ex_corner 2 1 1 /\ eroded ex_corner 0 1 0.
Proof.
  assert (W : wf ex_corner) by (apply wfb_wf; reflexivity).
  assert (B : binary ex_corner) by (apply ex_binary; reflexivity).
  assert (G : gray ex_corner) by (apply binary_gray; assumption).
  conj; auto; try (cbn; lia); try (unfold mask_fits, u32_max; lia).
  - apply small_sums_size; [exact W|apply G|cbn; lia].
  - exists 1, 0. unfold reach, white, inside. cbn. conj; try lia. reflexivity.
  - intros H. destruct (H 1 1) as [_ Hw]; [split; lia|discriminate].
  - intros x y [Hx Hy]. replace x with 1 by lia. replace y with 0 by lia. split; [split; cbn; lia|reflexivity].
Qed.

(** ** C36 *)
(** majority computes the same function as dilate, on every input *)
Theorem C36_majority_is_dilate p (img : image Z) r : majority p img r = dilate p img r.
Proof. reflexivity. Qed.
(** so a window with a single white pixel among (2r+1)^2 gives white: the documented rule is false
    for every binary image and every interior pixel that is not in the majority but sees a white pixel *)
Theorem C36_majority_refuted p (img : image Z) r x y :
  wf img -> binary img -> small_sums img -> 0 <= r -> r <= x < width (info_of img) - r -> r <= y < height (info_of img) - r ->
  dilated img r x y -> 2 * white_count img r x y <= (2 * r + 1) * (2 * r + 1) ->
  exists out, majority p img r = Ret out /\ white out x y.
Proof.
  intros Hwf Hb Hsm Hr Hx Hy Hd _. rewrite C36_majority_is_dilate.
  destruct (C35_dilate p img r Hwf Hb Hsm ltac:(lia) ltac:(lia)) as [out (E & _ & _ & _ & _ & _ & P)].
  exists out. split; [exact E|]. apply P; auto.
Qed.
Definition ex_dot : image Z := Image (Info 3 3 1 false) [0; 0; 0; 0; 255; 0; 0; 0; 0].
Example C36_example p : wf ex_dot /\ binary ex_dot /\ dilated ex_dot 1 1 1 /\ white_count ex_dot 1 1 1 = 1
  /\ majority p ex_dot 1 = Ret (Image (Info 3 3 1 false) (repeat 255 9)).
Proof.
  conj.
  - apply wfb_wf. reflexivity.
  - apply ex_binary. reflexivity.
  - exists 1, 1. split; [split; lia|]. split; [split; cbn; lia|reflexivity].
  - vm_compute. reflexivity.
  - destruct p; vm_compute; reflexivity.
Qed.

(** ** C37 *)
Lemma small_sums_white (a b : image Z) : wf a -> wf b -> gray a -> gray b -> info_of a = info_of b ->
  (forall x y, white a x y -> white b x y) -> binary a -> small_sums b -> small_sums a.
Proof.
  intros Wa Wb Ga Gb I Hle Ba Hb c Hc. assert (Hc0 : c = 0) by (destruct Ga as (_&_&E&_); lia). subst c.
  pose proof (Hb 0 ltac:(rewrite <- I; exact Hc)) as S. rewrite I. eapply Z.le_trans; [|exact S].
  apply Z.mul_le_mono_nonneg_l; [lia|]. unfold rect_sum. apply Zsum_le. intros y Hy. apply Zsum_le. intros x Hx.
  assert (Ia : inside a x y) by (split; rewrite I; lia). assert (Ib : inside b x y) by (split; lia).
  destruct (gray_pixel b x y Gb Ib) as [_ ?].
  assert (D : sample_at a x y 0 = 0 \/ sample_at a x y 0 = 255).
  { destruct (gray_pixel a x y Ga Ia) as [E _]. destruct Ba as (_ & _ & Hs). unfold samples in Hs.
    assert (F : Forall (fun s => s = 0 \/ s = 255) (pixel_at a x y)) by (unfold pixel_at; apply Forall_firstn_ss, Forall_skipn_ss; exact Hs).
    rewrite E in F. exact (Forall_inv F). }
  destruct D as [->|D]; [lia|]. rewrite D. apply (gray_white a x y Ga Ia) in D. apply Hle in D.
  apply (gray_white b x y Gb Ib) in D. lia.
Qed.

Theorem C37_open p (img : image Z) r :
  gray img -> small_sums img -> mask_fits r -> 0 <= r <= width (info_of img) -> r <= height (info_of img) ->
  exists e out, erode p img r = Ret e /\ dilate p e r = Ret out /\ morph_open p img r = Ret out
    /\ wf out /\ info_of out = info_of img /\ binary out
    /\ (forall x y, inside img x y -> (white out x y <->
          exists x' y', reach (width (info_of img)) r x x' /\ reach (height (info_of img)) r y y' /\ eroded img r x' y'))
    (* opening only removes white pixels *)
    /\ (forall x y, white out x y -> white img x y).
Proof.
  intros Hg Hsm Hf Hr Hrh.
  destruct (C34_erode p img r Hg Hsm Hf Hr Hrh) as [e (Ee & We & Ie & Be & Pe)].
  assert (Sub : forall x y, white e x y -> white img x y).
  { intros x y Hw. pose proof Hw as [Hin _]. unfold inside in Hin. rewrite Ie in Hin.
    apply (Pe x y Hin) in Hw. apply Hw. split; lia. }
  destruct (C35_dilate p e r We Be) as [out (Eo & Wo & Io & Bo & Po & _ & _)].
  { apply (small_sums_white e img); auto; [apply Hg|apply binary_gray; assumption]. }
  { rewrite Ie. exact Hr. } { rewrite Ie. exact Hrh. }
  assert (Char : forall x y, inside img x y -> (white out x y <->
          exists x' y', reach (width (info_of img)) r x x' /\ reach (height (info_of img)) r y y' /\ eroded img r x' y')).
  { intros x y Hin. rewrite Po by (unfold inside; rewrite Ie; exact Hin). unfold dilated_actual. rewrite Ie.
    split; intros (x' & y' & Rx & Ry & H); exists x', y'; conj; auto.
    - apply Pe; [|exact H]. destruct H as [H _]. unfold inside in *. rewrite Ie in H. exact H.
    - apply Pe; [|exact H]. destruct (H x' y' ltac:(split; lia)) as [H' _]. exact H'. }
  exists e, out. conj; auto.
  - unfold morph_open. rewrite Ee. exact Eo.
  - congruence.
  - intros x y Hw. pose proof Hw as [Hin _]. unfold inside in Hin. rewrite Io, Ie in Hin.
    apply (Char x y Hin) in Hw as (x' & y' & Rx & Ry & He). apply He.
    apply (proj1 (reach_win _ _ _ _)) in Rx, Ry. destruct Hin as [Hx Hy].
    destruct (win_bounds (width (info_of img)) r x) as (?&?&?&?); try lia. destruct (win_bounds (height (info_of img)) r y) as (?&?&?&?); try lia.
    split; lia.
Qed.

Theorem C37_close p (img : image Z) r :
  wf img -> binary img -> width (info_of img) * height (info_of img) <= 32896 ->
  mask_fits r -> 0 <= r <= width (info_of img) -> r <= height (info_of img) ->
  exists d out, dilate p img r = Ret d /\ erode p d r = Ret out /\ morph_close p img r = Ret out
    /\ wf out /\ info_of out = info_of img /\ binary out
    /\ (forall x y, inside img x y -> (white out x y <->
          forall x' y', near r x y x' y' -> inside img x' y' /\ dilated_actual img r x' y'))
    (* away from the border closing keeps every white pixel *)
    /\ (forall x y, white img x y -> 2 * r <= x < width (info_of img) - 2 * r -> 2 * r <= y < height (info_of img) - 2 * r -> white out x y).
Proof.
  intros Hwf Hb Hsz Hf Hr Hrh. pose proof (binary_gray img Hwf Hb) as Hg.
  assert (Hsm : small_sums img) by (apply small_sums_size; [exact Hwf|apply Hg|exact Hsz]).
  destruct (C35_dilate p img r Hwf Hb Hsm Hr Hrh) as [d (Ed & Wd & Id & Bd & Pd & _ & _)].
  pose proof (binary_gray d Wd Bd) as Gd.
  destruct (C34_erode p d r Gd) as [out (Eo & Wo & Io & Bo & Po)]; auto.
  { apply small_sums_size; [exact Wd|apply Gd|rewrite Id; exact Hsz]. }
  { rewrite Id; exact Hr. } { rewrite Id; exact Hrh. }
  assert (Char : forall x y, inside img x y -> (white out x y <->
          forall x' y', near r x y x' y' -> inside img x' y' /\ dilated_actual img r x' y')).
  { intros x y Hin. rewrite Po by (unfold inside; rewrite Id; exact Hin). split; intros H x' y' Hn.
    - specialize (H x' y' Hn). assert (Hin' : inside img x' y') by (destruct H as [H _]; unfold inside in *; rewrite Id in H; exact H).
      split; [exact Hin'|]. apply (Pd x' y' Hin'). exact H.
    - destruct (H x' y' Hn) as [Hin' Hd]. apply (Pd x' y' Hin'). exact Hd. }
  exists d, out. conj; auto.
  - unfold morph_close. rewrite Ed. exact Eo.
  - congruence.
  - intros x y Hw Hx Hy. apply Char; [apply Hw|]. intros x' y' [Nx Ny]. split; [split; lia|].
    exists x, y. conj; [| |exact Hw]; unfold reach;
      destruct (Z.leb_spec r x'), (Z.leb_spec r y'), (Z.ltb_spec x' (width (info_of img) - r)), (Z.ltb_spec y' (height (info_of img) - r)); lia.
Qed.

Theorem C37_gradient p (img : image Z) r :
  wf img -> binary img -> small_sums img -> mask_fits r -> 0 <= r <= width (info_of img) -> r <= height (info_of img) ->
  exists d e g, dilate p img r = Ret d /\ erode p img r = Ret e /\ gradient p img r = Ret g
    /\ wf g /\ info_of g = info_of img /\ binary g
    /\ forall x y, inside img x y -> (white g x y <-> (white d x y /\ ~ white e x y)).
Proof.
  intros Hwf Hb Hsm Hf Hr Hrh. pose proof (binary_gray img Hwf Hb) as Hg.
  destruct (C35_dilate p img r Hwf Hb Hsm Hr Hrh) as [d (Ed & _ & _ & _ & Pd & _ & _)].
  destruct (C34_erode p img r Hg Hsm Hf Hr Hrh) as [e (Ee & _ & _ & _ & Pe)].
  set (M := (2 * r + 1) * (2 * r + 1) * 255).
  assert (0 <= M) by (unfold M; nia). assert (255 <= M) by (unfold M; nia).
  destruct (scan_result p (fun s => xorb (erodes (f32_of_Z M) s) (dilates s)) (fun z => xorb (z =? M) (255 <=? z)) img r
     (fun x y => dilated_actual img r x y /\ ~ eroded img r x y)) as [g (E & W & I & B & P)]; auto.
  - intros s z Hs Hz. rewrite (erodes_Z M s z) by (try assumption; unfold mask_fits in Hf; fold M in Hf; lia). rewrite (dilates_Z s z Hs). reflexivity.
  - intros x y Hin. rewrite <- (wsum_dilate img Hg r Hr Hrh x y Hb Hin), <- (wsum_erode img Hg r Hr Hrh x y Hin). fold M.
    destruct (Z.eqb_spec (wsum img r x y) M), (Z.leb_spec 255 (wsum img r x y)); cbn; split; intros; try discriminate; try lia; try reflexivity.
  - exists d, e, g. conj; auto.
    + unfold gradient. rewrite (check_gray_ok img Hg), bind_Ret, max_sum_ok by (try assumption; lia). exact E.
    + intros x y Hin. rewrite (P x y Hin), (Pd x y Hin), (Pe x y Hin). reflexivity.
Qed.
(** closing is not extensive at the border: a white image loses its border *)
Theorem C37_close_border_refuted p : morph_close p (Image (Info 3 3 1 false) (repeat 255 9)) 1
  = Ret (Image (Info 3 3 1 false) [0; 0; 0; 0; 255; 0; 0; 0; 0]).
Proof. destruct p; vm_compute; reflexivity. Qed.
Example C37_example p : morph_open p (Image (Info 4 3 1 false) [255; 255; 255; 0; 255; 255; 255; 0; 255; 255; 255; 255]) 1
  = Ret (Image (Info 4 3 1 false) [255; 255; 255; 0; 255; 255; 255; 0; 255; 255; 255; 0])
  /\ gradient p (Image (Info 3 3 1 false) (repeat 255 9)) 1 = Ret (Image (Info 3 3 1 false) [255; 255; 255; 255; 0; 255; 255; 255; 255]).
Proof. destruct p; vm_compute; split; reflexivity. Qed.

(** ** C38 *)
(** the six functions *)
Definition morph_ops (p : profile) : list (image Z -> Z -> outcome (image Z)) :=
  [erode p; dilate p; majority p; morph_open p; morph_close p; gradient p].

(** an image that is neither (gray) nor (gray, alpha) is rejected by all six *)
Theorem C38_rejects p op (img : image Z) r : In op (morph_ops p) ->
  ~ (alpha (info_of img) = false /\ channels (info_of img) = 1) -> ~ (alpha (info_of img) = true /\ channels (info_of img) = 2) ->
  op img r = Fail InvalidArgError.
Proof.
  intros Hop H1 H2.
  assert (E : check_grayscale img = Fail InvalidArgError).
  { unfold check_grayscale. destruct (alpha (info_of img)) eqn:Ea; cbn [andb orb negb].
    - destruct (Z.eqb_spec (channels (info_of img)) 2); [tauto|reflexivity].
    - destruct (Z.eqb_spec (channels (info_of img)) 1); [tauto|reflexivity]. }
  cbn in Hop. repeat destruct Hop as [<-|Hop]; try destruct Hop;
    unfold erode, dilate, majority, morph_open, morph_close, gradient, erode, dilate; rewrite E; reflexivity.
Qed.

(** grayscale without alpha, radius no larger than the image, exact sums: all six succeed *)
Theorem C38_accepts p op (img : image Z) r : In op (morph_ops p) ->
  wf img -> binary img -> width (info_of img) * height (info_of img) <= 32896 ->
  0 <= r <= width (info_of img) -> r <= height (info_of img) ->
  exists out, op img r = Ret out /\ info_of out = info_of img /\ binary out.
Proof.
  intros Hop Hwf Hb Hs Hr Hrh. pose proof (binary_gray img Hwf Hb) as Hg.
  assert (Hsm : small_sums img) by (apply small_sums_size; [exact Hwf|apply Hg|exact Hs]).
  assert (Hf : mask_fits r).
  { unfold mask_fits, u32_max. assert (r * r <= 32896) by (eapply Z.le_trans; [|exact Hs]; apply Z.mul_le_mono_nonneg; lia).
    clear - H Hr. nia. }
  cbn in Hop. destruct Hop as [<-|[<-|[<-|[<-|[<-|[<-|[]]]]]]].
  - destruct (C34_erode p img r Hg Hsm Hf Hr Hrh) as [out (?&?&?&?&?)]. eauto.
  - destruct (C35_dilate p img r Hwf Hb Hsm Hr Hrh) as [out (?&?&?&?&?)]. eauto.
  - destruct (C35_dilate p img r Hwf Hb Hsm Hr Hrh) as [out (?&?&?&?&?)]. eauto.
  - destruct (C37_open p img r Hg Hsm Hf Hr Hrh) as (? & out & ?&?&?&?&?&?&?). eauto.
  - destruct (C37_close p img r Hwf Hb Hs Hf Hr Hrh) as (? & out & ?&?&?&?&?&?&?). eauto.
  - destruct (C37_gradient p img r Hwf Hb Hsm Hf Hr Hrh) as (? & ? & out & ?&?&?&?&?&?&?). eauto.
Qed.

(** the documented "does not panic" is false: a radius larger than the width or the height
    makes all six panic on every non-empty grayscale image, in both profiles *)
Lemma sat_safe p (img : image f32) : wf img ->
  safe (fun t => info_of t = info_of img) (generate_summed_area_table p img).
Proof.
  intros Hwf. pose proof Hwf as [_ _ HC _ _ _]. unfold generate_summed_area_table.
  rewrite (blank_ok p num_f32 (info_of img)) by (apply wf_info_ok; exact Hwf). rewrite bind_Ret.
  apply (safe_mfold (fun t => info_of t = info_of img)); [reflexivity|]. intros t y Ht _.
  apply (safe_mfold (fun t => info_of t = info_of img)); [exact Ht|]. clear t Ht. intros t x Ht _.
  assert (G : forall b x y, safe (fun _ => True) (if b : bool then get_pixel p t x y else Ret (repeat f32_0 (Z.to_nat (channels (info_of img)))))).
  { intros b' x' y'. destruct b'; [|exact I]. eapply safe_weaken; [apply safe_get_pixel; rewrite Ht; lia|auto]. }
  eapply safe_bind; [apply safe_get_pixel; lia|]. intros p_in _.
  eapply safe_bind; [apply G|]. intros p_l _. eapply safe_bind; [apply G|]. intros p_d _. eapply safe_bind; [apply G|]. intros p_t _.
  apply (safe_bind (fun _ => True)).
  { eapply safe_weaken; [apply (safe_mmap (fun _ => True))|auto]. intros c _.
    do 4 (eapply safe_bind; [apply safe_vget|]; intros ? _). exact I. }
  intros px _. eapply safe_weaken; [apply safe_set_pixel|]. intros t' ->. exact Ht.
Qed.

Lemma scan_big_radius p q (img : image Z) r : wf img -> 1 <= width (info_of img) -> 1 <= height (info_of img) ->
  r <= u32_max -> width (info_of img) < r \/ height (info_of img) < r -> morph_scan p q img r = Panic.
Proof.
  intros Hwf HW HH Hr Hbig. pose proof Hwf as [? ? ? ? ? ?]. unfold morph_scan, from_u8_f32. rewrite map_channels_pure by exact Hwf. rewrite bind_Ret.
  set (f := Image (info_of img) (map f32_of_Z (data img))).
  pose proof (sat_safe p f ltac:(apply map_data_wf; exact Hwf)) as Hs.
  destruct (generate_summed_area_table p f) as [t| | |]; cbn in Hs; try contradiction; [|reflexivity].
  rewrite bind_Ret. rewrite (blank_ok p num_u8 (info_of img)) by (apply wf_info_ok; exact Hwf). rewrite bind_Ret.
  rewrite (zrange_cons 0 (height (info_of img))) by lia. cbn [mfold]. rewrite (zrange_cons 0 (width (info_of img))) by lia. cbn [mfold].
  assert (E : (let! '(x0, y0, x1, y1) := window p (width (info_of img)) (height (info_of img)) r 0 0 in
               rectangular_intensity_sum p t x0 y0 x1 y1) = Panic).
  { unfold window. replace (r <=? 0) with false by lia. rewrite bind_Ret.
    assert (P : forall x y, width (info_of t) <= x \/ height (info_of t) <= y -> forall x0 y0, rectangular_intensity_sum p t x0 y0 x y = Panic).
    { intros x y Hxy x0 y0. unfold rectangular_intensity_sum, get_pixel, check_xy.
      destruct (Z.leb_spec (width (info_of t)) x); [reflexivity|]. destruct (Z.leb_spec (height (info_of t)) y); [reflexivity|lia]. }
    rewrite Hs in P. unfold u32_max in *.
    assert (Sub : forall w, 1 <= w <= 4294967295 -> isub p U32 w r = Panic \/ exists wr, isub p U32 w r = Ret wr /\ (w < r -> 0 < wr)).
    { intros w Hw. destruct (Z_le_gt_dec r w) as [Hle|Hgt].
      - right. exists (w - r). split; [apply isub_ok; ity_lia|lia].
      - destruct p; [left|right].
        + unfold isub, arith. replace (in_ity U32 (w - r)) with false by (symmetry; unfold in_ity; cbn; lia). reflexivity.
        + unfold isub, arith. destruct (in_ity U32 (w - r)) eqn:Er; [unfold in_ity in Er; cbn in Er; lia|].
          eexists. split; [reflexivity|]. intros _. change (cast U32 (w - r)) with ((w - r - 0) mod 4294967296 + 0).
          assert (Em : (w - r - 0) mod 4294967296 = w - r + 4294967296) by (symmetry; apply Z.mod_unique with (q := -1); lia).
          rewrite Em. lia. }
    destruct (Sub (width (info_of img)) ltac:(lia)) as [->|(wr & -> & Hwr)]; [reflexivity|]. rewrite bind_Ret.
    destruct (Sub (height (info_of img)) ltac:(lia)) as [Eh|(hr & Eh & Hhr)].
    - destruct (0 <? wr); [rewrite iadd_ok by ity_lia|]; rewrite ?bind_Ret, Eh; reflexivity.
    - destruct (Z.ltb_spec 0 wr) as [Hw0|Hw0]; [rewrite iadd_ok by ity_lia|]; rewrite !bind_Ret, Eh, bind_Ret;
        (destruct (Z.ltb_spec 0 hr) as [Hh0|Hh0]; [try rewrite iadd_ok by ity_lia|]; rewrite !bind_Ret; apply P; cbn [info_of f]; lia). }
  destruct (window p (width (info_of img)) (height (info_of img)) r 0 0) as [[[[x0 y0] x1] y1]| | |]; cbn [bind] in E |- *; try discriminate; [|reflexivity].
  rewrite E. reflexivity.
Qed.

Lemma max_sum_safe p r : safe (fun _ => True) (max_sum p r).
Proof.
  unfold max_sum. do 4 (eapply safe_bind; [apply safe_arith|]; intros ? _). exact I.
Qed.

Theorem C38_big_radius_refuted p op (img : image Z) r : In op (morph_ops p) ->
  wf img -> check_grayscale img = Ret tt -> 1 <= width (info_of img) -> 1 <= height (info_of img) ->
  r <= u32_max -> width (info_of img) < r \/ height (info_of img) < r -> op img r = Panic.
Proof.
  intros Hop Hwf Hg HW HH Hr Hbig. pose proof (fun q => scan_big_radius p q img r Hwf HW HH Hr Hbig) as S.
  assert (Ee : erode p img r = Panic).
  { unfold erode. rewrite Hg, bind_Ret. pose proof (max_sum_safe p r) as M. destruct (max_sum p r); cbn in M; try contradiction; [|reflexivity].
    rewrite bind_Ret. apply S. }
  assert (Ed : dilate p img r = Panic) by (unfold dilate; rewrite Hg, bind_Ret; apply S).
  cbn in Hop. destruct Hop as [<-|[<-|[<-|[<-|[<-|[<-|[]]]]]]]; auto.
  - unfold morph_open. rewrite Ee. reflexivity.
  - unfold morph_close. rewrite Ed. reflexivity.
  - unfold gradient. rewrite Hg, bind_Ret. pose proof (max_sum_safe p r) as M. destruct (max_sum p r); cbn in M; try contradiction; [|reflexivity].
    rewrite bind_Ret. apply S.
Qed.

(** nor is it true for (gray, alpha) images: a one-sample pixel is written into a two-sample one *)
Theorem C38_alpha_refuted p (img : image Z) r x y :
  wf img -> samples is_u8 img -> alpha (info_of img) = true -> channels (info_of img) = 2 -> small_sums img ->
  0 <= r <= width (info_of img) -> r <= height (info_of img) ->
  inside img x y -> sample_at img x y 0 = 255 -> dilate p img r = Panic /\ majority p img r = Panic.
Proof.
  intros Hwf Hu Ha HC Hsm Hr Hrh Hin Hs.
  assert (E : dilate p img r = Panic); [|split; exact E].
  unfold dilate. assert (Hg : check_grayscale img = Ret tt) by (unfold check_grayscale; rewrite Ha, HC; reflexivity).
  rewrite Hg, bind_Ret. apply (scan_panic p img Hwf Hu Hsm r Hr Hrh ltac:(lia) dilates (fun z => 255 <=? z)) with (x := x) (y := y); [|lia|exact Hin|].
  - intros s z Hz _. apply dilates_Z. exact Hz.
  - apply Z.leb_le. rewrite <- Hs. pose proof Hin as [Hx Hy]. unfold wsum.
    destruct (win_bounds (width (info_of img)) r x) as (?&?&?&?); try lia. destruct (win_bounds (height (info_of img)) r y) as (?&?&?&?); try lia.
    apply (rect_term (fun i j => sample_at img i j 0)); [|lia|lia].
    intros i j Hi Hj. destruct (sample_u8 img i j 0 Hwf Hu ltac:(split; lia) ltac:(lia)) as [[? ?] _]. lia.
Qed.
(** ... and where no pixel is white the result is the all-zero image: alpha is not kept *)
Theorem C38_alpha_blank p (img : image Z) r :
  wf img -> samples is_u8 img -> alpha (info_of img) = true -> channels (info_of img) = 2 -> small_sums img ->
  0 <= r <= width (info_of img) -> r <= height (info_of img) ->
  (forall x y, inside img x y -> sample_at img x y 0 = 0) ->
  dilate p img r = Ret (Image (info_of img) (repeat 0 (Z.to_nat (width (info_of img) * height (info_of img) * 2)))).
Proof.
  intros Hwf Hu Ha HC Hsm Hr Hrh H0.
  unfold dilate. assert (Hg : check_grayscale img = Ret tt) by (unfold check_grayscale; rewrite Ha, HC; reflexivity).
  rewrite Hg, bind_Ret, <- HC. apply (scan_blank p img Hwf Hu Hsm r Hr Hrh ltac:(lia) dilates (fun z => 255 <=? z)).
  - intros s z Hz _. apply dilates_Z. exact Hz.
  - intros x y [Hx Hy]. apply Z.leb_gt. unfold wsum.
    destruct (win_bounds (width (info_of img)) r x) as (?&?&?&?); try lia. destruct (win_bounds (height (info_of img)) r y) as (?&?&?&?); try lia.
    rewrite (rect_ext _ (fun _ _ => 0)); [rewrite rect_const; lia|]. intros i j Hi Hj. apply H0. split; lia.
Qed.
(** a mask of more than 2^32/255 pixels overflows: erode, open and gradient panic in debug *)
Theorem C38_mask_overflow_refuted (img : image Z) r : check_grayscale img = Ret tt -> 0 <= r <= u32_max -> ~ mask_fits r ->
  erode Debug img r = Panic /\ morph_open Debug img r = Panic /\ gradient Debug img r = Panic.
Proof.
  intros Hg Hr Hf.
  assert (E : max_sum Debug r = Panic).
  { unfold max_sum, mask_fits, u32_max in *.
    assert (A : forall a b, imul Debug U32 a b = if (0 <=? a * b) && (a * b <=? 4294967295) then Ret (a * b) else Panic).
    { intros a b. unfold imul, arith, in_ity. cbn. destruct ((0 <=? a * b) && (a * b <=? 4294967295)); reflexivity. }
    rewrite A. destruct ((0 <=? 2 * r) && _) eqn:E1; [rewrite bind_Ret|reflexivity].
    unfold iadd, arith. destruct (in_ity U32 (2 * r + 1)) eqn:E2; [rewrite bind_Ret|reflexivity].
    rewrite A. destruct ((0 <=? (2 * r + 1) * (2 * r + 1)) && _) eqn:E3; [rewrite bind_Ret|reflexivity].
    rewrite A. destruct ((0 <=? (2 * r + 1) * (2 * r + 1) * 255) && _) eqn:E4; [lia|reflexivity]. }
  assert (Ee : erode Debug img r = Panic) by (unfold erode; rewrite Hg, bind_Ret, E; reflexivity).
  conj; [exact Ee| |].
  - unfold morph_open. rewrite Ee. reflexivity.
  - unfold gradient. rewrite Hg, bind_Ret, E. reflexivity.
Qed.
Definition ex_ga : image Z := Image (Info 2 1 2 true) [0; 9; 255; 7].
Example C38_example : wf ex_ga /\ samples is_u8 ex_ga /\ small_sums ex_ga /\ inside ex_ga 1 0 /\ sample_at ex_ga 1 0 0 = 255
  /\ ~ mask_fits 3000 /\ wf ex_dot /\ check_grayscale ex_dot = Ret tt.
Proof.
  assert (W : wf ex_ga) by (apply wfb_wf; reflexivity).
  assert (U : samples is_u8 ex_ga) by (repeat constructor; unfold is_u8; lia).
  conj; auto; try (split; cbn; lia); try (unfold mask_fits, u32_max; lia).
  - apply small_sums_size; [exact W|exact U|cbn; lia].
  - apply wfb_wf. reflexivity.
Qed.

(** ** Without the exactness bound C34 and C35 fail *)
(** The sums are f32.  On an all-white row of at least 65795 pixels, even with radius 0, the pixel
    at 65794 becomes black: the running sum 16777470 + 255 is rounded to 16777724. *)
Section LongRow.
  Context (p : profile) (w : Z) (Hw : 65795 <= w <= u32_max).
  Definition white_row : image Z := Image (Info w 1 1 false) (repeat 255 (Z.to_nat w)).
  Let step (l : f32) : f32 := f32_sub (f32_add (f32_add (f32_of_Z 255) f32_0) l) f32_0.

  Lemma row_wf : wf white_row.
  Proof.
    unfold u32_max in *. constructor; cbn [white_row info_of width height channels data]; unfold u32_max; try lia.
    unfold len. rewrite repeat_length. lia.
  Qed.
  Lemma row_gray : binary white_row.
  Proof.
    unfold binary. cbn. conj; auto. unfold samples. apply Forall_forall. intros s Hs. apply repeat_spec in Hs. auto.
  Qed.
  Lemma row_white x : 0 <= x < w -> pixel_at white_row x 0 = [255].
  Proof.
    intros Hx. destruct (gray_pixel white_row x 0 (binary_gray _ row_wf row_gray) ltac:(split; cbn; lia)) as [E _].
    assert (F : Forall (eq 255) (pixel_at white_row x 0)).
    { unfold pixel_at. apply Forall_firstn_ss, Forall_skipn_ss, Forall_forall. intros s Hs. apply repeat_spec in Hs. auto. }
    rewrite E in F |- *. rewrite <- (Forall_inv F). reflexivity.
  Qed.

  Let f : image f32 := Image (Info w 1 1 false) (map f32_of_Z (data white_row)).
  Let prev (t : image f32) x : f32 := if 0 <? x then nth 0 (pixel_at t (x - 1) 0) f32_0 else f32_0.

  Lemma row_sat : exists t, generate_summed_area_table p f = Ret t /\ wf t /\ info_of t = Info w 1 1 false
    /\ forall x, 0 <= x < w -> pixel_at t x 0 = [step (prev t x)].
  Proof.
    assert (Wf : wf f) by (apply (map_data_wf f32_of_Z white_row), row_wf).
    unfold generate_summed_area_table. rewrite (blank_ok p num_f32 (info_of f)) by (apply wf_info_ok; exact Wf). rewrite bind_Ret.
    match goal with |- context [mfold _ _ ?b] => set (b0 := b) in * end.
    assert (Wb : wf b0) by (apply (blank_wf num_f32), wf_info_ok, Wf).
    assert (Ib : info_of b0 = Info w 1 1 false) by reflexivity. clearbody b0.
    change (height (info_of f)) with 1. change (width (info_of f)) with w. change (channels (info_of f)) with 1.
    rewrite (zrange_cons 0 1) by lia. rewrite (zrange_nil (0 + 1)) by lia. cbn [mfold].
    match goal with |- context [bind (mfold ?g _ _) _] => set (body := g) end.
    destruct (mfold_zrange_inv (fun k t => wf t /\ info_of t = Info w 1 1 false /\ forall x, 0 <= x < k -> pixel_at t x 0 = [step (prev t x)])
       body 0 w b0) as [t [E (Wt & It & Pt)]]; [lia|conj; auto; lia| |].
    - intros x t Hx (Wt & It & Pt). unfold body.
      assert (Hin : inside f x 0) by (split; cbn; lia). assert (Hin' : inside t x 0) by (unfold inside; rewrite It; cbn; lia).
      rewrite (get_pixel_ok f Wf p x 0 Hin), bind_Ret.
      assert (Epx : pixel_at f x 0 = [f32_of_Z 255]).
      { change (pixel_at f x 0) with (pixel_at (Image (info_of white_row) (map f32_of_Z (data white_row))) x 0).
        rewrite (pixel_at_map f32_of_Z white_row x 0), row_white by exact Hx. reflexivity. }
      rewrite Epx. replace (0 <? 0) with false by reflexivity. rewrite andb_false_r. change (repeat f32_0 (Z.to_nat 1)) with [f32_0].
      assert (El : (if 0 <? x then get_pixel p t (x - 1) 0 else Ret [f32_0]) = Ret [prev t x]).
      { unfold prev. destruct (Z.ltb_spec 0 x) as [H0|H0]; [|reflexivity].
        rewrite (get_pixel_ok t Wt p (x - 1) 0) by (unfold inside; rewrite It; cbn; lia). f_equal.
        rewrite (Pt (x - 1)) by lia. reflexivity. }
      rewrite El, !bind_Ret.
      match goal with |- context [mmap ?g ?l] => replace (mmap g l) with (Ret [step (prev t x)]) by reflexivity end. rewrite bind_Ret.
      rewrite set_pixel_ok by (try assumption; rewrite It; reflexivity).
      eexists. split; [reflexivity|]. set (t' := put t (0 * width (info_of t) + x) [step (prev t x)]).
      assert (Pp : forall x', 0 <= x' < w -> pixel_at t' x' 0 = if (x' =? x) && (0 =? 0) then [step (prev t x)] else pixel_at t x' 0).
      { intros x' Hx'. apply pixel_at_put; try assumption; [unfold inside; rewrite It; cbn; lia|rewrite It; reflexivity]. }
      conj.
      + apply put_wf; auto; [|rewrite It; reflexivity]. rewrite It. cbn. lia.
      + exact It.
      + intros x' Hx'. rewrite Pp by lia.
        assert (Ev : prev t' x' = prev t x').
        { unfold prev. destruct (Z.ltb_spec 0 x'); [|reflexivity]. rewrite Pp by lia.
          replace ((x' - 1 =? x) && (0 =? 0)) with false by lia. reflexivity. }
        rewrite Ev. destruct (Z.eqb_spec x' x) as [->|Hne]; cbn [andb Z.eqb]; [reflexivity|]. apply Pt. lia.
    - rewrite E, bind_Ret. exists t. conj; auto.
  Qed.

  Lemma row_scan (q : f32 -> bool) :
    (forall a, a = f32_of_Z 16777215 -> q (f32_add (f32_sub (f32_sub (step (step a)) f32_0) (step a)) f32_0) = false) ->
    exists out, morph_scan p q white_row 0 = Ret out /\ wf out /\ info_of out = info_of white_row /\ pixel_at out 65794 0 = [0].
  Proof.
    intros Hq. destruct row_sat as (t & Et & Wt & It & Pt).
    set (s := fun x => nth 0 (pixel_at t x 0) f32_0).
    assert (Hs : forall x, 0 <= x < w -> pixel_at t x 0 = [s x] /\ s x = step (if 0 <? x then s (x - 1) else f32_0)).
    { intros x Hx. unfold s. rewrite (Pt x Hx). auto. }
    assert (HZ : isZ (s 65792) 16777215).
    { apply (zrange_ind (fun k => isZ (s k) (255 * (k + 1))) 0 65792); [lia| |].
      - destruct (Hs 0 ltac:(lia)) as [_ ->]. cbn [Z.ltb Z.compare].
        apply (sub_isZ _ _ 255 0); [apply (add_isZ _ _ 255 0); [apply (add_isZ _ _ 255 0)| |]| |];
          try apply isZ_0; try (apply of_Z_isZ; lia); lia.
      - intros k Hk IH. destruct (Hs (k + 1) ltac:(lia)) as [_ ->]. replace (0 <? k + 1) with true by lia.
        replace (k + 1 - 1) with k by lia. replace (255 * (k + 1 + 1)) with (255 + 0 + 255 * (k + 1) - 0) by lia.
        apply sub_isZ; [|apply isZ_0|lia]. apply add_isZ; [|exact IH|lia]. apply add_isZ; [apply of_Z_isZ; lia|apply isZ_0|lia]. }
    apply isZ_inj in HZ; [|lia|lia].
    assert (E1 : s 65793 = step (s 65792)) by (destruct (Hs 65793 ltac:(lia)) as [_ ->]; reflexivity).
    assert (E2 : s 65794 = step (s 65793)) by (destruct (Hs 65794 ltac:(lia)) as [_ ->]; reflexivity).
    assert (ER : forall x, 0 <= x < w -> rectangular_intensity_sum p t x 0 x 0
              = Ret [f32_add (f32_sub (f32_sub (s x) f32_0) (if negb (x =? 0) then s (x - 1) else f32_0)) f32_0]).
    { intros x Hx. unfold rectangular_intensity_sum. rewrite It. cbn [channels].
      rewrite (get_pixel_ok t Wt p x 0) by (unfold inside; rewrite It; cbn; lia). rewrite bind_Ret.
      destruct (Hs x Hx) as [-> _]. change (negb (0 =? 0)) with false. rewrite andb_false_r. change (repeat f32_0 (Z.to_nat 1)) with [f32_0].
      destruct (Z.eqb_spec x 0) as [H0|H0]; cbn [negb]; [reflexivity|].
      rewrite (get_pixel_ok t Wt p (x - 1) 0) by (unfold inside; rewrite It; cbn; lia).
      destruct (Hs (x - 1) ltac:(lia)) as [-> _]. reflexivity. }
    unfold morph_scan, from_u8_f32. rewrite map_channels_pure by exact row_wf. rewrite bind_Ret.
    change (Image (info_of white_row) (map f32_of_Z (data white_row))) with f. rewrite Et, bind_Ret.
    rewrite (blank_ok p num_u8 (info_of white_row)) by (apply wf_info_ok; exact row_wf). rewrite bind_Ret.
    match goal with |- context [mfold _ _ ?b] => set (bl := b) in * end.
    assert (Wb : wf bl) by (apply (blank_wf num_u8), wf_info_ok, row_wf).
    set (sum := fun x => f32_add (f32_sub (f32_sub (s x) f32_0) (if negb (x =? 0) then s (x - 1) else f32_0)) f32_0) in *.
    edestruct (write_rect p (fun x y => if q (sum x) then Some [255] else None)) as [out (E & Wo & I & P)].
    5:{ exists out. conj; [exact E|exact Wo|exact I|].
        assert (Hin : inside bl 65794 0) by (split; cbn [bl info_of width height white_row]; lia).
        rewrite (P 65794 0 Hin).
        assert (Q : q (sum 65794) = false).
        { unfold sum. change (negb (65794 =? 0)) with true. change (65794 - 1) with 65793. cbv iota. rewrite E2, E1. apply Hq. exact HZ. }
        rewrite Q. unfold bl. rewrite pixel_at_blank; [reflexivity|apply wf_info_ok, row_wf|cbn; lia|cbn; lia]. }
    - exact Wb.
    - intros im x y Hx Hy Him Wim. cbv beta. cbn [width height white_row info_of] in Hx, Hy |- *.
      rewrite window_ok by (unfold u32_max in *; lia). rewrite bind_Ret. replace y with 0 by lia.
      unfold win_lo, win_hi. replace (0 <=? x) with true by lia. replace (x <? w - 0) with true by lia. change (0 <=? 0) with true. change (0 <? 1 - 0) with true. cbv iota.
      rewrite !Z.sub_0_r, !Z.add_0_r. rewrite ER by lia. rewrite bind_Ret. fold (sum x).
      change (vget [sum x] 0) with (Ret (sum x)). rewrite bind_Ret. destruct (q (sum x)); reflexivity.
    - intros x y Hx Hy _. split; assumption.
    - intros x y px Hx Hy E. destruct (q (sum x)); [|discriminate]. injection E as <-. reflexivity.
  Qed.

  (** every pixel is white, radius 0, and yet erosion and dilation lose pixel 65794 *)
  Theorem C34_C35_bound_refuted : wf white_row /\ binary white_row /\ mask_fits 0
    /\ eroded white_row 0 65794 0 /\ dilated white_row 0 65794 0
    /\ (exists out, erode p white_row 0 = Ret out /\ pixel_at out 65794 0 = [0])
    /\ (exists out, dilate p white_row 0 = Ret out /\ pixel_at out 65794 0 = [0]).
  Proof.
    pose proof (binary_gray _ row_wf row_gray) as Hg.
    conj; [exact row_wf|exact row_gray|unfold mask_fits, u32_max; lia| | | |].
    - intros x y [Hx Hy]. replace x with 65794 by lia. replace y with 0 by lia. split; [split; cbn; lia|apply row_white; lia].
    - exists 65794, 0. split; [split; lia|]. split; [split; cbn; lia|apply row_white; lia].
    - unfold erode. rewrite (check_gray_ok _ Hg), bind_Ret, max_sum_ok by (unfold mask_fits, u32_max; lia). rewrite bind_Ret.
      destruct (row_scan (erodes (f32_of_Z ((2 * 0 + 1) * (2 * 0 + 1) * 255)))) as [out (E & _ & _ & P)]; [|eauto].
      intros a ->. vm_compute. reflexivity.
    - unfold dilate. rewrite (check_gray_ok _ Hg), bind_Ret.
      destruct (row_scan dilates) as [out (E & _ & _ & P)]; [|eauto]. intros a ->. vm_compute. reflexivity.
  Qed.
End LongRow.
