(** * C98: src/transform.rs, scale with Scale::NearestNeighbor by whole factors: laws *)
From Coq Require Import Permutation Lra.
From Verif.Model Require Import Transform Filter Convert.
From Verif.Spec Require Import ImageS FloatS ConvS ColorS.
From Verif.Proofs Require Import BaseL ImageL ImageOps Safe ToneL TransformL FloatL FloatL2.
From Verif.Props Require Import TransformP ToneP ConvP FilterP2 ScaleP GeomToneP GeomToneP2.
Open Scope Z_scope.

(** the sizes for which f32 counts exactly and the enlarged image can be stored *)
Definition fits_enlarged (i : info) (n m : Z) : Prop :=
  1 <= n < 16777216 /\ 1 <= m < 16777216 /\ width i * n < 16777216 /\ height i * m < 16777216
  /\ (width i * n) * (height i * m) * Z.max 1 (channels i) <= u32_max.

Section Laws.
  Context (p : profile) (lm : libm).
  Definition enlarge (img : image f32) (n m : Z) : outcome (image f32) :=
    scale_seq p lm img (f32_of_Z n) (f32_of_Z m) NearestNeighbor.
  Definition halve (img : image f32) : outcome (image f32) := scale_seq p lm img f32_half f32_half NearestNeighbor.

  Lemma enlarge_ok (img : image f32) n m : wf img -> fits_enlarged (info_of img) n m ->
    exists out, enlarge img n m = Ret out /\ wf out
      /\ info_of out = Info (width (info_of img) * n) (height (info_of img) * m) (channels (info_of img)) (alpha (info_of img))
      /\ forall x y, inside out x y -> pixel_at out x y = pixel_at img (x / n) (y / m).
  Proof using All.
    intros W (Hn & Hm & Hw & Hh & Hf). destruct (C22_integer_factors p lm img n m W Hn Hm Hw Hh Hf) as [out (E & _ & Wo & Io & S)].
    exists out. conj; auto.
  Qed.
  Lemma div_in w n x : 1 <= n -> 0 <= x < w * n -> 0 <= x / n < w.
  Proof using Type. intros Hn Hx. split; [apply Z.div_pos; lia|apply Z.div_lt_upper_bound; lia]. Qed.
  Lemma mirror_div w n x : 1 <= n -> 0 <= x < w * n -> (w * n - 1 - x) / n = w - 1 - x / n.
  Proof using Type.
    intros Hn Hx. pose proof (Z.div_mod x n ltac:(lia)). pose proof (Z.mod_pos_bound x n ltac:(lia)).
    symmetry. apply (Z.div_unique_pos _ n _ (n - 1 - x mod n)); nia.
  Qed.

  (** enlarging twice is enlarging once, by the product *)
  Theorem C98_twice (img : image f32) n m k l : wf img -> 1 <= n -> 1 <= m -> 1 <= k -> 1 <= l ->
    fits_enlarged (info_of img) (n * k) (m * l) -> fits_enlarged (info_of img) n m ->
    (let! o := enlarge img n m in enlarge o k l) = enlarge img (n * k) (m * l).
  Proof using All.
    intros W Hn Hm Hk Hl F F1. destruct (enlarge_ok img n m W F1) as (o & E & Wo & Io & Po).
    destruct (enlarge_ok img (n * k) (m * l) W F) as (o2 & E2 & Wo2 & Io2 & Po2). pose proof W as [W0 H0 _ _ _ _].
    destruct (enlarge_ok o k l Wo) as (o3 & E3 & Wo3 & Io3 & Po3).
    { destruct F as (A1 & A2 & A3 & A4 & A5). rewrite Io. unfold fits_enlarged. cbn [width height channels]. rewrite <- !Z.mul_assoc.
      rewrite <- !Z.mul_assoc in A5. conj; try assumption; nia. }
    rewrite E, bind_Ret, E2, E3. f_equal. apply image_ext; auto.
    - rewrite Io3, Io2, Io. cbn [width height channels alpha]. rewrite !Z.mul_assoc. reflexivity.
    - intros x y Hin. rewrite Po3 by exact Hin. pose proof Hin as [Hx Hy]. rewrite Io3, Io in Hx, Hy. cbn [width height] in Hx, Hy.
      rewrite Po. 2:{ split; rewrite Io; cbn [width height]; apply div_in; assumption. }
      rewrite Po2. 2:{ split; rewrite Io2; cbn [width height]; lia. }
      rewrite !Z.div_div, (Z.mul_comm k n), (Z.mul_comm l m) by lia. reflexivity.
  Qed.

  (** halving undoes doubling *)
  Theorem C98_halve_double (img : image f32) : wf img -> fits_enlarged (info_of img) 2 2 ->
    width (info_of img) * 2 < 16777214 -> height (info_of img) * 2 < 16777214 ->
    (let! o := enlarge img 2 2 in halve o) = Ret img.
  Proof using All.
    intros W F Hw Hh. destruct (enlarge_ok img 2 2 W F) as (o & E & Wo & Io & Po).
    assert (Ew : Z.even (width (info_of o)) = true) by (rewrite Io; cbn [width]; rewrite Z.even_mul; apply orb_true_r).
    assert (Eh : Z.even (height (info_of o)) = true) by (rewrite Io; cbn [height]; rewrite Z.even_mul; apply orb_true_r).
    destruct (C22_half_even p lm o Wo Ew Eh) as [o2 (E2 & _ & Wo2 & Io2 & Po2)]; try (rewrite Io; cbn [width height]; assumption).
    rewrite E, bind_Ret. unfold halve. rewrite E2. f_equal. rewrite Io in Io2. cbn [width height channels alpha] in Io2. rewrite !Z.div_mul in Io2 by lia.
    apply image_ext; auto; [rewrite Io2; destruct (info_of img); reflexivity|].
    intros x y Hin. rewrite Po2 by exact Hin. pose proof Hin as [Hx Hy]. rewrite Io2 in Hx, Hy. cbn [width height] in Hx, Hy.
    rewrite Po by (split; rewrite Io; cbn [width height]; lia).
    replace (2 * x + 1) with (1 + x * 2) by lia. replace (2 * y + 1) with (1 + y * 2) by lia. rewrite !Z.div_add by lia. reflexivity.
  Qed.

  (** enlarging commutes with mirroring *)
  Theorem C98_reflect (img : image f32) n m (axis : refl) : wf img -> fits_enlarged (info_of img) n m ->
    (let! o := reflect_image p num_f32 img axis in enlarge o n m) = (let! o := enlarge img n m in reflect_image p num_f32 o axis).
  Proof using All.
    intros W F. pose proof F as (Hn & Hm & _). destruct (C21_reflect p num_f32 img axis W) as [o (E & Wo & Io & Po)].
    destruct (enlarge_ok o n m Wo ltac:(rewrite Io; exact F)) as (o2 & E2 & Wo2 & Io2 & Po2).
    destruct (enlarge_ok img n m W F) as (o3 & E3 & Wo3 & Io3 & Po3).
    destruct (C21_reflect p num_f32 o3 axis Wo3) as [o4 (E4 & Wo4 & Io4 & Po4)].
    rewrite E, E3, !bind_Ret, E2, E4. f_equal. rewrite Io in Io2. apply image_ext; auto; [congruence|].
    intros x y Hin. pose proof Hin as Hin2. unfold inside in Hin2. rewrite Io2 in Hin2. cbn [width height] in Hin2. destruct Hin2 as [Hx Hy].
    rewrite Po2 by exact Hin. rewrite Po by (split; apply div_in; lia).
    rewrite Po4 by (split; rewrite Io3; assumption). rewrite Io3. cbn [width height].
    destruct axis; rewrite Po3 by (split; rewrite Io3; cbn [width height]; lia); rewrite mirror_div by lia; reflexivity.
  Qed.

  (** cropping the enlarged image at multiples of the factors is enlarging the crop *)
  Theorem C98_crop (img : image f32) n m x y w h : wf img -> fits_enlarged (info_of img) n m ->
    0 <= x -> 0 <= y -> 0 <= w -> 0 <= h -> x + w < width (info_of img) -> y + h < height (info_of img) ->
    (let! o := enlarge img n m in crop_seq p num_f32 o (x * n) (y * m) (w * n) (h * m))
    = (let! o := crop_seq p num_f32 img x y w h in enlarge o n m).
  Proof using All.
    intros W F Hx Hy Hw Hh Hr Hb. pose proof F as (Hn & Hm & F3 & F4 & F5). pose proof W as [? ? HC ? ? ?].
    destruct (enlarge_ok img n m W F) as (o & E & Wo & Io & Po).
    destruct (crop_seq_ok p num_f32 o (x * n) (y * m) (w * n) (h * m) Wo) as [o2 (E2 & Wo2 & Io2 & Po2)]; try (rewrite Io; cbn [width height]; nia); try nia.
    destruct (crop_seq_ok p num_f32 img x y w h W) as [o3 (E3 & Wo3 & Io3 & Po3)]; try lia.
    destruct (enlarge_ok o3 n m Wo3) as (o4 & E4 & Wo4 & Io4 & Po4).
    { rewrite Io3. unfold fits_enlarged. cbn [width height channels]. conj; try lia; try nia.
      assert (0 <= w * n <= width (info_of img) * n) by nia. assert (0 <= h * m <= height (info_of img) * m) by nia.
      assert (A : w * n * (h * m) <= width (info_of img) * n * (height (info_of img) * m)) by (apply Z.mul_le_mono_nonneg; lia).
      apply (Z.mul_le_mono_nonneg_r _ _ (Z.max 1 (channels (info_of img)))) in A; [|lia]. lia. }
    rewrite E, E3, !bind_Ret, E2, E4. f_equal. rewrite Io in Io2. rewrite Io3 in Io4. cbn [width height channels alpha] in Io2, Io4.
    apply image_ext; auto; [congruence|]. intros i j Hin. rewrite Po2 by exact Hin.
    pose proof Hin as [Hi Hj]. rewrite Io2 in Hi, Hj. cbn [width height] in Hi, Hj.
    rewrite Po by (split; rewrite Io; cbn [width height]; nia).
    rewrite Po4 by (split; rewrite Io4; cbn [width height]; lia). rewrite Po3 by (split; rewrite Io3; cbn [width height]; apply div_in; lia).
    rewrite (Z.add_comm (x * n)), (Z.add_comm (y * m)), !Z.div_add by lia. f_equal; lia.
  Qed.

  (** shifting the enlarged image by multiples of the factors is enlarging the shifted image *)
  Theorem C98_translate (img : image f32) n m x y : wf img -> fits_enlarged (info_of img) n m -> 0 <= x -> 0 <= y ->
    (let! o := enlarge img n m in translate p num_f32 o (x * n) (y * m))
    = (let! o := translate p num_f32 img x y in enlarge o n m).
  Proof using All.
    intros W F Hx Hy. pose proof F as (Hn & Hm & F3 & F4 & F5).
    destruct (enlarge_ok img n m W F) as (o & E & Wo & Io & Po).
    destruct (C20_translate p num_f32 o (x * n) (y * m) Wo) as [o2 (E2 & Wo2 & Io2 & Po2)]; try nia.
    destruct (C20_translate p num_f32 img x y W Hx Hy) as [o3 (E3 & Wo3 & Io3 & Po3)].
    destruct (enlarge_ok o3 n m Wo3 ltac:(rewrite Io3; exact F)) as (o4 & E4 & Wo4 & Io4 & Po4).
    rewrite E, E3, !bind_Ret, E2, E4. f_equal. rewrite Io3 in Io4. apply image_ext; auto; [congruence|].
    intros i j Hin. pose proof Hin as [Hi Hj]. rewrite Io2, Io in Hi, Hj. cbn [width height] in Hi, Hj.
    rewrite Po2 by (split; rewrite Io; assumption). rewrite Po4 by (split; rewrite Io4; assumption).
    rewrite Po3 by (split; apply div_in; lia). rewrite Io. cbn [channels].
    replace (x * n <=? i) with (x <=? i / n) by (destruct (Z.leb_spec (x * n) i); [apply Z.leb_le, Z.div_le_lower_bound; lia|apply Z.leb_gt, Z.div_lt_upper_bound; lia]).
    replace (y * m <=? j) with (y <=? j / m) by (destruct (Z.leb_spec (y * m) j); [apply Z.leb_le, Z.div_le_lower_bound; lia|apply Z.leb_gt, Z.div_lt_upper_bound; lia]).
    destruct (Z.leb_spec x (i / n)), (Z.leb_spec y (j / m)); cbn [andb]; try reflexivity.
    assert (x * n <= i) by (pose proof (Z.mul_div_le i n ltac:(lia)); nia). assert (y * m <= j) by (pose proof (Z.mul_div_le j m ltac:(lia)); nia).
    rewrite Po by (split; rewrite Io; cbn [width height]; nia).
    replace (i - x * n) with (i + (- x) * n) by lia. replace (j - y * m) with (j + (- y) * m) by lia. rewrite !Z.div_add by lia. f_equal; lia.
  Qed.

  (** what works pixel by pixel may be done before or after *)
  Theorem C98_pixelwise (D : Z -> bool -> Prop) (P : f32 -> Prop) (op : image f32 -> outcome (image f32)) (img : image f32) n m :
    pixelwise D P op -> (forall (i : image f32) (o : image f32), domain D P i -> op i = Ret o -> channels (info_of o) = channels (info_of i)) ->
    domain D P img -> fits_enlarged (info_of img) n m ->
    (let! o := enlarge img n m in op o) = (let! o := op img in enlarge o n m).
  Proof using All.
    intros (G & K & HO) HC HI F. pose proof F as (Hn & Hm & F3 & F4 & F5). pose proof HI as (W & Hs & HD & Hne).
    destruct (enlarge_ok img n m W F) as (o & E & Wo & Io & Po).
    assert (Do : domain D P o).
    { apply (domain_from D P img); auto; rewrite ?Io; cbn [width height channels alpha]; auto.
      - pose proof W as [? ? _ _ _ _]. assert (0 < width (info_of img)) by nia. assert (0 < height (info_of img)) by nia. nia.
      - intros x y Hin. exists (x / n), (y / m). apply Po. exact Hin. }
    destruct (HO o Do) as (o2 & E2 & Wo2 & Io2 & Po2). destruct (HO img HI) as (o3 & E3 & Wo3 & Io3 & Po3).
    destruct (enlarge_ok o3 n m Wo3) as (o4 & E4 & Wo4 & Io4 & Po4).
    { unfold fits_enlarged. rewrite (HC _ _ HI E3), Io3. exact F. }
    rewrite E, E3, !bind_Ret, E2, E4. f_equal. pose proof (HC _ _ HI E3) as C3. rewrite Io in Io2. rewrite Io3 in Io4, C3. cbn [width height channels alpha] in Io2, Io4, C3.
    apply image_ext; auto; [rewrite Io2, Io4; reflexivity|]. intros x y Hin. pose proof Hin as [Hx Hy]. rewrite Io2 in Hx, Hy. cbn [width height] in Hx, Hy.
    assert (Ho : inside o x y) by (split; rewrite Io; cbn [width height]; assumption).
    rewrite Po2, Po, Io by exact Ho. cbn [alpha]. rewrite Po4 by (split; rewrite Io4; cbn [width height]; assumption).
    symmetry. apply Po3. split; apply div_in; lia.
  Qed.

  (** such as thresholding and rescaling the numbers *)
  Theorem C98_threshold (img : image f32) n m t mx md : wf img -> channels (info_of img) = (if alpha (info_of img) then 2 else 1) ->
    0 < width (info_of img) * height (info_of img) -> fits_enlarged (info_of img) n m ->
    (let! o := enlarge img n m in threshold p o t mx md) = (let! o := threshold p img t mx md in enlarge o n m).
  Proof using All.
    intros W HC Hn F. eapply C98_pixelwise; [apply (pixelwise_threshold p t mx md)| |split; [exact W|]; split; [apply Forall_forall; intros; exact I|split; assumption]|exact F].
    intros i o (Wi & Hs & HD & Hne) E. unfold threshold in E. rewrite check_grayscale_ok, bind_Ret in E by exact HD.
    destruct (map_if_alpha_recolored p i (fun c => Ret (thresh_fn t mx md c)) (fun a => Ret a) (thresh_fn t mx md) (fun a => a) Wi) as (o' & E' & Io & _); auto.
    - destruct (alpha (info_of i)); [right; rewrite HD; reflexivity|left; reflexivity].
    - cbv beta in E'. rewrite E' in E. injection E as <-. rewrite Io. reflexivity.
  Qed.
  Theorem C98_scale_channels (img : image f32) n m a b c d : wf img ->
    0 < width (info_of img) * height (info_of img) -> fits_enlarged (info_of img) n m ->
    (let! o := enlarge img n m in scale_channels p o a b c d) = (let! o := scale_channels p img a b c d in enlarge o n m).
  Proof using All.
    intros W Hn F. eapply C98_pixelwise; [apply pixelwise_map| |split; [exact W|]; split; [apply Forall_forall; intros; exact I|split; [exact I|exact Hn]]|exact F].
    intros i o (Wi & _) E. unfold scale_channels in E. rewrite map_channels_pure in E by exact Wi. injection E as <-. reflexivity.
  Qed.
End Laws.

(** ** expectations that fail *)
(** halving does not commute with mirroring *)
Definition ex_row4 : image f32 := Image (Info 4 2 1 false) (map f32_of_Z [1;2;3;4; 5;6;7;8]).
Theorem C98_halve_reflect_refuted p lm :
  exists a b, (let! o := reflect_image p num_f32 ex_row4 Vertical in halve p lm o) = Ret a
    /\ (let! o := halve p lm ex_row4 in reflect_image p num_f32 o Vertical) = Ret b
    /\ pixel_at a 0 0 = [f32_of_Z 7] /\ pixel_at b 0 0 = [f32_of_Z 8].
Proof.
  assert (W : wf ex_row4) by (apply wfb_wf; vm_compute; reflexivity).
  destruct (C21_reflect p num_f32 ex_row4 Vertical W) as [o (E & Wo & Io & Po)].
  destruct (C22_half_even p lm o Wo) as [a (Ea & _ & Wa & Ia & Pa)]; try (rewrite Io; reflexivity).
  destruct (C22_half_even p lm ex_row4 W) as [h (Eh & _ & Wh & Ih & Ph)]; try reflexivity.
  destruct (C21_reflect p num_f32 h Vertical Wh) as [b (Eb & Wb & Ib & Pb)].
  exists a, b. rewrite E, bind_Ret. unfold halve. rewrite Eh, bind_Ret. split; [exact Ea|]. split; [exact Eb|].
  rewrite Io in Ia. change (Info 4 2 1 false) with (info_of ex_row4) in Ih. cbn in Ia, Ih. split.
  - rewrite Pa by (split; rewrite Ia; cbn; lia). rewrite Po by (split; cbn; lia). reflexivity.
  - rewrite Pb by (split; rewrite Ih; cbn; lia). rewrite Ih. cbn [width]. rewrite Ph by (split; rewrite Ih; cbn; lia). reflexivity.
Qed.
(** scaling by 1/61 does not undo scaling by 61: it panics *)
Definition inv61 : f32 := f32_div f32_1 (f32_of_Z 61).
Theorem C98_undo_refuted p lm (img : image f32) : wf img -> width (info_of img) = 1 -> height (info_of img) = 1 -> channels (info_of img) <= 1000000 ->
  (let! o := enlarge p lm img 61 1 in scale_seq p lm o inv61 f32_1 NearestNeighbor) = Panic.
Proof.
  intros W Hw Hh Hc. destruct (enlarge_ok p lm img 61 1 W) as (o & E & Wo & Io & Po).
  { unfold fits_enlarged. rewrite Hw, Hh. unfold u32_max. lia. }
  rewrite E, bind_Ret. rewrite Hw, Hh in Io. cbn [Z.mul Pos.mul Pos.add] in Io.
  assert (Ei : scale_info o inv61 f32_1 = Info 1 1 (channels (info_of img)) (alpha (info_of img))).
  { unfold scale_info. rewrite Io. cbn [width height channels alpha]. f_equal; vm_compute; reflexivity. }
  pose proof W as [? ? HC ? ? ?].
  assert (N1 : f32_ltb inv61 f32_0 = false) by (vm_compute; reflexivity). assert (N2 : f32_ltb f32_1 f32_0 = false) by (vm_compute; reflexivity).
  destruct (C22_nearest_exact p lm o inv61 f32_1 Wo N1 N2) as [_ G];
    try (rewrite Ei; unfold info_ok; cbn [width height channels]; unfold u32_max; lia).
  apply G. exists 0, 0. rewrite Ei. cbn [width height]. conj; try lia. left. rewrite Io. cbn [width]. apply Z.leb_le. vm_compute. reflexivity.
Qed.

Example C98_example : wf ex_row4 /\ fits_enlarged (info_of ex_row4) 6 10 /\ fits_enlarged (info_of ex_row4) 2 5
  /\ zdata (enlarge Debug (Libm (fun x _ => x) (fun x => x) (fun x => x)) ex_row4 2 1) = [1;1;2;2;3;3;4;4; 5;5;6;6;7;7;8;8].
Proof. split; [apply wfb_wf; vm_compute; reflexivity|]. unfold fits_enlarged, u32_max. cbn [info_of ex_row4 width height channels]. conj; try lia. vm_compute. reflexivity. Qed.
