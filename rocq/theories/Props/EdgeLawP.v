(** * C78: the edge operators see differences only, and treat left and right, up and down, rows and columns alike *)
From Verif.Proofs Require Import BaseL ImageL ImageOps ImageProps FilterL FloatL FloatL2 ToneL.
From Verif.Spec Require Import SumS ColorS FloatS.
From Verif.Props Require Import ImageP FloatP MatP TransformP FilterP FilterP2 EdgeP.
From Flocq Require Import Core BinarySingleNaN.
From Coq Require Import Reals Lra.
Open Scope Z_scope.

(** a gray image with integer samples [v], none larger than [m] (8-bit images converted to f32 have m = 255) *)
Definition gray_integers (img : image f32) (v : Z -> Z -> Z) (m : Z) : Prop :=
  wf img /\ small (info_of img) /\ channels (info_of img) = 1 /\ alpha (info_of img) = false
  /\ forall x y, inside img x y -> holds (value img x y 0) (v x y) /\ Z.abs (v x y) <= m.

(** what is assumed of the math library: the power function squares *)
Definition squares (lm : libm) : Prop := forall x, powf lm x (f32_of_Z 2) = f32_mul x x.

(** the samples of [out] are the lengths of the vectors (gx, gy), correctly rounded *)
Definition lengths_of (inf : info) (gx gy : Z -> Z -> Z) (out : image f32) : Prop :=
  info_of out = inf /\ wf out
  /\ forall x y, 0 <= x < width inf -> 0 <= y < height inf ->
     fin (value out x y 0) (rnd32 (R_sqrt.sqrt (IZR (gx x y * gx x y + gy x y * gy x y)))).

Lemma gray_int (img : image f32) v m : gray_integers img v m -> int_image img (fun x y _ => v x y).
Proof.
  intros (Hwf & _ & HC & _ & Hv) x y c Hin Hc. rewrite HC in Hc. assert (c = 0) as -> by lia.
  exists (value img x y 0). split; [rewrite (pixel_1 img x y Hwf HC Hin); reflexivity|apply Hv; exact Hin].
Qed.

(** ** two floats with the same or opposite integer values have the same square *)
Lemma mul_self (g : f32) a : holds g a -> a * a <= 16777216 -> isZ (f32_mul g g) (a * a) /\ Bsign (f32_mul g g) = false.
Proof.
  intros Hg Hb. assert (HZ : isZ (f32_mul g g) (a * a)) by (apply mul_isZ; [exact Hg|exact Hg|rewrite Z.abs_eq; nia]).
  split; [exact HZ|]. destruct HZ as [HF _]. clear Hb. destruct Hg as [Fg _]. destruct g as [s|s| |s mx ex B]; try discriminate Fg; [destruct s; reflexivity|].
  pose proof (Bmult_correct 24 128 _ _ mode_NE (B754_finite s mx ex B) (B754_finite s mx ex B)) as H.
  unfold f32_mul in *. destruct (Rlt_bool _ _) in H.
  - destruct H as (_ & _ & H). rewrite H; [destruct s; reflexivity|]. destruct (Bmult _ _ _); try discriminate HF; reflexivity.
  - apply (f_equal is_finite_SF) in H. rewrite is_finite_SF_B2SF in H. rewrite HF in H. discriminate H.
Qed.
Lemma square_det (g h : f32) a c : holds g a -> holds h c -> Z.abs a = Z.abs c -> a * a <= 16777216 ->
  f32_mul g g = f32_mul h h.
Proof.
  intros Hg Hh Ha Hb. assert (E : a * a = c * c) by (rewrite <- (Z.abs_square a), <- (Z.abs_square c), Ha; reflexivity).
  destruct (mul_self g a Hg Hb) as ([F1 V1] & S1). destruct (mul_self h c Hh ltac:(lia)) as ([F2 V2] & S2).
  apply B2R_Bsign_inj; try assumption; congruence.
Qed.
Lemma magnitude_det lm (g1 g2 h1 h2 : f32) a1 a2 c1 c2 : squares lm ->
  holds g1 a1 -> holds g2 a2 -> holds h1 c1 -> holds h2 c2 -> Z.abs a1 = Z.abs c1 -> Z.abs a2 = Z.abs c2 ->
  a1 * a1 <= 16777216 -> a2 * a2 <= 16777216 -> magnitude lm g1 g2 = magnitude lm h1 h2.
Proof.
  intros Hs H1 H2 H3 H4 E1 E2 B1 B2. unfold magnitude. rewrite !Hs.
  rewrite (square_det g1 h1 a1 c1), (square_det g2 h2 a2 c2) by assumption. reflexivity.
Qed.
Lemma add_comm_isZ (g h : f32) a c : isZ g a -> isZ h c -> Bsign g = false -> Bsign h = false -> 0 <= a -> 0 <= c -> a + c <= 16777216 ->
  f32_add g h = f32_add h g.
Proof.
  intros Hg Hh Sg Sh Ha Hc Hb.
  pose proof (add_isZ g h a c Hg Hh ltac:(lia)) as [F1 V1]. pose proof (add_isZ h g c a Hh Hg ltac:(lia)) as [F2 V2].
  apply B2R_Bsign_inj; try assumption; [rewrite V1, V2; f_equal; lia|].
  assert (G : forall (x y : f32) a c, isZ x a -> isZ y c -> Bsign x = false -> Bsign y = false -> 0 <= a -> 0 <= c -> a + c <= 16777216 -> Bsign (f32_add x y) = false).
  { clear. intros x y a c Hx Hy Sx Sy Ha Hc Hb. pose proof (add_isZ x y a c Hx Hy ltac:(lia)) as [HF _].
    destruct Hx as [Fx Ex], Hy as [Fy Ey].
    pose proof (Bplus_correct 24 128 _ _ mode_NE x y Fx Fy) as H. unfold f32_add in *.
    destruct (Rlt_bool _ _) in H.
    - destruct H as (_ & _ & H). rewrite H, Ex, Ey, <- plus_IZR, Sx, Sy.
      destruct (Rcompare_spec (IZR (a + c)) 0) as [Q|Q|Q]; try reflexivity. apply (lt_IZR _ 0) in Q. lia.
    - destruct H as [H _]. apply (f_equal is_finite_SF) in H. rewrite is_finite_SF_B2SF in H. rewrite HF in H. discriminate H. }
  rewrite (G g h a c), (G h g c a); auto; lia.
Qed.
Lemma magnitude_swap lm (g1 g2 h1 h2 : f32) a1 a2 : squares lm ->
  holds g1 a1 -> holds g2 a2 -> holds h1 a2 -> holds h2 a1 -> a1 * a1 + a2 * a2 <= 16777216 -> magnitude lm g1 g2 = magnitude lm h1 h2.
Proof.
  intros Hs H1 H2 H3 H4 B. unfold magnitude. rewrite !Hs.
  rewrite (square_det g1 h2 a1 a1), (square_det g2 h1 a2 a2) by (auto; nia).
  destruct (mul_self h1 a2 H3 ltac:(nia)) as [Z1 S1]. destruct (mul_self h2 a1 H4 ltac:(nia)) as [Z2 S2].
  rewrite (add_comm_isZ _ _ _ _ Z2 Z1 S2 S1); [reflexivity|nia|nia|lia].
Qed.

(** ** the gradient of an image, as an integer vector field *)
Definition gx_of (inf : info) (w : Z) (v : Z -> Z -> Z) (x y : Z) : Z := grad_x inf w (fun x y _ => v x y) x y.
Definition gy_of (inf : info) (w : Z) (v : Z -> Z -> Z) (x y : Z) : Z := grad_y inf w (fun x y _ => v x y) x y.

Lemma grad_bound (img : image f32) v m w x y : gray_integers img v m -> 0 <= w -> (w + 2) * m <= 1448 -> inside img x y ->
  gx_of (info_of img) w v x y * gx_of (info_of img) w v x y + gy_of (info_of img) w v x y * gy_of (info_of img) w v x y <= 16777216.
Proof.
  intros (_ & _ & _ & _ & Hv) Hw Hb [Hx Hy].
  assert (M : forall dx dy, Z.abs (v (padded (width (info_of img)) x dx) (padded (height (info_of img)) y dy)) <= m).
  { intros dx dy. apply Hv. split; apply padded_range; assumption. }
  assert (D : forall dx dy dx' dy', Z.abs (v (padded (width (info_of img)) x dx) (padded (height (info_of img)) y dy) - v (padded (width (info_of img)) x dx') (padded (height (info_of img)) y dy')) <= 2 * m).
  { intros dx dy dx' dy'. pose proof (M dx dy). pose proof (M dx' dy'). lia. }
  assert (B : forall d1 d2 d3, Z.abs d1 <= 2 * m -> Z.abs d2 <= 2 * m -> Z.abs d3 <= 2 * m -> Z.abs (d1 + w * d2 + d3) <= 2896).
  { clear - Hw Hb. intros d1 d2 d3 H1 H2 H3. assert (Z.abs (w * d2) <= w * (2 * m)) by (rewrite Z.abs_mul, (Z.abs_eq w) by lia; apply Z.mul_le_mono_nonneg_l; lia). lia. }
  assert (B1 : Z.abs (gx_of (info_of img) w v x y) <= 2896) by (unfold gx_of, grad_x; cbv zeta; apply B; apply D).
  assert (B2 : Z.abs (gy_of (info_of img) w v x y) <= 2896) by (unfold gy_of, grad_y; cbv zeta; apply B; apply D).
  clear - B1 B2. nia.
Qed.

Lemma edges p b lm (img : image f32) v m w : gray_integers img v m -> scheduled b (info_of img) -> 0 <= m -> 0 <= w -> (w + 2) * m <= 1448 -> w <= 16777216 ->
  exists out, sobel_weighted p b lm img w = Ret out /\ info_of out = info_of img /\ wf out
    /\ forall x y, inside img x y -> exists gx gy,
         holds gx (gx_of (info_of img) w v x y) /\ holds gy (gy_of (info_of img) w v x y)
         /\ value out x y 0 = magnitude lm gx gy.
Proof.
  intros Hg Hb Hm Hw Hbd Hw'. pose proof (gray_int img v m Hg) as Hi. destruct Hg as (Hwf & Hs & HC & HA & Hv).
  apply (C55_sobel_weighted p b lm img (fun x y _ => v x y) m w); auto; [|lia].
  intros x y Hin. apply Hv. exact Hin.
Qed.

Lemma gray_ext (a c : image f32) : wf a -> wf c -> channels (info_of a) = 1 -> info_of a = info_of c ->
  (forall x y, inside a x y -> value a x y 0 = value c x y 0) -> a = c.
Proof.
  intros Ha Hc HC HI HV. apply image_ext; auto. intros x y Hin.
  rewrite (pixel_1 a x y Ha HC Hin), (pixel_1 c x y Hc) by (try congruence; unfold inside in *; rewrite <- HI; exact Hin).
  rewrite (HV x y Hin). reflexivity.
Qed.

(** ** the exact result: every sample is the correctly rounded length of the gradient *)
Theorem C78_gradient p b lm (img : image f32) v m w : gray_integers img v m -> scheduled b (info_of img) -> squares lm ->
  0 <= m -> 0 <= w -> (w + 2) * m <= 1448 -> w <= 16777216 ->
  exists out, sobel_weighted p b lm img w = Ret out
    /\ lengths_of (info_of img) (gx_of (info_of img) w v) (gy_of (info_of img) w v) out.
Proof.
  intros Hg Hb Hs Hm Hw Hbd Hw'. destruct (edges p b lm img v m w Hg Hb Hm Hw Hbd Hw') as (out & E & I & Wo & V).
  exists out. split; [exact E|]. split; [exact I|]. split; [exact Wo|]. intros x y Hx Hy.
  destruct (V x y (conj Hx Hy)) as (gx & gy & H1 & H2 & ->).
  apply (C55_gradient_length lm gx gy _ _ Hs H1 H2). apply (grad_bound img v m w x y Hg Hw Hbd). split; assumption.
Qed.

(** ** adding a constant to every sample, or inverting the image, does not change the edges *)
Theorem C78_offset p b lm (img img' : image f32) v v' m k w :
  gray_integers img v m -> gray_integers img' v' m -> info_of img' = info_of img -> scheduled b (info_of img) -> squares lm ->
  (forall x y, inside img x y -> v' x y = v x y + k) \/ (forall x y, inside img x y -> v' x y = k - v x y) ->
  0 <= m -> 0 <= w -> (w + 2) * m <= 1448 -> w <= 16777216 ->
  exists out, sobel_weighted p b lm img w = Ret out /\ sobel_weighted p b lm img' w = Ret out.
Proof.
  intros Hg Hg' HI Hb Hs Hk Hm Hw Hbd Hw'.
  destruct (edges p b lm img v m w Hg Hb Hm Hw Hbd Hw') as (out & E & I & Wo & V).
  destruct (edges p b lm img' v' m w Hg' ltac:(rewrite HI; exact Hb) Hm Hw Hbd Hw') as (out' & E' & I' & Wo' & V').
  exists out. split; [exact E|]. rewrite E'. f_equal. apply gray_ext; auto; try congruence.
  { rewrite I', HI. apply Hg. }
  intros x y Hin. assert (Hin1 : inside img x y) by (unfold inside in *; rewrite I', HI in Hin; exact Hin).
  assert (Hin2 : inside img' x y) by (unfold inside in *; rewrite HI; exact Hin1).
  destruct (V x y Hin1) as (gx & gy & H1 & H2 & ->). destruct (V' x y Hin2) as (gx' & gy' & H1' & H2' & ->).
  pose proof (grad_bound img' v' m w x y Hg' Hw Hbd Hin2) as B. rewrite HI in *.
  assert (P : forall dx dy, inside img (padded (width (info_of img)) x dx) (padded (height (info_of img)) y dy)).
  { intros dx dy. destruct Hin1. split; apply padded_range; assumption. }
  assert (AE : Z.abs (gx_of (info_of img) w v' x y) = Z.abs (gx_of (info_of img) w v x y)
    /\ Z.abs (gy_of (info_of img) w v' x y) = Z.abs (gy_of (info_of img) w v x y)).
  { unfold gx_of, gy_of, grad_x, grad_y. cbv zeta. clear - Hk P.
    destruct Hk as [Hk|Hk]; rewrite !Hk by apply P; split; [f_equal; ring|f_equal; ring| |];
    rewrite <- Z.abs_opp; f_equal; ring. }
  destruct AE as [A1 A2]. apply (magnitude_det lm _ _ _ _ _ _ _ _ Hs H1' H2' H1 H2 A1 A2); nia.
Qed.

(** ** mirroring: edges of the mirrored image = mirrored edges *)
Lemma padded_mirror bnd x d : padded bnd (bnd - 1 - x) d = bnd - 1 - padded bnd x (- d).
Proof.
  unfold padded. destruct (Z.leb_spec 0 (bnd - 1 - x + d)), (Z.ltb_spec (bnd - 1 - x + d) bnd), (Z.leb_spec 0 (x + - d)), (Z.ltb_spec (x + - d) bnd);
  cbn [andb]; lia.
Qed.

Theorem C78_mirror p b lm (img : image f32) v m w axis :
  gray_integers img v m -> scheduled b (info_of img) -> squares lm ->
  0 <= m -> 0 <= w -> (w + 2) * m <= 1448 -> w <= 16777216 ->
  exists edge mirrored result, sobel_weighted p b lm img w = Ret edge /\ reflect_image p num_f32 img axis = Ret mirrored
    /\ sobel_weighted p b lm mirrored w = Ret result /\ reflect_image p num_f32 edge axis = Ret result.
Proof.
  intros Hg Hb Hs Hm Hw Hbd Hw'.
  destruct (edges p b lm img v m w Hg Hb Hm Hw Hbd Hw') as (out & E & I & Wo & V).
  destruct (C21_reflect p num_f32 img axis (proj1 Hg)) as (mir & E1 & W1 & I1 & P1).
  destruct (C21_reflect p num_f32 out axis Wo) as (res & E2 & W2 & I2 & P2).
  pose (tx := fun x => match axis with Vertical => width (info_of img) - 1 - x | Horizontal => x end).
  pose (ty := fun y => match axis with Vertical => y | Horizontal => height (info_of img) - 1 - y end).
  assert (T : forall x y, inside img x y -> inside img (tx x) (ty y)) by (intros x y [Hx Hy]; unfold tx, ty; destruct axis; split; lia).
  assert (Hg' : gray_integers mir (fun x y => v (tx x) (ty y)) m).
  { destruct Hg as (Hwf & Hsm & HC & HA & Hv). split; [exact W1|]. rewrite I1. split; [exact Hsm|]. split; [exact HC|]. split; [exact HA|].
    intros x y Hin. assert (Hin' : inside img x y) by (unfold inside in *; rewrite I1 in Hin; exact Hin).
    unfold value. rewrite (P1 x y Hin'). destruct (Hv (tx x) (ty y) (T x y Hin')) as [Q1 Q2].
    unfold tx, ty in *. destruct axis; split; assumption. }
  destruct (edges p b lm mir _ m w Hg' ltac:(rewrite I1; exact Hb) Hm Hw Hbd Hw') as (out' & E' & I' & Wo' & V').
  exists out, mir, out'. conj; auto. rewrite E2. f_equal. apply gray_ext; auto; try congruence.
  { rewrite I2, I. apply Hg. }
  intros x y Hin. assert (Hin1 : inside img x y) by (unfold inside in *; rewrite I2, I in Hin; exact Hin).
  assert (Hin2 : inside mir x y) by (unfold inside in *; rewrite I1; exact Hin1).
  assert (Hin3 : inside out x y) by (unfold inside in *; rewrite I; exact Hin1).
  assert (EV : value res x y 0 = value out (tx x) (ty y) 0).
  { unfold value. rewrite (P2 x y Hin3), I. unfold tx, ty. destruct axis; reflexivity. }
  rewrite EV. destruct (V _ _ (T x y Hin1)) as (gx & gy & H1 & H2 & ->). destruct (V' x y Hin2) as (gx' & gy' & H1' & H2' & ->).
  pose proof (grad_bound img v m w _ _ Hg Hw Hbd (T x y Hin1)) as B. rewrite I1 in *.
  assert (AE : Z.abs (gx_of (info_of img) w v (tx x) (ty y)) = Z.abs (gx_of (info_of img) w (fun x y => v (tx x) (ty y)) x y)
    /\ Z.abs (gy_of (info_of img) w v (tx x) (ty y)) = Z.abs (gy_of (info_of img) w (fun x y => v (tx x) (ty y)) x y)).
  { unfold gx_of, gy_of, grad_x, grad_y, tx, ty. cbv zeta. clear.
    destruct axis; rewrite !padded_mirror; change (- (1)) with (-1); change (- (-1)) with 1; change (- 0) with 0;
    split; try (f_equal; ring); rewrite <- Z.abs_opp; f_equal; ring. }
  destruct AE as [A1 A2]. apply (magnitude_det lm _ _ _ _ _ _ _ _ Hs H1 H2 H1' H2' A1 A2); nia.
Qed.

(** ** rows and columns: the edges of the transposed image are the transposed edges *)
Theorem C78_transpose p b b' lm (img img' : image f32) v m w :
  gray_integers img v m -> gray_integers img' (fun x y => v y x) m ->
  width (info_of img') = height (info_of img) -> height (info_of img') = width (info_of img) ->
  scheduled b (info_of img) -> scheduled b' (info_of img') -> squares lm ->
  0 <= m -> 0 <= w -> (w + 2) * m <= 1448 -> w <= 16777216 ->
  exists out out', sobel_weighted p b lm img w = Ret out /\ sobel_weighted p b' lm img' w = Ret out'
    /\ forall x y, inside img x y -> value out' y x 0 = value out x y 0.
Proof.
  intros Hg Hg' IW IH Hb Hb' Hs Hm Hw Hbd Hw'.
  destruct (edges p b lm img v m w Hg Hb Hm Hw Hbd Hw') as (out & E & I & Wo & V).
  destruct (edges p b' lm img' _ m w Hg' Hb' Hm Hw Hbd Hw') as (out' & E' & I' & Wo' & V').
  exists out, out'. conj; auto. intros x y Hin. pose proof Hin as [Hx Hy].
  assert (Hin' : inside img' y x) by (split; lia).
  destruct (V x y Hin) as (gx & gy & H1 & H2 & ->). destruct (V' y x Hin') as (gx' & gy' & H1' & H2' & ->).
  pose proof (grad_bound img v m w _ _ Hg Hw Hbd Hin) as B. symmetry.
  apply (magnitude_swap lm gx gy gx' gy' _ _ Hs H1 H2).
  - unfold gx_of, grad_x in H1'. unfold gy_of, grad_y. cbv zeta in *. rewrite IW, IH in H1'. exact H1'.
  - unfold gy_of, grad_y in H2'. unfold gx_of, grad_x. cbv zeta in *. rewrite IW, IH in H2'. exact H2'.
  - exact B.
Qed.

(** ** flat images have no edges; sharpening leaves them alone *)
Theorem C78_flat p b lm (img : image f32) z w : gray_integers img (fun _ _ => z) (Z.abs z) -> scheduled b (info_of img) -> squares lm ->
  0 <= w -> (w + 2) * Z.abs z <= 1448 -> w <= 16777216 ->
  (exists out, sobel_weighted p b lm img w = Ret out /\ info_of out = info_of img /\ Forall (fun s => s = f32_0) (data out))
  /\ forall x y, inside img x y ->
     (exists out, laplacian p b img = Ret out /\ holds (value out x y 0) 0)
     /\ (exists out, sharpen p b img = Ret out /\ holds (value out x y 0) z)
     /\ (exists out, unsharp_masking p b img = Ret out /\ holds (value out x y 0) z).
Proof.
  intros Hg Hb Hs Hw Hbd Hw'. pose proof Hg as (Hwf & Hsm & HC & HA & Hv). split.
  - destruct (edges p b lm img _ _ w Hg Hb ltac:(lia) Hw Hbd Hw') as (out & E & I & Wo & V).
    exists out. split; [exact E|]. split; [exact I|].
    assert (V0 : forall x y, inside out x y -> value out x y 0 = f32_0).
    { intros x y Hin. assert (Hin1 : inside img x y) by (unfold inside in *; rewrite I in Hin; exact Hin).
      destruct (V x y Hin1) as (gx & gy & H1 & H2 & ->).
      assert (G0 : gx_of (info_of img) w (fun _ _ => z) x y = 0 /\ gy_of (info_of img) w (fun _ _ => z) x y = 0)
        by (unfold gx_of, gy_of, grad_x, grad_y; split; ring).
      destruct G0 as [G1 G2]. rewrite G1 in H1. rewrite G2 in H2.
      rewrite (magnitude_det lm gx gy f32_0 f32_0 0 0 0 0 Hs H1 H2); [|split; reflexivity|split; reflexivity|lia|lia|lia|lia].
      unfold magnitude. rewrite !Hs. reflexivity. }
    apply (samples_pixels (fun s => s = f32_0) out Wo). intros x y Hin. assert (HC' : channels (info_of out) = 1) by congruence.
    rewrite (pixel_1 out x y Wo HC' Hin), (V0 x y Hin). constructor; [reflexivity|constructor].
  - intros x y Hin. pose proof (gray_int img _ _ Hg) as Hi.
    assert (Hz : Z.abs z <= 724) by nia.
    assert (Bz : forall x y : Z, inside img x y -> Z.abs z <= 1000) by (intros; lia).
    split; [|split].
    + destruct (C50_laplacian p b img (fun _ _ _ => z) 1000 x y 0 Hwf Hsm Hb Hi Bz ltac:(lia) Hin ltac:(lia)) as (out & E & _ & H).
      exists out. split; [exact E|]. cbv zeta in H. replace (4 * z - z - z - z - z) with 0 in H by ring. exact H.
    + destruct (C50_sharpen p b img (fun _ _ _ => z) 1000 x y 0 Hwf Hsm Hb Hi Bz ltac:(lia) Hin ltac:(lia)) as (out & E & _ & H).
      exists out. split; [exact E|]. cbv zeta in H. replace (5 * z - z - z - z - z) with z in H by ring. exact H.
    + destruct (C50_unsharp_masking p b img (fun _ _ _ => z) x y 0 Hwf Hsm Hb Hi ltac:(intros; lia) Hin ltac:(lia)) as (out & E & _ & H).
      exists out. split; [exact E|].
      assert (B256 : 2 * 256 * z - blur256 (info_of img) (fun _ _ _ => z) x y 0 = 256 * z).
      { unfold blur256, Zsum. change (zrange (-2) 3) with [-2;-1;0;1;2]. cbn [map fold_right].
        change (binom (-2)) with 1. change (binom (-1)) with 4. change (binom 0) with 6. change (binom 1) with 4. change (binom 2) with 1. ring. }
      rewrite B256 in H. clear - H. destruct H as [HF HV]. split; [exact HF|]. rewrite HV, mult_IZR. cbn. field.
Qed.

(** ** linear ramps v(x,y) = a x + c y + k: exact in the interior, halved on the border *)
Theorem C78_ramp p b lm (img : image f32) v m a c k w x y :
  gray_integers img v m -> scheduled b (info_of img) -> squares lm ->
  (forall x y, inside img x y -> v x y = a * x + c * y + k) ->
  0 <= m -> 0 <= w -> (w + 2) * m <= 1448 -> w <= 16777216 ->
  0 <= x < width (info_of img) -> 1 <= y < height (info_of img) - 1 -> 2 <= width (info_of img) ->
  (1 <= x < width (info_of img) - 1 ->
    (exists out, sobel_weighted p b lm img w = Ret out
       /\ fin (value out x y 0) (rnd32 (R_sqrt.sqrt (IZR ((2 * (w + 2) * a) * (2 * (w + 2) * a) + (2 * (w + 2) * c) * (2 * (w + 2) * c))))))
    /\ (exists out, laplacian p b img = Ret out /\ holds (value out x y 0) 0))
  /\ (x = 0 ->
    (exists out, sobel_weighted p b lm img w = Ret out
       /\ fin (value out x y 0) (rnd32 (R_sqrt.sqrt (IZR (((w + 2) * a) * ((w + 2) * a) + (2 * (w + 2) * c) * (2 * (w + 2) * c))))))
    /\ (exists out, laplacian p b img = Ret out /\ holds (value out x y 0) (- a))).
Proof.
  intros Hg Hb Hs Hk Hm Hw Hbd Hw' Hx Hy HW. pose proof Hg as (Hwf & Hsm & HC & HA & Hv). pose proof (gray_int img _ _ Hg) as Hi.
  assert (Hin : inside img x y) by (split; lia).
  destruct (C78_gradient p b lm img v m w Hg Hb Hs Hm Hw Hbd Hw') as (out & E & _ & _ & V). specialize (V x y Hx ltac:(lia)).
  assert (Bz : forall x y : Z, inside img x y -> Z.abs (v x y) <= 1448).
  { intros x0 y0 H0. destruct (Hv x0 y0 H0) as [_ Q]. nia. }
  destruct (C50_laplacian p b img (fun x y _ => v x y) 1448 x y 0 Hwf Hsm Hb Hi Bz ltac:(lia) Hin ltac:(lia)) as (lo & EL & _ & VL).
  cbv zeta in VL.
  assert (Py : forall d, Z.abs d <= 1 -> padded (height (info_of img)) y d = y + d).
  { intros d Hd. unfold padded. destruct (Z.leb_spec 0 (y + d)), (Z.ltb_spec (y + d) (height (info_of img))); cbn [andb]; lia. }
  rewrite !Py in VL by lia.
  split; intros Hx'; (split; [exists out|exists lo]; (split; [assumption|])).
  - assert (Px : forall d, Z.abs d <= 1 -> padded (width (info_of img)) x d = x + d).
    { intros d Hd. unfold padded. destruct (Z.leb_spec 0 (x + d)), (Z.ltb_spec (x + d) (width (info_of img))); cbn [andb]; lia. }
    assert (G1 : gx_of (info_of img) w v x y = 2 * (w + 2) * a /\ gy_of (info_of img) w v x y = 2 * (w + 2) * c).
    { unfold gx_of, gy_of, grad_x, grad_y. cbv zeta. rewrite !Px, !Py by lia. rewrite !Hk by (split; lia). split; ring. }
    destruct G1 as [G1 G2]. rewrite G1, G2 in V. exact V.
  - assert (Px : forall d, Z.abs d <= 1 -> padded (width (info_of img)) x d = x + d).
    { intros d Hd. unfold padded. destruct (Z.leb_spec 0 (x + d)), (Z.ltb_spec (x + d) (width (info_of img))); cbn [andb]; lia. }
    rewrite !Px in VL by lia. rewrite !Hk in VL by (split; lia).
    match type of VL with holds _ ?z => replace z with 0 in VL by ring end. exact VL.
  - subst x. assert (Px0 : padded (width (info_of img)) 0 (-1) = 0) by reflexivity.
    assert (Px1 : padded (width (info_of img)) 0 1 = 1).
    { unfold padded. destruct (Z.leb_spec 0 (0 + 1)), (Z.ltb_spec (0 + 1) (width (info_of img))); cbn [andb]; lia. }
    assert (G1 : gx_of (info_of img) w v 0 y = (w + 2) * a /\ gy_of (info_of img) w v 0 y = 2 * (w + 2) * c).
    { unfold gx_of, gy_of, grad_x, grad_y. cbv zeta. rewrite !Px0, !Px1, !(padded_0 (width _)), !Py by lia. rewrite !Hk by (split; lia). split; ring. }
    destruct G1 as [G1 G2]. rewrite G1, G2 in V. exact V.
  - subst x. assert (Px0 : padded (width (info_of img)) 0 (-1) = 0) by reflexivity.
    assert (Px1 : padded (width (info_of img)) 0 1 = 1).
    { unfold padded. destruct (Z.leb_spec 0 (0 + 1)), (Z.ltb_spec (0 + 1) (width (info_of img))); cbn [andb]; lia. }
    rewrite Px0, Px1 in VL. rewrite !Hk in VL by (split; lia).
    match type of VL with holds _ ?z => replace z with (- a) in VL by ring end. exact VL.
Qed.

(** ** a case that meets the hypotheses: a 4x3 ramp, and the same one brighter; a power function that squares *)
Definition ex_ramp (k : Z) : image f32 := Image (Info 4 3 1 false) (map f32_of_Z (map (Z.add k) [0; 10; 20; 30; 5; 15; 25; 35; 10; 20; 30; 40])).
Definition lm_sq : libm := Libm (fun x _ => f32_mul x x) (fun x => x) (fun x => x).
Lemma ex_ramp_gray k : Z.abs k <= 200 -> gray_integers (ex_ramp k) (fun x y => 10 * x + 5 * y + k) 240.
Proof.
  intros Hk. split; [apply wfb_wf; reflexivity|]. split; [split; cbn; lia|]. split; [reflexivity|]. split; [reflexivity|].
  intros x y [Hx Hy]. cbn [ex_ramp info_of width height] in *. split; [|lia].
  assert (x = 0 \/ x = 1 \/ x = 2 \/ x = 3) as [->|[->|[->| ->]]] by lia; assert (y = 0 \/ y = 1 \/ y = 2) as [->|[->| ->]] by lia;
  (match goal with |- holds (value _ ?X ?Y 0) ?b => let N := eval vm_compute in (10 * X + 5 * Y) in
     change (holds (f32_of_Z (k + N)) b); replace b with (k + N) by lia; apply of_Z_isZ; lia end).
Qed.
Example C78_example p : 
  (exists out, sobel p Seq lm_sq (ex_ramp 0) = Ret out /\ sobel p Seq lm_sq (ex_ramp 100) = Ret out)
  /\ (exists out, laplacian p Seq (ex_ramp 0) = Ret out /\ holds (value out 1 1 0) 0)
  /\ (exists out, laplacian p Seq (ex_ramp 0) = Ret out /\ holds (value out 0 1 0) (-10)).
Proof.
  split; [|].
  - rewrite !(proj2 (C55_prewitt_sobel p Seq lm_sq _)).
    apply (C78_offset p Seq lm_sq (ex_ramp 0) (ex_ramp 100) _ _ 240 100 2 (ex_ramp_gray 0 ltac:(lia)) (ex_ramp_gray 100 ltac:(lia))); try lia; [reflexivity|exact I|intros x; reflexivity|].
    left. intros x y _. lia.
  - split; [apply (C78_ramp p Seq lm_sq (ex_ramp 0) _ 240 10 5 0 2 1 1 (ex_ramp_gray 0 ltac:(lia)))|
            apply (C78_ramp p Seq lm_sq (ex_ramp 0) _ 240 10 5 0 2 0 1 (ex_ramp_gray 0 ltac:(lia)))];
      try (cbn; lia); try exact I; try (intros x; reflexivity); intros; cbn; lia.
Qed.
