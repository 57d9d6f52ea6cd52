(** * C95: what histogram equalization depends on *)
From Coq Require Import Lra Permutation.
From Flocq Require Import Core.
From Verif.Proofs Require Import BaseL ImageL ImageOps ToneL FloatL FloatL2 TransformL ApproxL PowL SrgbL SrgbL2 SrgbL3 LabL LabInvL.
From Verif.Model Require Import Tone Transform Image.
From Verif.Spec Require Import ImageS FloatS ColorS ConvS PowS LabS LabInvS HistS HistEqS.
From Verif.Props Require Import ImageP MatP HsvP ToneP ConvP SrgbP LabP LabInvP HistP HistEqP TransformP.
Open Scope Z_scope.

(** ** counts do not depend on the order *)
Lemma filter_perm {A} (f : A -> bool) l l' : Permutation l l' -> Permutation (filter f l) (filter f l').
Proof.
  intros H. induction H as [|a l l' H IH|a b l|l l' l'' H1 IH1 H2 IH2].
  - constructor.
  - cbn [filter]. destruct (f a); [constructor|]; exact IH.
  - cbn [filter]. destruct (f a), (f b); apply perm_swap || apply Permutation_refl.
  - eapply Permutation_trans; eassumption.
Qed.
Lemma nodup_perm l l' : Permutation l l' -> Permutation (nodup Z.eq_dec l) (nodup Z.eq_dec l').
Proof.
  intros H. apply NoDup_Permutation; [apply NoDup_nodup|apply NoDup_nodup|]. intros a. rewrite !nodup_In.
  split; apply Permutation_in; [exact H|apply Permutation_sym; exact H].
Qed.
Lemma len_perm {A} (l l' : list A) : Permutation l l' -> len l = len l'.
Proof. intros H. unfold len. rewrite (Permutation_length H). reflexivity. Qed.
Lemma equalized_perm bins bins' al precision l : Permutation bins bins' -> equalized bins al precision l = equalized bins' al precision l.
Proof.
  intros H. unfold equalized, count_le, bins_le. cbv zeta. set (k := bin precision l).
  rewrite (len_perm _ _ H), (len_perm _ _ (filter_perm (fun b => b <=? k) _ _ H)), (len_perm _ _ (nodup_perm _ _ (filter_perm (fun b => b <=? k) _ _ H))). reflexivity.
Qed.

(** ** reflecting an image permutes its colours *)
Lemma perm_rev_zrange n : 0 <= n -> Permutation (map (fun x => n - 1 - x) (zrange 0 n)) (zrange 0 n).
Proof.
  intros Hn. apply NoDup_Permutation.
  - apply FinFun.Injective_map_NoDup; [intros a b E; lia|apply NoDup_zrange].
  - apply NoDup_zrange.
  - intros a. rewrite in_map_iff, in_zrange. split.
    + intros [x [<- Hx]]. apply in_zrange in Hx. lia.
    + intros Ha. exists (n - 1 - a). split; [lia|]. apply in_zrange. lia.
Qed.
Lemma flat_map_perm {A B} (f g : A -> list B) l : (forall a, In a l -> Permutation (f a) (g a)) -> Permutation (flat_map f l) (flat_map g l).
Proof.
  induction l as [|a l IH]; intros H; [constructor|]. cbn [flat_map]. apply Permutation_app; [apply H; left; reflexivity|].
  apply IH. intros b Hb. apply H. right. exact Hb.
Qed.
Lemma flat_map_map {A B C} (f : B -> list C) (g : A -> B) l : flat_map f (map g l) = flat_map (fun a => f (g a)) l.
Proof. induction l as [|a l IH]; [reflexivity|]. cbn [map flat_map]. rewrite IH. reflexivity. Qed.
Lemma colours_reflect p (img out : image Z) axis : wf img -> reflect_image p num_u8 img axis = Ret out -> Permutation (colours_of img) (colours_of out).
Proof.
  intros Hw E. destruct (C21_reflect p num_u8 img axis Hw) as (o & Eo & Wo & Io & Po). rewrite E in Eo. injection Eo as <-.
  pose proof (wf_w _ Hw). pose proof (wf_h _ Hw). unfold colours_of. rewrite Io.
  destruct axis; cbv beta iota in Po.
  - apply flat_map_perm. intros y Hy. apply in_zrange in Hy. apply Permutation_sym.
    assert (Em : map (fun x => firstn 3 (pixel_at out x y)) (zrange 0 (width (info_of img)))
      = map (fun x => firstn 3 (pixel_at img x y)) (map (fun x => width (info_of img) - 1 - x) (zrange 0 (width (info_of img))))).
    { rewrite map_map. apply map_ext_in. intros x Hx. apply in_zrange in Hx. rewrite Po by (split; lia). reflexivity. }
    rewrite Em. apply Permutation_map. apply perm_rev_zrange. lia.
  - apply Permutation_sym.
    assert (Em : flat_map (fun y => map (fun x => firstn 3 (pixel_at out x y)) (zrange 0 (width (info_of img)))) (zrange 0 (height (info_of img)))
      = flat_map (fun y => map (fun x => firstn 3 (pixel_at img x y)) (zrange 0 (width (info_of img)))) (map (fun y => height (info_of img) - 1 - y) (zrange 0 (height (info_of img))))).
    { rewrite flat_map_map. apply flat_map_ext'. intros y Hy. apply in_zrange in Hy. apply map_ext_in. intros x Hx. apply in_zrange in Hx.
      rewrite Po by (split; lia). reflexivity. }
    rewrite Em. apply Permutation_flat_map. apply perm_rev_zrange. lia.
Qed.
Lemma reflect_rgb p (img out : image Z) axis : rgb_input img -> reflect_image p num_u8 img axis = Ret out -> rgb_input out.
Proof.
  intros (Hw & Hs & Hc & Hn) E. destruct (C21_reflect p num_u8 img axis Hw) as (o & Eo & Wo & Io & Po). rewrite E in Eo. injection Eo as <-.
  split; [exact Wo|]. rewrite Io. split; [|split; assumption]. apply (samples_pixels is_u8 out Wo). intros x y Hin.
  assert (Hin' : inside img x y) by (unfold inside in *; rewrite Io in Hin; exact Hin). rewrite (Po x y Hin'). destruct axis; apply pixels_samples; exact Hs.
Qed.

Section Law.
  Context (p : profile) (lm : libm).

  (** the arguments that pass the checks *)
  Definition accepted (al precision : f32) : Prop := f32_ltb precision f32_0 = false /\ f32_ltb al f32_0 = false /\ f32_ltb f32_1 al = false.

  Lemma equalize_colours w (img : image Z) al precision : rgb_input img -> 2 * (width (info_of img) * height (info_of img)) <= 2147483647 -> accepted al precision ->
    exists out, histogram_equalization p lm img al w precision = Ret out /\ wf out /\ info_of out = info_of img
      /\ forall x y, inside img x y ->
           pixel_at out x y = edit_lightness (powf lm) (white_of w) (equalized (map (code_bin lm w precision) (colours_of img)) al precision) (color_at img x y) ++ skipn 3 (pixel_at img x y)
           /\ color_at out x y = edit_lightness (powf lm) (white_of w) (equalized (map (code_bin lm w precision) (colours_of img)) al precision) (color_at img x y).
  Proof using.
    intros (Hw & Hs & Hc & Hn) Hm (A1 & A2 & A3).
    destruct (C63_histogram_equalization p lm img al w precision Hw Hs Hc Hn Hm A1 A2 A3) as [out [E [HI [Wo [_ HR]]]]].
    rewrite bins_colours in HR. set (f := edit_lightness _ _ _) in *.
    exists out. split; [exact E|]. split; [exact Wo|]. split; [exact HI|]. intros x y Hin. specialize (HR x y Hin).
    pose proof (pixel_at_len img Hw x y Hin) as Lp. unfold color_at, colors in *. unfold len in Lp.
    assert (L3 : forall r g b, exists r' g' b', f [r; g; b] = [r'; g'; b']).
    { intros r g b. unfold f, edit_lightness. unfold srgb_to_lab at 1. destruct w; cbv beta iota; eexists _, _, _; reflexivity. }
    destruct (alpha (info_of img)).
    - destruct (pixel_at img x y) as [|a0 [|a1 [|a2 [|a3 [|]]]]]; cbn in Lp; try lia. rewrite (HR [a0; a1; a2] a3 eq_refl). cbn [firstn skipn].
      destruct (L3 a0 a1 a2) as (r' & g' & b' & El). rewrite El. split; reflexivity.
    - destruct (pixel_at img x y) as [|a0 [|a1 [|a2 [|]]]]; cbn in Lp; try lia. rewrite HR. cbn [firstn skipn].
      destruct (L3 a0 a1 a2) as (r' & g' & b' & El). rewrite El. split; reflexivity.
  Qed.

  (** only the multiset of the colours counts: two images (of any shapes, with or without alpha) whose colours are rearrangements of each other
      are equalized alike - a colour of one and the same colour of the other become the same colour *)
  Theorem C95_rearranged w (img img' : image Z) al precision : rgb_input img -> rgb_input img' -> Permutation (colours_of img) (colours_of img') ->
    2 * (width (info_of img) * height (info_of img)) <= 2147483647 -> accepted al precision ->
    exists out out', histogram_equalization p lm img al w precision = Ret out /\ histogram_equalization p lm img' al w precision = Ret out'
      /\ forall x y x' y', inside img x y -> inside img' x' y' -> color_at img x y = color_at img' x' y' -> color_at out x y = color_at out' x' y'.
  Proof using.
    intros Hi Hi' HP Hm Ha.
    assert (Hm' : 2 * (width (info_of img') * height (info_of img')) <= 2147483647).
    { pose proof (len_colours (fun c : list Z => c) img (proj1 Hi)) as E1. pose proof (len_colours (fun c : list Z => c) img' (proj1 Hi')) as E2.
      rewrite map_id in E1, E2. rewrite (len_perm _ _ HP) in E1. lia. }
    destruct (equalize_colours w img al precision Hi Hm Ha) as (out & E & _ & _ & R1).
    destruct (equalize_colours w img' al precision Hi' Hm' Ha) as (out' & E' & _ & _ & R2).
    exists out, out'. split; [exact E|]. split; [exact E'|]. intros x y x' y' Hin Hin' Ec.
    rewrite (proj2 (R1 x y Hin)), (proj2 (R2 x' y' Hin')), Ec. unfold edit_lightness.
    destruct (srgb_to_lab (powf lm) (white_of w) (color_at img' x' y')) as [|l ab]; [reflexivity|].
    rewrite (equalized_perm _ _ al precision l (Permutation_map (code_bin lm w precision) HP)). reflexivity.
  Qed.
  (** within one image: equal colours become equal colours *)
  Theorem C95_same_colour w (img : image Z) al precision : rgb_input img ->
    2 * (width (info_of img) * height (info_of img)) <= 2147483647 -> accepted al precision ->
    exists out, histogram_equalization p lm img al w precision = Ret out
      /\ forall x y x' y', inside img x y -> inside img x' y' -> color_at img x y = color_at img x' y' -> color_at out x y = color_at out x' y'.
  Proof using.
    intros Hi Hm Ha. destruct (C95_rearranged w img img al precision Hi Hi (Permutation_refl _) Hm Ha) as (o & o' & E & E' & H).
    rewrite E in E'. injection E' as <-. exists o. split; [exact E|exact H].
  Qed.
  (** equalizing commutes with reflecting *)
  Theorem C95_reflect w (img : image Z) al precision axis : rgb_input img ->
    2 * (width (info_of img) * height (info_of img)) <= 2147483647 -> accepted al precision ->
    (let! r := reflect_image p num_u8 img axis in histogram_equalization p lm r al w precision)
    = (let! e := histogram_equalization p lm img al w precision in reflect_image p num_u8 e axis).
  Proof using.
    intros Hi Hm Ha. destruct (C21_reflect p num_u8 img axis (proj1 Hi)) as (r & Er & Wr & Ir & Pr). rewrite Er, bind_Ret.
    assert (Hr : rgb_input r) by (apply (reflect_rgb p img r axis); assumption).
    pose proof (colours_reflect p img r axis (proj1 Hi) Er) as HP.
    destruct (equalize_colours w img al precision Hi Hm Ha) as (e & Ee & We & Ie & Pe).
    assert (Hm' : 2 * (width (info_of r) * height (info_of r)) <= 2147483647) by (rewrite Ir; exact Hm).
    destruct (equalize_colours w r al precision Hr Hm' Ha) as (o & Eo & Wo & Io & Po). rewrite Ee, Eo, bind_Ret.
    destruct (C21_reflect p num_u8 e axis We) as (q & Eq & Wq & Iq & Pq). rewrite Eq. f_equal.
    apply image_ext; auto; [congruence|]. intros x y Hin.
    assert (I1 : inside r x y) by (unfold inside in *; rewrite Io in Hin; exact Hin).
    assert (I2 : inside img x y) by (unfold inside in *; rewrite Ir in I1; exact I1).
    assert (I3 : inside e x y) by (unfold inside in *; rewrite Ie; exact I2).
    rewrite (proj1 (Po x y I1)), (Pq x y I3), Ie. unfold color_at. rewrite (Pr x y I2).
    assert (K : forall cs : list Z, edit_lightness (powf lm) (white_of w) (equalized (map (code_bin lm w precision) (colours_of r)) al precision) cs
      = edit_lightness (powf lm) (white_of w) (equalized (map (code_bin lm w precision) (colours_of img)) al precision) cs).
    { intros cs. unfold edit_lightness. destruct (srgb_to_lab (powf lm) (white_of w) cs) as [|l ab]; [reflexivity|].
      rewrite (equalized_perm _ _ al precision l (Permutation_map (code_bin lm w precision) (Permutation_sym HP))). reflexivity. }
    rewrite K. unfold inside in I2. destruct axis; symmetry; apply Pe; split; lia.
  Qed.
End Law.

(** ** but not only on the proportions of the colours *)
Definition black1 : image Z := Image (Info 1 1 3 false) [0; 0; 0].
Definition black4 : image Z := Image (Info 2 2 3 false) [0; 0; 0; 0; 0; 0; 0; 0; 0; 0; 0; 0].

Section Proportion.
  Context (p : profile) (lm : libm) (HP : pow_wide (powf lm)).
  Open Scope R_scope.

  Lemma black_lab : byte_lab (white_real D65) 0 0 0 = (0, 0, 0).
  Proof using.
    unfold byte_lab, real_lab, byte_xyz, real_xyz. cbn [fst snd white_real d65].
    assert (L : linear_light 0 = 0) by (unfold linear_light; cbn [Z.leb Z.compare]; lra).
    rewrite L.
    assert (C0 : forall t : R, t = 0 -> lab_curve t = 4 / 29) by (intros t0 Ht; rewrite (curve_lo t0) by (unfold dl3, dl; lra); rewrite Ht; unfold Rdiv; rewrite Rmult_0_l, Rplus_0_l; reflexivity).
    repeat match goal with |- context [lab_curve ?t] => rewrite (C0 t) by lra end.
    f_equal; [f_equal|]; lra.
  Qed.
  (** a black pixel relit to lightness t *)
  Lemma black_relit t out : relit D65 t [0; 0; 0]%Z out -> 50 <= t <= 101 ->
    exists r g b, out = [r; g; b] /\ let u := ((t + 16) / 116) ^ 3 in
      (exists s, shows (/ 8000) r s /\ Rabs (s - u) <= 0.006) /\ (exists s, shows (/ 8000) g s /\ Rabs (s - u) <= 0.006) /\ (exists s, shows (/ 8000) b s /\ Rabs (s - u) <= 0.006).
  Proof using.
    intros H Ht. destruct (H 0 0 0 eq_refl)%Z as (l & a & b' & Hl & Ha & Hb & _ & S). rewrite black_lab in Ha, Hb. cbn [fst snd] in Ha, Hb.
    destruct S as (r & g & b & Eo & Sr & Sg & Sb). exists r, g, b. split; [exact Eo|]. apply Rabs_bd in Hl, Ha, Hb.
    set (n := (l + 16) / 116). set (m := (t + 16) / 116). assert (Nn : 0.56 <= n <= 1.0093) by (unfold n; lra). assert (Nm : 0.56 <= m <= 1.0093) by (unfold m; lra).
    assert (N1 : Rabs (n - m) <= 0.00006) by (unfold n, m; apply Rabs_le'; lra).
    assert (N2 : Rabs (n + a / 500 - m) <= 0.00017) by (apply Rabs_bd in N1; apply Rabs_le'; lra).
    assert (N3 : Rabs (n - b' / 200 - m) <= 0.00018) by (apply Rabs_bd in N1; apply Rabs_le'; lra).
    unfold lab_light, lab_xyz, xyz_light in Sr, Sg, Sb. cbn [fst snd white_real d65] in Sr, Sg, Sb. fold n in Sr, Sg, Sb.
    assert (P2 : 0.559 <= n + a / 500 <= 1.0095) by (apply Rabs_bd in N2; lra). assert (P3 : 0.559 <= n - b' / 200 <= 1.0095) by (apply Rabs_bd in N3; lra).
    rewrite !uncurve_hi in Sr, Sg, Sb by (unfold dl; lra).
    pose proof (cube_lip n m ltac:(lra) ltac:(lra)) as C1.
    pose proof (cube_lip (n + a / 500) m ltac:(lra) ltac:(lra)) as C2. pose proof (cube_lip (n - b' / 200) m ltac:(lra) ltac:(lra)) as C3.
    assert (D1 : Rabs (n ^ 3 - m ^ 3) <= 0.0002) by lra.
    assert (D2 : Rabs ((n + a / 500) ^ 3 - m ^ 3) <= 0.0006) by lra. assert (D3 : Rabs ((n - b' / 200) ^ 3 - m ^ 3) <= 0.0006) by lra. apply Rabs_bd in D1, D2, D3.
    assert (U : 0 <= m ^ 3 <= 1.04) by (split; [apply pow_le; lra|apply Rle_trans with (1.0093 ^ 3); [apply pow_incr; lra|cbn; lra]]).
    cbv zeta. set (u := m ^ 3) in *. set (u1 := n ^ 3) in *. set (u2 := (n + a / 500) ^ 3) in *. set (u3 := (n - b' / 200) ^ 3) in *. clearbody u u1 u2 u3.
    clear - Sr Sg Sb D1 D2 D3 U.
    split; [|split]; (eexists; split; [eassumption|apply Rabs_le'; lra]).
  Qed.

  (** a black image of one pixel, and one of four: the same colour, in the same proportion. With half equalization the first becomes
      nearly white, the second a medium gray; and cropping and equalizing do not commute *)
  Theorem C95_crop_refuted al precision pr : fin al (/ 2) -> fin precision pr -> 0 <= pr <= 1000000 ->
    exists e4 e1 c, histogram_equalization p lm black4 al D65 precision = Ret e4
      /\ crop_seq p num_u8 black4 0 0 1 1 = Ret black1 /\ histogram_equalization p lm black1 al D65 precision = Ret e1
      /\ crop_seq p num_u8 e4 0 0 1 1 = Ret c
      /\ (exists r g b, color_at c 0 0 = [r; g; b] /\ (r <= 165 /\ g <= 165 /\ b <= 165)%Z)
      /\ (exists r g b, color_at e1 0 0 = [r; g; b] /\ (250 <= r /\ 250 <= g /\ 250 <= b)%Z).
  Proof using HP.
    intros Fa Fp Hp.
    assert (R4 : rgb_input black4) by (split; [apply wfb_wf; reflexivity|]; split; [repeat constructor; unfold is_u8; lia|]; split; [reflexivity|cbn; lia]).
    assert (R1 : rgb_input black1) by (split; [apply wfb_wf; reflexivity|]; split; [repeat constructor; unfold is_u8; lia|]; split; [reflexivity|cbn; lia]).
    destruct (C84_equalize p lm HP D65 black4 al (/ 2) precision pr R4 ltac:(cbn; lia) Fa ltac:(lra) Fp Hp) as (e4 & b4 & E4 & _ & W4 & I4 & H4).
    destruct (C84_equalize p lm HP D65 black1 al (/ 2) precision pr R1 ltac:(cbn; lia) Fa ltac:(lra) Fp Hp) as (e1 & b1 & E1 & _ & W1 & I1 & H1).
    destruct (C14_crop p num_u8 e4 0 0 1 1 W4 ltac:(lia) ltac:(lia) ltac:(lia) ltac:(lia) ltac:(unfold u32_max; lia) ltac:(unfold u32_max; lia)) as [Hc _].
    rewrite I4 in Hc. destruct (Hc ltac:(cbn; lia)) as (c & Ec & Wc & Ic & Pc).
    exists e4, e1, c. split; [exact E4|]. split; [destruct p; reflexivity|]. split; [exact E1|]. split; [exact Ec|].
    assert (L0 : lightness (white_real D65) [0; 0; 0]%Z = 0) by (unfold lightness; rewrite black_lab; reflexivity).
    assert (S4 : aim (/ 2) (white_real D65) b4 black4 [0; 0; 0]%Z = 62.5).
    { unfold aim. rewrite L0. unfold share. change (colours_of black4) with [[0; 0; 0]; [0; 0; 0]; [0; 0; 0]; [0; 0; 0]]%Z. cbn [map].
      set (k := b4 [0; 0; 0]%Z). unfold count_le, bins_le. cbn [filter]. rewrite Z.leb_refl.
      replace (len (nodup Z.eq_dec [k; k; k; k])) with 1%Z; [cbn; lra|].
      cbn [nodup]. repeat (destruct (in_dec Z.eq_dec k _) as [_|N]; [|exfalso; apply N; left; reflexivity]). reflexivity. }
    assert (S1 : aim (/ 2) (white_real D65) b1 black1 [0; 0; 0]%Z = 100).
    { unfold aim. rewrite L0. unfold share. change (colours_of black1) with [[0; 0; 0]]%Z. cbn [map].
      set (k := b1 [0; 0; 0]%Z). unfold count_le, bins_le. cbn [filter]. rewrite Z.leb_refl. cbn [nodup in_dec]. cbn. lra. }
    specialize (H4 0 0 ltac:(split; cbn; lia))%Z. specialize (H1 0 0 ltac:(split; cbn; lia))%Z. cbv zeta in H4, H1.
    change (color_at black4 0 0) with [0; 0; 0]%Z in H4. change (color_at black1 0 0) with [0; 0; 0]%Z in H1.
    rewrite S4, L0 in H4. rewrite S1, L0 in H1. specialize (H4 ltac:(lra)). specialize (H1 ltac:(lra)).
    destruct (black_relit _ _ H4 ltac:(lra)) as (r4 & g4 & bb4 & C4 & Q4). destruct (black_relit _ _ H1 ltac:(lra)) as (r1 & g1 & bb1 & C1 & Q1). cbv zeta in Q4, Q1.
    split.
    - exists r4, g4, bb4. split.
      { rewrite <- C4. unfold color_at. f_equal. specialize (Pc 0 0 ltac:(lia) ltac:(lia))%Z. rewrite !get_pixel_ok in Pc; auto; [injection Pc as Pc; exact Pc| |]; split; rewrite ?Ic, ?I4; cbn; lia. }
      assert (U : 0.3 <= ((62.5 + 16) / 116) ^ 3 <= 0.31) by (cbn; lra). set (u := ((62.5 + 16) / 116) ^ 3) in *. clearbody u.
      assert (K : forall z, (exists s, shows (/ 8000) z s /\ Rabs (s - u) <= 0.006) -> (z <= 165)%Z).
      { intros z (s & Hz & Hs). apply Rabs_bd in Hs. destruct (C83_bytes z s Hz ltac:(lra)) as (_ & [H| ->] & _); [|lia].
        assert (Rpower s (/ 2.2) <= 0.65).
        { replace (/ 2.2) with (INR 5 / INR 11) by (cbn; lra). apply Rpower_le_root; [lra|lra|lia|]. apply Rle_trans with (0.316 ^ 5); [apply pow_incr; lra|cbn; lra]. }
        unfold encode in H. destruct (Rle_dec s 0.0031308); [lra|]. apply le_IZR. lra. }
      destruct Q4 as (Q1' & Q2 & Q3). split; [|split]; apply K; assumption.
    - exists r1, g1, bb1. split; [exact C1|].
      assert (U : 0.999 <= ((100 + 16) / 116) ^ 3 <= 1.001) by (cbn; lra). set (u := ((100 + 16) / 116) ^ 3) in *. clearbody u.
      assert (K : forall z, (exists s, shows (/ 8000) z s /\ Rabs (s - u) <= 0.006) -> (250 <= z)%Z).
      { intros z (s & Hz & Hs). apply Rabs_bd in Hs. destruct (C83_bytes z s Hz ltac:(lra)) as (_ & _ & [H| ->]); [|lia].
        assert (0.99 <= Rpower s (/ 2.2)).
        { replace (/ 2.2) with (INR 5 / INR 11) by (cbn; lra). apply Rpower_ge_root; [lra|lra|lia|]. apply Rle_trans with (0.993 ^ 5); [cbn; lra|apply pow_incr; lra]. }
        unfold encode in H. destruct (Rle_dec s 0.0031308); [lra|]. apply le_IZR. lra. }
      destruct Q1 as (Q1' & Q2 & Q3). split; [|split]; apply K; assumption.
  Qed.
End Proportion.

(** the hypotheses can be met, by two images of different shapes *)
Theorem C95_example : (exists pow, pow_wide pow)
  /\ rgb_input (Image (Info 2 1 4 true) [0; 0; 0; 255; 7; 90; 7; 0]) /\ rgb_input (Image (Info 1 2 3 false) [7; 90; 7; 0; 0; 0])
  /\ Permutation (colours_of (Image (Info 2 1 4 true) [0; 0; 0; 255; 7; 90; 7; 0])) (colours_of (Image (Info 1 2 3 false) [7; 90; 7; 0; 0; 0]))
  /\ accepted f32_1 (f32_of_Z 10) /\ (exists al : f32, fin al (/ 2)%R).
Proof.
  split; [exists ideal_pow; exact ideal_wide|]. split; [|split; [|split; [|split]]].
  1,2: split; [apply wfb_wf; reflexivity|]; split; [repeat constructor; unfold is_u8; lia|]; split; [reflexivity|]; cbn; lia.
  - apply perm_swap.
  - repeat split; vm_compute; reflexivity.
  - exists (f32_dec 5 1). replace (/ 2)%R with (1 / 2)%R by lra. const_val.
Qed.
