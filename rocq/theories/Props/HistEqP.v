(** * C84: histogram equalization against the real formulas *)
From Coq Require Import Lra.
From Flocq Require Import Core.
From Verif.Proofs Require Import BaseL ImageL ImageOps ToneL FloatL FloatL2 TransformL ApproxL PowL SrgbL SrgbL2 SrgbL3 LabL LabInvL.
From Verif.Model Require Import Tone.
From Verif.Spec Require Import ImageS FloatS ColorS ConvS PowS LabS LabInvS HistS HistEqS.
From Verif.Props Require Import ImageP MatP HsvP ToneP ConvP SrgbP LabP LabInvP HistP.
Open Scope Z_scope.

Lemma map_flat_map {A B C} (f : B -> C) (g : A -> list B) l : map f (flat_map g l) = flat_map (fun a => map f (g a)) l.
Proof. induction l as [|a l IH]; [reflexivity|]. cbn [flat_map]. rewrite map_app, IH. reflexivity. Qed.

Lemma len_colours {A} (f : list Z -> A) img : wf img -> len (map f (colours_of img)) = width (info_of img) * height (info_of img).
Proof.
  intros Hwf. pose proof (wf_w _ Hwf). pose proof (wf_h _ Hwf). unfold colours_of, len.
  rewrite map_length, flat_map_concat_map, (length_concat_const _ (Z.to_nat (width (info_of img)))).
  - rewrite map_length, zrange_length. nia.
  - intros l Hl. apply in_map_iff in Hl as [y [<- _]]. rewrite map_length, zrange_length. lia.
Qed.

(** ** counting *)
Lemma count_le_range bins k : 0 <= count_le bins k <= len bins.
Proof. unfold count_le, len. induction bins as [|b bins IH]; [cbn; lia|]. cbn [filter]. destruct (b <=? k); cbn [length]; lia. Qed.
Lemma bins_le_range bins k : 0 <= bins_le bins k <= count_le bins k.
Proof. unfold bins_le, count_le, len. pose proof (NoDup_incl_length (NoDup_nodup Z.eq_dec (filter (fun b => b <=? k) bins)) (fun x H => proj1 (nodup_In _ _ _) H)). lia. Qed.
Lemma count_le_mono bins k k' : k <= k' -> count_le bins k <= count_le bins k'.
Proof.
  intros H. unfold count_le, len. induction bins as [|b bins IH]; [cbn; lia|]. cbn [filter].
  destruct (Z.leb_spec b k), (Z.leb_spec b k'); cbn [length]; lia.
Qed.
Lemma bins_le_mono bins k k' : k <= k' -> bins_le bins k <= bins_le bins k'.
Proof.
  intros H. unfold bins_le, len. apply inj_le. apply NoDup_incl_length; [apply NoDup_nodup|].
  intros x Hx. apply nodup_In in Hx. apply filter_In in Hx as [H1 H2]. apply nodup_In. apply filter_In. split; [exact H1|]. apply Z.leb_le in H2. apply Z.leb_le. lia.
Qed.
Lemma count_le_pos bins k : In k bins -> 1 <= bins_le bins k.
Proof.
  intros H. unfold bins_le. assert (I : In k (nodup Z.eq_dec (filter (fun b => b <=? k) bins))).
  { rewrite nodup_In, filter_In. split; [exact H|]. apply Z.leb_le. lia. }
  destruct (nodup Z.eq_dec _); [destruct I|]. unfold len. cbn [length]. lia.
Qed.

Lemma div_nn a b : (0 <= a -> 0 < b -> 0 <= a / b)%R.
Proof. intros. apply Rmult_le_pos; [assumption|]. left. apply Rinv_0_lt_compat. assumption. Qed.

Section Eq.
  Context (p : profile) (lm : libm) (HP : pow_wide (powf lm)).
  Open Scope R_scope.

  (** ** one colour *)
  Definition code_bin (w : white) (precision : f32) (cs : list Z) : Z := bin precision (nth 0 (srgb_to_lab (powf lm) (white_of w) cs) f32_0).
  Lemma bins_colours w precision img : lightness_bins (powf lm) (white_of w) precision img = map (code_bin w precision) (colours_of img).
  Proof using.
    unfold lightness_bins, colours_of, code_bin. rewrite map_flat_map. apply flat_map_ext'. intros y _. rewrite map_map. reflexivity.
  Qed.
  Lemma white_pair w : (white_of w, white_real w) = (white_d50, d50) \/ (white_of w, white_real w) = (white_d65, d65).
  Proof using. destruct w; [left|right]; reflexivity. Qed.
  (** the lightness that the code computes *)
  Lemma light_code w r g b : is_u8 r -> is_u8 g -> is_u8 b ->
    exists L A B fx fy fz, srgb_to_lab (powf lm) (white_of w) [r; g; b] = [L; A; B]
      /\ byte_lab (white_real w) r g b = (116 * fy - 16, 500 * (fx - fy), 200 * (fy - fz))
      /\ approx L (116 * fy - 16) 0.0062 /\ approx A (500 * (fx - fy)) 0.053 /\ approx B (200 * (fy - fz)) 0.022
      /\ 0.13 <= fx <= 1.1 /\ 4 / 29 <= fy <= 1.1 /\ 0.13 <= fz <= 1.1.
  Proof using HP.
    intros Hr Hg Hb.
    destruct (lab_accurate (powf lm) (white_of w, white_real w) r g b (wide_ok _ HP) Hr Hg Hb (white_pair w)) as [(L & A & B & E & HL & HA & HB) (fx & fy & fz & Eb & Bx & By & Bz)].
    cbn [fst snd] in E, Eb, HL, HA, HB. rewrite Eb in HL, HA, HB. cbn [fst snd] in *.
    exists L, A, B, fx, fy, fz. split; [exact E|]. split; [exact Eb|]. split; [exact HL|]. split; [exact HA|]. split; [exact HB|].
    split; [exact Bx|]. split; [|exact Bz]. split; [|lra].
    unfold byte_lab, real_lab, byte_xyz, real_xyz in Eb. injection Eb as E1 _ _.
    pose proof (linear_range r Hr). pose proof (linear_range g Hg). pose proof (linear_range b Hb).
    match type of E1 with 116 * lab_curve ?t - 16 = _ => pose proof (curve_mono 0 t ltac:(lra)) as M; set (u := lab_curve t) in * end.
    rewrite (curve_lo 0) in M by (unfold dl3, dl; lra). unfold Rdiv in M. rewrite Rmult_0_l, Rplus_0_l in M. lra.
  Qed.

  Lemma bin_close precision pr L l : fin precision pr -> 0 <= pr <= 1000000 -> approx L l 0.0062 -> 0 <= l <= 111.6 ->
    Rabs (IZR (bin precision L) - pr * l) <= 0.501 + 0.0064 * pr.
  Proof using.
    intros Fp Hp [l' [FL HL]] Hl. apply Rabs_bd in HL. unfold bin.
    assert (Bx : Rabs (l' * pr) <= 112 * pr).
    { rewrite Rabs_mult, (Rabs_pos_eq pr) by lra. apply Rmult_le_compat_r; [lra|]. apply Rabs_le'; lra. }
    assert (Fm : fin (f32_mul L precision) (rnd32 (l' * pr))).
    { apply mul_fin; [exact FL|exact Fp|]. apply (small_bpow 27); [lia|]. cbn. lra. }
    set (m := rnd32 (l' * pr)) in *.
    assert (Em : Rabs (m - l' * pr) <= 0.001 + 0.0001 * pr).
    { destruct (Rle_lt_dec (Rabs (l' * pr)) 1) as [S|S].
      - pose proof (rnd_err 0 (l' * pr) ltac:(lia) S) as E. unfold m. unfold uu in E. cbn in E. lra.
      - pose proof (rel_err (l' * pr)) as E. unfold m. assert (bpow radix2 (-126) <= Rabs (l' * pr)).
        { apply Rle_trans with 1; [|lra]. apply (bpow_le radix2 (-126) 0). lia. }
        specialize (E H). replace (bpow radix2 (-24)) with (/ 16777216) in E by (cbn; lra). lra. }
    pose proof (nearby_fin mode_NA _ _ Fm) as Fr. change (BinarySingleNaN.Bnearbyint mode_NA (f32_mul L precision)) with (f32_round (f32_mul L precision)) in Fr.
    set (z := round_mode mode_NA m) in *.
    assert (Hz : Rabs (IZR z - m) <= / 2) by (unfold z; cbn [round_mode]; rewrite Rabs_minus_sym; apply Znearest_half).
    apply Rabs_bd in Bx, Em, Hz.
    assert (Zr : (-200000000 <= z <= 200000000)%Z) by (split; apply le_IZR; lra).
    unfold f32_to_int. rewrite (to_int_fin I32 _ (IZR z) ltac:(cbn; lia) Fr), Ztrunc_IZR. unfold clampZ. cbn [lo hi I32].
    replace (Z.max (-2147483648) (Z.min 2147483647 z)) with z by lia.
    assert (Rabs ((l' - l) * pr) <= 0.0062 * pr) by (rewrite Rabs_mult, (Rabs_pos_eq pr) by lra; apply Rmult_le_compat_r; [lra|apply Rabs_le'; lra]).
    apply Rabs_bd in H. apply Rabs_le'; lra.
  Qed.
  Lemma bin_mono precision pr L L' l l' : fin precision pr -> 0 <= pr <= 1000000 -> fin L l -> fin L' l' -> Rabs l <= 128 -> Rabs l' <= 128 -> l <= l' ->
    (bin precision L <= bin precision L')%Z.
  Proof using.
    intros Fp Hp FL FL' Bl Bl' H. unfold bin.
    assert (K : forall X x, fin X x -> Rabs x <= 128 -> fin (f32_mul X precision) (rnd32 (x * pr))).
    { intros X x FX Bx. apply mul_fin; [exact FX|exact Fp|]. apply (small_bpow 27); [lia|]. rewrite Rabs_mult, (Rabs_pos_eq pr) by lra.
      apply Rle_trans with (128 * 1000000); [apply Rmult_le_compat; try lra; apply Rabs_pos|cbn; lra]. }
    pose proof (nearby_fin mode_NA _ _ (K _ _ FL Bl)) as F1. pose proof (nearby_fin mode_NA _ _ (K _ _ FL' Bl')) as F2.
    change (BinarySingleNaN.Bnearbyint mode_NA (f32_mul L precision)) with (f32_round (f32_mul L precision)) in F1.
    change (BinarySingleNaN.Bnearbyint mode_NA (f32_mul L' precision)) with (f32_round (f32_mul L' precision)) in F2.
    unfold f32_to_int. rewrite (to_int_fin I32 _ _ ltac:(cbn; lia) F1), (to_int_fin I32 _ _ ltac:(cbn; lia) F2), !Ztrunc_IZR. unfold clampZ.
    assert (round_mode mode_NA (rnd32 (l * pr)) <= round_mode mode_NA (rnd32 (l' * pr)))%Z; [|lia].
    cbn [round_mode]. apply (Zrnd_le (Znearest _)). apply rnd_le. apply Rmult_le_compat_r; lra.
  Qed.
  Lemma code_sorts w precision pr : fin precision pr -> 0 <= pr <= 1000000 -> sorts (code_bin w precision) (white_real w) pr.
  Proof using HP.
    intros Fp Hp r g b Hr Hg Hb. destruct (light_code w r g b Hr Hg Hb) as (L & A & B & fx & fy & fz & E & Eb & HL & _ & _ & _ & By & _).
    unfold code_bin, lightness. rewrite E, Eb. cbn [nth fst snd]. split; [apply bin_close; auto; lra|].
    intros r' g' b' Hr' Hg' Hb' Hle. destruct (light_code w r' g' b' Hr' Hg' Hb') as (L' & A' & B' & fx' & fy' & fz' & E' & Eb' & HL' & _ & _ & _ & By' & _).
    rewrite E'. rewrite Eb' in Hle. cbn [nth fst snd] in *. destruct HL as [l [FL Hl]]. destruct HL' as [l' [FL' Hl']]. apply Rabs_bd in Hl, Hl'.
    apply (bin_mono _ pr _ _ l l'); auto; try (apply Rabs_le'); lra.
  Qed.

  (** ** the new lightness *)
  Lemma big_Z z : (0 <= z <= 2147483647)%Z -> approx (f32_of_Z z) (IZR z) (IZR z * (2 * uu)).
  Proof using.
    intros H. exists (rnd32 (IZR z)). split; [apply of_Z_fin; cbn; lia|].
    destruct (Z.eq_dec z 0) as [->|N].
    - change (rnd32 (IZR 0)) with (@rnd 24 128 (IZR 0)). rewrite (@rnd_Z 24 128 _ _ 0) by (cbn; lia). rewrite Rminus_diag_eq, Rabs_R0 by reflexivity. lra.
    - assert (1 <= IZR z) by (apply (IZR_le 1); lia).
      eapply Rle_trans; [apply rel_err|].
      + rewrite Rabs_pos_eq by lra. apply Rle_trans with 1; [|lra]. apply (bpow_le radix2 (-126) 0). lia.
      + rewrite Rabs_pos_eq, two_uu by lra. lra.
  Qed.
  Lemma share_ap s n : (0 <= s <= 2 * n)%Z -> (0 < n)%Z -> (2 * n <= 2147483647)%Z -> approx (f32_div (f32_of_Z s) (f32_of_Z n)) (IZR s / IZR n) (20 * uu).
  Proof using.
    intros Hs Hn Hm. assert (1 <= IZR n) by (apply (IZR_le 1); lia).
    assert (S1 : 0 <= IZR s) by (apply (IZR_le 0); lia). assert (S2 : IZR s <= 2 * IZR n) by (rewrite <- mult_IZR; apply IZR_le; lia).
    assert (Q : 2 * (IZR s * (2 * uu) + 2 * (IZR n * (2 * uu))) / IZR n <= 16 * uu).
    { apply Rmult_le_reg_r with (IZR n); [lra|]. unfold Rdiv. rewrite Rmult_assoc, Rinv_l by lra. unfold uu. lra. }
    apply (ap_div 2 2 _ _ _ _ (IZR s * (2 * uu)) (IZR n * (2 * uu))); [apply big_Z; lia|apply big_Z; lia|lia|lra| | | |].
    - unfold uu. lra.
    - rewrite Rabs_pos_eq; lra.
    - unfold uu in *. cbn. lra.
    - unfold uu in *. cbn. lra.
  Qed.
  Lemma equalized_ap bins al a precision L l : fin al a -> 0 <= a <= 1 -> approx L l 0.0062 -> 0 <= l <= 111.6 ->
    (0 < len bins)%Z -> (2 * len bins <= 2147483647)%Z -> let k := bin precision L in
    approx (equalized bins al precision L) (a * 100 * (IZR (count_le bins k + bins_le bins k) / IZR (len bins)) + (1 - a) * l) 0.0064.
  Proof using.
    intros Fa Ha HL Hl Hn Hm k. pose proof (count_le_range bins k) as C1. pose proof (bins_le_range bins k) as C2.
    pose proof (share_ap (count_le bins k + bins_le bins k) (len bins) ltac:(lia) Hn Hm) as S.
    unfold equalized. cbv zeta. fold k.
    assert (N1 : 1 <= IZR (len bins)) by (apply (IZR_le 1); lia).
    assert (Bs : 0 <= IZR (count_le bins k + bins_le bins k) / IZR (len bins) <= 2).
    { split; [apply div_nn; [apply (IZR_le 0); lia|lra]|]. apply Rmult_le_reg_r with (IZR (len bins)); [lra|]. unfold Rdiv.
      rewrite Rmult_assoc, Rinv_l, Rmult_1_r by lra. rewrite <- mult_IZR. apply IZR_le. lia. }
    set (sh := IZR _ / IZR _) in *. clearbody sh. 
    assert (M1 : approx (f32_mul al (f32_div (f32_of_Z (count_le bins k + bins_le bins k)) (f32_of_Z (len bins)))) (a * sh) (24 * uu)).
    { apply (ap_mul 2 1 2 _ _ _ _ 0 (20 * uu)); [apply fin_ap; exact Fa|exact S|lia| | | |]; try (apply Rabs_le'); unfold uu; cbn; lra. }
    assert (A2 : 0 <= a * sh <= 2). { split; [apply Rmult_le_pos; lra|]. apply Rle_trans with (1 * 2); [apply Rmult_le_compat; lra|lra]. }
    assert (M2 : approx (f32_mul (f32_mul al (f32_div (f32_of_Z (count_le bins k + bins_le bins k)) (f32_of_Z (len bins)))) (f32_of_Z 100)) (a * sh * 100) (2656 * uu)).
    { apply (ap_mul 8 2 100 _ _ _ _ (24 * uu) 0); [exact M1|apply (ap_Z 100); lia|lia| | | |]; try (apply Rabs_le'); unfold uu; cbn; lra. }
    assert (M3 : approx (f32_sub (f32_of_Z 1) al) (1 - a) uu).
    { apply (ap_sub 0 _ _ _ _ 0 0); [apply (ap_Z 1); lia|apply fin_ap; exact Fa|lia| |]; [rewrite Rabs_pos_eq by lra|]; unfold uu; cbn; lra. }
    assert (M4 : approx (f32_mul (f32_sub (f32_of_Z 1) al) L) ((1 - a) * l) (0.0062 + 241 * uu)).
    { apply (ap_mul 7 1 112 _ _ _ _ uu 0.0062); [exact M3|exact HL|lia| | | |]; try (apply Rabs_le'); unfold uu; cbn; lra. }
    assert (A4 : 0 <= (1 - a) * l <= 111.6 * (1 - a)).
    { split; [apply Rmult_le_pos; lra|]. rewrite (Rmult_comm 111.6). apply Rmult_le_compat_l; lra. }
    assert (A5 : a * sh <= 2 * a) by (rewrite (Rmult_comm 2); apply Rmult_le_compat_l; lra).
    replace (a * 100 * sh + (1 - a) * l) with (a * sh * 100 + (1 - a) * l) by ring.
    apply (ap_add 8 _ _ _ _ (2656 * uu) (0.0062 + 241 * uu)); [exact M2|exact M4|lia| |unfold uu; cbn; lra].
    rewrite Rabs_pos_eq by lra. unfold uu. cbn. lra.
  Qed.

  (** the result shows a colour with lightness l, up to a small error, and with the a* and b* of the colour *)
  Definition relit (w : white) (l : R) (cs out : list Z) : Prop :=
    forall r g b, cs = [r; g; b] ->
    exists l' a b', Rabs (l' - l) <= 0.0064 /\ Rabs (a - snd (fst (byte_lab (white_real w) r g b))) <= 0.0531 /\ Rabs (b' - snd (byte_lab (white_real w) r g b)) <= 0.0221
      /\ moderate (l', a, b') /\ shows3 (/ 8000) out (lab_light (white_real w) (l', a, b')).

  (** full statement *)
  Theorem C84_equalize w (img : image Z) al a precision pr : rgb_input img -> (2 * (width (info_of img) * height (info_of img)) <= 2147483647)%Z ->
    fin al a -> 0 <= a <= 1 -> fin precision pr -> 0 <= pr <= 1000000 ->
    exists out (bin : list Z -> Z), histogram_equalization p lm img al w precision = Ret out
      /\ sorts bin (white_real w) pr
      /\ relates (fun cs o => let t := aim a (white_real w) bin img cs in
           t - lightness (white_real w) cs <= 101 -> relit w t cs o) img out.
  Proof using HP.
    intros (Hw & Hs & Hc & Hn) Hm Fa Ha Fp Hp.
    assert (Z0 : forall X x, fin X x -> 0 <= x -> f32_ltb X f32_0 = false).
    { intros X x FX Hx. change (f32_ltb X f32_0) with (BinarySingleNaN.Bltb X f32_0). rewrite (ltb_fin X f32_0 x 0 FX); [apply Rlt_bool_false; lra|apply (of_Z_isZ 0); lia]. }
    assert (O1 : f32_ltb f32_1 al = false).
    { change (f32_ltb f32_1 al) with (BinarySingleNaN.Bltb f32_1 al). rewrite (ltb_fin f32_1 al 1 a); [apply Rlt_bool_false; lra|apply (of_Z_isZ 1); lia|exact Fa]. }
    destruct (C63_histogram_equalization p lm img al w precision Hw Hs Hc Hn Hm (Z0 _ _ Fp ltac:(lra)) (Z0 _ _ Fa ltac:(lra)) O1) as [out [E [HI [Wo [_ HR]]]]].
    set (bins := lightness_bins (powf lm) (white_of w) precision img) in *.
    assert (Eb : bins = map (code_bin w precision) (colours_of img)) by apply bins_colours.
    assert (Elen : len bins = (width (info_of img) * height (info_of img))%Z).
    { rewrite Eb. apply len_colours. exact Hw. }
    exists out, (code_bin w precision). split; [exact E|]. split; [apply code_sorts; assumption|].
    split; [exact Wo|]. split; [exact HI|]. intros x y Hin t Ht r g b Ec.
    specialize (HR x y Hin). pose proof (pixel_at_len img Hw x y Hin) as Lp.
    assert (HPx : Forall is_u8 (pixel_at img x y)) by (apply pixels_samples; exact Hs).
    unfold color_at in *. unfold colors in Hc. unfold len in Lp.
    assert (U : is_u8 r /\ is_u8 g /\ is_u8 b /\ firstn 3 (pixel_at out x y) = edit_lightness (powf lm) (white_of w) (equalized bins al precision) [r; g; b]).
    { destruct (alpha (info_of img)).
      - destruct (pixel_at img x y) as [|a0 [|a1 [|a2 [|a3 [|]]]]]; cbn in Lp; try lia. cbn in Ec. injection Ec as -> -> ->.
        rewrite (HR [r; g; b] a3 eq_refl). inversion HPx as [|? ? Ua HP1]; subst. inversion HP1 as [|? ? Ub HP2]; subst. inversion HP2 as [|? ? Ud HP3]; subst.
        split; [exact Ua|]. split; [exact Ub|]. split; [exact Ud|]. unfold edit_lightness, lab_to_srgb. destruct w; reflexivity.
      - destruct (pixel_at img x y) as [|a0 [|a1 [|a2 [|]]]]; cbn in Lp; try lia. cbn in Ec. injection Ec as -> -> ->.
        rewrite HR. inversion HPx as [|? ? Ua HP1]; subst. inversion HP1 as [|? ? Ub HP2]; subst. inversion HP2 as [|? ? Ud HP3]; subst.
        split; [exact Ua|]. split; [exact Ub|]. split; [exact Ud|]. unfold edit_lightness, lab_to_srgb. destruct w; reflexivity. }
    destruct U as (Ur & Ug & Ub & Eo). rewrite Eo. unfold t in *. rewrite Ec in *. clear Eo HR.
    destruct (light_code w r g b Ur Ug Ub) as (L & A & B & fx & fy & fz & E' & Eb' & HL & HA & HB & Bx & By & Bz).
    pose proof (equalized_ap bins al a precision L _ Fa Ha HL ltac:(lra) ltac:(lia) ltac:(lia)) as Q. cbv zeta in Q.
    assert (Ea : aim a (white_real w) (code_bin w precision) img [r; g; b]
      = a * 100 * (IZR (count_le bins (bin precision L) + bins_le bins (bin precision L)) / IZR (len bins)) + (1 - a) * (116 * fy - 16)).
    { unfold aim, share, lightness. rewrite <- Eb, Eb'. unfold code_bin. rewrite E'. reflexivity. }
    rewrite <- Ea in Q. 
    assert (El : lightness (white_real w) [r; g; b] = 116 * fy - 16) by (unfold lightness; rewrite Eb'; reflexivity). rewrite El in Ht.
    assert (G : -112 <= aim a (white_real w) (code_bin w precision) img [r; g; b] - (116 * fy - 16)).
    { rewrite Ea. set (sh := IZR _ / IZR _). assert (0 <= sh).
      { apply div_nn; [apply (IZR_le 0)|apply (IZR_lt 0)]; [|lia]. pose proof (count_le_range bins (bin precision L)). pose proof (bins_le_range bins (bin precision L)). lia. }
      assert (0 <= a * 100 * sh) by (apply Rmult_le_pos; lra).
      assert (a * (116 * fy - 16) <= 1 * 112) by (apply Rmult_le_compat; lra). lra. }
    set (tt := aim _ _ _ _ _) in *. clearbody tt. clear Ea.
    unfold edit_lightness. rewrite E'. cbn [on_first]. rewrite Eb'. cbn [fst snd].
    destruct Q as [l [Fl Hl]]. destruct HA as [a' [Fa' Ha']]. destruct HB as [b' [Fb Hb']].
    exists l, a', b'. split; [exact Hl|]. split; [lra|]. split; [lra|].
    assert (M : moderate (l, a', b')).
    { apply Rabs_bd in Hl, Ha', Hb'. unfold moderate. lra. }
    split; [exact M|]. apply lab_to_srgb_shows; auto. destruct w; [left|right]; split; reflexivity.
  Qed.

  (** ** the range of lightness, and images for which the condition above always holds *)
  Lemma lightness_range w r g b : is_u8 r -> is_u8 g -> is_u8 b -> 0 <= lightness (white_real w) [r; g; b] <= 100.001.
  Proof using HP.
    intros Hr Hg Hb. destruct (light_code w r g b Hr Hg Hb) as (L & A & B & fx & fy & fz & _ & Eb & _ & _ & _ & _ & By & _).
    unfold lightness. rewrite Eb. cbn [fst]. split; [lra|].
    unfold byte_lab, real_lab, byte_xyz, real_xyz in Eb. injection Eb as E1 _ _. 
    pose proof (linear_range r Hr). pose proof (linear_range g Hg). pose proof (linear_range b Hb).
    match type of E1 with 116 * lab_curve ?t - 16 = _ => pose proof (curve_mono t 1.0000001 ltac:(lra)) as M; set (u := lab_curve t) in * end.
    pose proof (curve_lip_le 1 1.0000001 ltac:(lra)) as M2. rewrite (curve_hi 1) in M2 by (unfold dl3, dl; lra).
    assert (O : Rpower 1 (/ 3) = 1) by (unfold Rpower; rewrite ln_1, Rmult_0_r; apply exp_0). rewrite O in M2. lra.
  Qed.
  Lemma colours_u8 img cs : rgb_input img -> In cs (colours_of img) -> exists r g b, cs = [r; g; b] /\ is_u8 r /\ is_u8 g /\ is_u8 b.
  Proof using.
    intros (Hw & Hs & Hc & Hn) Hi. unfold colours_of in Hi. apply in_flat_map in Hi as [y [Hy Hi]]. apply in_map_iff in Hi as [x [<- Hx]].
    apply in_zrange in Hy, Hx. assert (Hin : inside img x y) by (split; assumption).
    pose proof (pixel_at_len img Hw x y Hin) as Lp. assert (HPx : Forall is_u8 (pixel_at img x y)) by (apply pixels_samples; exact Hs).
    unfold colors in Hc. unfold len in Lp.
    destruct (pixel_at img x y) as [|a0 [|a1 [|a2 l]]]; cbn in Lp; try (destruct (alpha (info_of img)); lia).
    inversion HPx as [|? ? Ua HP1]; subst. inversion HP1 as [|? ? Ub HP2]; subst. inversion HP2 as [|? ? Ud HP3]; subst.
    exists a0, a1, a2. repeat split; assumption || apply Ua || apply Ub || apply Ud.
  Qed.
  Lemma colour_in img x y : inside img x y -> In (color_at img x y) (colours_of img).
  Proof using.
    intros [Hx Hy]. unfold colours_of, color_at. apply in_flat_map. exists y. split; [apply in_zrange; exact Hy|].
    apply in_map_iff. exists x. split; [reflexivity|]. apply in_zrange. exact Hx.
  Qed.
  Lemma bound_distinct (l : list Z) lo hi : (lo <= hi + 1)%Z -> (forall x, In x l -> lo <= x <= hi)%Z -> (len (nodup Z.eq_dec l) <= hi - lo + 1)%Z.
  Proof using.
    intros Hlh H. assert (L : (length (nodup Z.eq_dec l) <= length (zrange lo (hi + 1)))%nat).
    { apply NoDup_incl_length; [apply NoDup_nodup|]. intros x Hx. apply nodup_In in Hx. apply in_zrange. specialize (H x Hx). lia. }
    rewrite zrange_length in L. unfold len. lia.
  Qed.
  (** in images that are large for the precision the condition of C84_equalize holds for every pixel *)
  Theorem C84_large_image w (img : image Z) bin pr a : rgb_input img -> sorts bin (white_real w) pr -> 0 <= pr -> 0 <= a <= 1 ->
    10002 * pr + 300 <= IZR (width (info_of img) * height (info_of img)) ->
    forall x y, inside img x y -> share bin img (color_at img x y) <= 1.01
      /\ aim a (white_real w) bin img (color_at img x y) - lightness (white_real w) (color_at img x y) <= 101.
  Proof using HP.
    intros Hi Hs Hp Ha HN x y Hin. destruct (colours_u8 img _ Hi (colour_in img x y Hin)) as (r & g & b & Ec & Hr & Hg & Hb).
    pose proof (lightness_range w r g b Hr Hg Hb) as Lr. rewrite Ec.
    assert (S : share bin img [r; g; b] <= 1.01).
    { unfold share. rewrite len_colours by apply Hi. set (bs := map bin (colours_of img)). set (k := bin [r; g; b]).
      set (N := (width (info_of img) * height (info_of img))%Z) in *.
      assert (EN : len bs = N) by (apply len_colours; apply Hi).
      assert (D : (bins_le bs k <= Zfloor (100.02 * pr + 3))%Z).
      { unfold bins_le. eapply Z.le_trans; [apply (bound_distinct _ (Zceil (- (0.501 + 0.0064 * pr))) (Zfloor (0.501 + 100.0074 * pr)))|].
        - assert (Zceil (- (0.501 + 0.0064 * pr)) <= 0)%Z by (apply Zceil_glb; cbn; lra).
          assert (0 <= Zfloor (0.501 + 100.0074 * pr))%Z by (apply Zfloor_lub; cbn; lra). lia.
        - intros z Hz. apply filter_In in Hz as [Hz _]. unfold bs in Hz. apply in_map_iff in Hz as [cs [<- Hcs]].
          destruct (colours_u8 img cs Hi Hcs) as (r' & g' & b' & -> & Hr' & Hg' & Hb'). destruct (Hs r' g' b' Hr' Hg' Hb') as [Q _].
          pose proof (lightness_range w r' g' b' Hr' Hg' Hb') as Lr'. set (l := lightness _ [r'; g'; b']) in *.
          assert (0 <= pr * l) by (apply Rmult_le_pos; lra). assert (pr * l <= pr * 100.001) by (apply Rmult_le_compat_l; lra).
          apply Rabs_bd in Q. split; [apply Zceil_glb|apply Zfloor_lub]; lra.
        - apply Zfloor_lub. rewrite plus_IZR, minus_IZR. pose proof (Zfloor_lb (0.501 + 100.0074 * pr)). pose proof (Zceil_ub (- (0.501 + 0.0064 * pr))). lra. }
      assert (D2 : IZR (bins_le bs k) <= 100.02 * pr + 3) by (eapply Rle_trans; [apply IZR_le; exact D|apply Zfloor_lb]).
      pose proof (count_le_range bs k) as C. rewrite EN in C. rewrite plus_IZR.
      assert (IZR (count_le bs k) <= IZR N) by (apply IZR_le; lia).
      apply Rmult_le_reg_r with (IZR N); [lra|]. unfold Rdiv. rewrite Rmult_assoc, Rinv_l by lra. lra. }
    split; [exact S|]. unfold aim. assert (a * 100 * share bin img [r; g; b] <= a * 101) by (replace (a * 101) with (a * 100 * 1.01) by lra; apply Rmult_le_compat_l; lra).
    assert (a * 101 <= 1 * 101) by (apply Rmult_le_compat_r; lra). assert (0 <= a * lightness (white_real w) [r; g; b]) by (apply Rmult_le_pos; lra). lra.
  Qed.

  (** a clearly lighter colour is never aimed below a darker one *)
  Theorem C84_order w (img : image Z) bin pr a : rgb_input img -> sorts bin (white_real w) pr -> 0 <= a <= 1 ->
    forall x y x' y', inside img x y -> inside img x' y' ->
      lightness (white_real w) (color_at img x y) + 0.0126 <= lightness (white_real w) (color_at img x' y') ->
      share bin img (color_at img x y) <= share bin img (color_at img x' y')
      /\ aim a (white_real w) bin img (color_at img x y) <= aim a (white_real w) bin img (color_at img x' y').
  Proof using.
    intros Hi Hs Ha x y x' y' Hin Hin' Hl.
    destruct (colours_u8 img _ Hi (colour_in img x y Hin)) as (r & g & b & Ec & Hr & Hg & Hb).
    destruct (colours_u8 img _ Hi (colour_in img x' y' Hin')) as (r' & g' & b' & Ec' & Hr' & Hg' & Hb').
    rewrite Ec, Ec' in *. destruct (Hs r g b Hr Hg Hb) as [_ M]. specialize (M r' g' b' Hr' Hg' Hb' Hl).
    assert (S : share bin img [r; g; b] <= share bin img [r'; g'; b']).
    { unfold share. rewrite len_colours by apply Hi. destruct Hi as (_ & _ & _ & HN).
      apply Rmult_le_compat_r; [left; apply Rinv_0_lt_compat; apply (IZR_lt 0); exact HN|]. apply IZR_le.
      pose proof (count_le_mono (map bin (colours_of img)) _ _ M). pose proof (bins_le_mono (map bin (colours_of img)) _ _ M). lia. }
    split; [exact S|]. unfold aim. apply Rplus_le_compat; apply Rmult_le_compat_l; lra.
  Qed.

  (** with alpha 0 the image comes back, every sample at most one level darker *)
  Theorem C84_none w (img : image Z) al precision : rgb_input img -> (2 * (width (info_of img) * height (info_of img)) <= 2147483647)%Z ->
    fin al 0 -> f32_ltb precision f32_0 = false ->
    exists out, histogram_equalization p lm img al w precision = Ret out /\ loses_at_most_one img out.
  Proof using HP.
    intros (Hw & Hs & Hc & Hn) Hm Fa Hp.
    assert (Z0 : f32_ltb al f32_0 = false).
    { change (f32_ltb al f32_0) with (BinarySingleNaN.Bltb al f32_0). rewrite (ltb_fin al f32_0 0 0 Fa); [apply Rlt_bool_false; lra|apply (of_Z_isZ 0); lia]. }
    assert (O1 : f32_ltb f32_1 al = false).
    { change (f32_ltb f32_1 al) with (BinarySingleNaN.Bltb f32_1 al). rewrite (ltb_fin f32_1 al 1 0); [apply Rlt_bool_false; lra|apply (of_Z_isZ 1); lia|exact Fa]. }
    destruct (C63_histogram_equalization p lm img al w precision Hw Hs Hc Hn Hm Hp Z0 O1) as [out0 [E0 [HI0 HR0]]].
    set (bins := lightness_bins (powf lm) (white_of w) precision img) in *.
    assert (Elen : len bins = (width (info_of img) * height (info_of img))%Z) by (unfold bins; rewrite bins_colours; apply len_colours; exact Hw).
    pose (f := edit_lightness (powf lm) (white_of w) (equalized bins al precision)).
    assert (HC : forall r g b, is_u8 r -> is_u8 g -> is_u8 b -> exists r' g' b', f [r; g; b] = [r'; g'; b'] /\ near r r' /\ near g g' /\ near b b').
    { intros r g b Hr Hg Hb. apply lab_round_trip; [apply wide_ok; exact HP|destruct w; [left|right]; reflexivity| |assumption|assumption|assumption].
      intros L l FL BL. unfold equalized. cbv zeta. set (k := bin precision L).
      pose proof (count_le_range bins k) as C1. pose proof (bins_le_range bins k) as C2.
      destruct (share_ap (count_le bins k + bins_le bins k) (len bins) ltac:(lia) ltac:(lia) ltac:(lia)) as [q [Fq _]].
      assert (R0 : forall X : f32, forall x, fin X x -> fin (f32_mul al X) 0).
      { intros X x FX. replace 0 with (rnd32 (0 * x)); [apply mul_fin; auto; rewrite Rmult_0_l, Rabs_R0; apply bpow_ge_0|]. rewrite Rmult_0_l. apply round_0. apply valid_rnd_N. }
      assert (M2 : fin (f32_mul (f32_mul al (f32_div (f32_of_Z (count_le bins k + bins_le bins k)) (f32_of_Z (len bins)))) (f32_of_Z 100)) 0).
      { replace 0 with (rnd32 (0 * 100)); [apply mul_fin; [apply (R0 _ q Fq)|apply (of_Z_isZ 100); lia|rewrite Rmult_0_l, Rabs_R0; apply bpow_ge_0]|]. rewrite Rmult_0_l. apply round_0. apply valid_rnd_N. }
      assert (M3 : fin (f32_sub (f32_of_Z 1) al) 1).
      { replace 1 with (rnd32 (1 - 0)); [apply sub_fin; [apply (of_Z_isZ 1); lia|exact Fa|apply (small_bpow 0); [lia|rewrite Rabs_pos_eq; cbn; lra]]|].
        replace (1 - 0) with 1 by ring. apply (@rnd_Z 24 128 _ _ 1). cbn. lia. }
      assert (Fm : generic_format radix2 (SpecFloat.fexp 24 128) l) by (destruct FL as [_ <-]; apply BinarySingleNaN.generic_format_B2R).
      assert (M4 : fin (f32_mul (f32_sub (f32_of_Z 1) al) L) l).
      { replace l with (rnd32 (1 * l)) at 1; [apply mul_fin; auto; rewrite Rmult_1_l; apply (small_bpow 7); [lia|exact BL]|]. rewrite Rmult_1_l. apply rnd_fmt. exact Fm. }
      replace l with (rnd32 (0 + l)) at 1; [apply add_fin; auto; rewrite Rplus_0_l; apply (small_bpow 7); [lia|exact BL]|]. rewrite Rplus_0_l. apply rnd_fmt. exact Fm. }
    exists out0. split; [exact E0|]. apply (trip1 f); assumption.
  Qed.

  (** the lightest pixel is always aimed above 100: its share is 1 + (number of different bins) / (number of pixels) *)
  Theorem C84_above_100_refuted (img : image Z) (bin : list Z -> Z) : rgb_input img ->
    exists x y, inside img x y
      /\ share bin img (color_at img x y) = 1 + IZR (len (nodup Z.eq_dec (map bin (colours_of img)))) / IZR (width (info_of img) * height (info_of img))
      /\ 1 < share bin img (color_at img x y).
  Proof using.
    intros Hi. set (bs := map bin (colours_of img)). set (N := (width (info_of img) * height (info_of img))%Z).
    assert (EN : len bs = N) by (apply len_colours; apply Hi). assert (HN : (0 < N)%Z) by apply Hi.
    assert (exists cs, In cs (colours_of img) /\ forall z, In z bs -> (z <= bin cs)%Z) as [cs [Hcs Hmax]].
    { assert (G : colours_of img <> []) by (intros E; unfold bs in EN; rewrite E in EN; unfold len in EN; cbn in EN; lia).
      unfold bs. clear - G. induction (colours_of img) as [|c l IH]; [congruence|]. destruct l as [|c' l].
      - exists c. split; [left; reflexivity|]. intros z [<-|[]]. lia.
      - destruct (IH ltac:(discriminate)) as [m [Hm Mm]]. destruct (Z_le_gt_dec (bin c) (bin m)) as [L|G'].
        + exists m. split; [right; exact Hm|]. intros z [<-|Hz]; [exact L|apply Mm; exact Hz].
        + exists c. split; [left; reflexivity|]. intros z [<-|Hz]; [lia|]. specialize (Mm z Hz). lia. }
    unfold colours_of in Hcs. apply in_flat_map in Hcs as [y [Hy Hcs]]. apply in_map_iff in Hcs as [x [Ec Hx]]. apply in_zrange in Hy, Hx.
    exists x, y. split; [split; assumption|]. unfold color_at. rewrite Ec. unfold share. fold bs. rewrite EN.
    assert (F : filter (fun b => (b <=? bin cs)%Z) bs = bs).
    { clear - Hmax. induction bs as [|b l IH]; [reflexivity|]. cbn [filter]. replace (b <=? bin cs)%Z with true by (symmetry; apply Z.leb_le; apply Hmax; left; reflexivity).
      f_equal. apply IH. intros z Hz. apply Hmax. right. exact Hz. }
    unfold count_le, bins_le. rewrite F, EN, plus_IZR.
    assert (N1 : 0 < IZR N) by (apply (IZR_lt 0); exact HN).
    assert (E : (IZR N + IZR (len (nodup Z.eq_dec bs))) / IZR N = 1 + IZR (len (nodup Z.eq_dec bs)) / IZR N) by (field; lra).
    split; [exact E|]. rewrite E.
    assert (D : (1 <= len (nodup Z.eq_dec bs))%Z).
    { destruct bs as [|b l] eqn:Eb; [unfold len in EN; cbn in EN; lia|]. assert (I : In b (nodup Z.eq_dec (b :: l))) by (apply nodup_In; left; reflexivity).
      destruct (nodup Z.eq_dec (b :: l)); [destruct I|]. unfold len. cbn [length]. lia. }
    assert (0 < IZR (len (nodup Z.eq_dec bs)) / IZR N); [|lra]. apply Rmult_lt_0_compat; [apply (IZR_lt 0); lia|apply Rinv_0_lt_compat; exact N1].
  Qed.
  (** if all pixels fall into different bins, the shares are twice the percentiles *)
  Theorem C84_doubled_refuted (img : image Z) (bin : list Z -> Z) : rgb_input img -> NoDup (map bin (colours_of img)) ->
    forall x y, inside img x y -> share bin img (color_at img x y)
      = 2 * (IZR (count_le (map bin (colours_of img)) (bin (color_at img x y))) / IZR (width (info_of img) * height (info_of img))).
  Proof using.
    intros Hi Hd x y Hin. unfold share. rewrite len_colours by apply Hi. 
    replace (bins_le (map bin (colours_of img)) (bin (color_at img x y))) with (count_le (map bin (colours_of img)) (bin (color_at img x y))).
    - rewrite plus_IZR. unfold Rdiv. ring.
    - unfold bins_le, count_le. rewrite nodup_fixed_point; [reflexivity|]. apply NoDup_filter. exact Hd.
  Qed.

  Lemma cube_lip u v : 0 <= u <= 1.01 -> 0 <= v <= 1.01 -> Rabs (u ^ 3 - v ^ 3) <= 3.07 * Rabs (u - v).
  Proof using.
    intros Hu Hv. replace (u ^ 3 - v ^ 3) with ((u * u + u * v + v * v) * (u - v)) by ring. rewrite Rabs_mult. apply Rmult_le_compat_r; [apply Rabs_pos|].
    assert (u * u <= 1.01 * 1.01) by (apply Rmult_le_compat; lra). assert (u * v <= 1.01 * 1.01) by (apply Rmult_le_compat; lra). assert (v * v <= 1.01 * 1.01) by (apply Rmult_le_compat; lra).
    assert (0 <= u * u) by (apply Rmult_le_pos; lra). assert (0 <= u * v) by (apply Rmult_le_pos; lra). assert (0 <= v * v) by (apply Rmult_le_pos; lra).
    rewrite Rabs_pos_eq; lra.
  Qed.
  (** a gray image of one level and at least 100 pixels turns white under full equalization with D65 *)
  Theorem C84_flat (img : image Z) al precision pr v : rgb_input img -> (2 * (width (info_of img) * height (info_of img)) <= 2147483647)%Z ->
    (100 <= width (info_of img) * height (info_of img))%Z -> fin al 1 -> fin precision pr -> 0 <= pr <= 1000000 ->
    (0 <= v <= 255)%Z -> (forall x y, inside img x y -> color_at img x y = [v; v; v]) ->
    exists out, histogram_equalization p lm img al D65 precision = Ret out
      /\ forall x y, inside img x y -> exists r g b, color_at out x y = [r; g; b] /\ (254 <= r <= 255)%Z /\ (254 <= g <= 255)%Z /\ (254 <= b <= 255)%Z.
  Proof using HP.
    intros Hi Hm HN Fa Fp Hp Hv Hc.
    destruct (C84_equalize D65 img al 1 precision pr Hi Hm Fa ltac:(lra) Fp Hp) as (out & bin & E & Hs & _ & _ & HR).
    exists out. split; [exact E|]. intros x y Hin. specialize (HR x y Hin). cbv zeta in HR. rewrite (Hc x y Hin) in HR.
    set (N := (width (info_of img) * height (info_of img))%Z) in *.
    assert (R1 : 100 <= IZR N) by (apply (IZR_le 100); exact HN).
    assert (Sh : share bin img [v; v; v] = 1 + / IZR N).
    { destruct (C84_above_100_refuted img bin Hi) as (x' & y' & Hin' & Es & _). rewrite (Hc x' y' Hin') in Es. rewrite Es. fold N.
      replace (len (nodup Z.eq_dec (map bin (colours_of img)))) with 1%Z; [unfold Rdiv; ring|].
      assert (EN : len (map bin (colours_of img)) = N) by (apply len_colours; apply Hi).
      assert (A : forall z, In z (map bin (colours_of img)) -> z = bin [v; v; v]).
      { intros z Hz. apply in_map_iff in Hz as [cs [<- Hcs]]. f_equal. unfold colours_of in Hcs. apply in_flat_map in Hcs as [y0 [Hy Hcs]]. apply in_map_iff in Hcs as [x0 [Ec Hx]]. apply in_zrange in Hy, Hx.
        rewrite <- Ec. apply Hc. split; assumption. }
      destruct (map bin (colours_of img)) as [|b0 l]; [unfold len in EN; cbn in EN; lia|].
      assert (I : In b0 (nodup Z.eq_dec (b0 :: l))) by (apply nodup_In; left; reflexivity).
      assert (U : (len (nodup Z.eq_dec (b0 :: l)) <= 1)%Z).
      { pose proof (bound_distinct (b0 :: l) (bin [v; v; v]) (bin [v; v; v]) ltac:(lia)) as B. specialize (B ltac:(intros z Hz; rewrite (A z Hz); lia)). lia. }
      destruct (nodup Z.eq_dec (b0 :: l)); [destruct I|]. unfold len in *. cbn [length] in *. lia. }
    assert (IN : 0 < / IZR N <= 0.01). { split; [apply Rinv_0_lt_compat; lra|]. replace 0.01 with (/ 100) by lra. apply Rinv_le_contravar; lra. }
    pose proof (lightness_range D65 v v v Hv Hv Hv) as Lr.
    assert (Ea : aim 1 (white_real D65) bin img [v; v; v] = 100 + 100 * / IZR N) by (unfold aim; rewrite Sh; ring). rewrite Ea in HR.
    destruct (HR ltac:(lra) v v v eq_refl) as (l & a & b' & Hl & Ha & Hb & _ & S).
    set (iN := / IZR N) in *. clearbody iN. apply Rabs_bd in Hl.
    destruct S as (r & g & b & Eo & Sr & Sg & Sb). exists r, g, b. split; [exact Eo|].
    unfold byte_lab, real_lab, byte_xyz, real_xyz in Ha, Hb. cbn [fst snd white_real d65] in Ha, Hb.
    pose proof (linear_range v Hv) as Lv. set (c := linear_light v) in *.
    assert (A1 : Rabs (lab_curve ((0.4124564 * c + 0.3575761 * c + 0.1804375 * c) / 0.950489) - lab_curve (0.2126729 * c + 0.7151522 * c + 0.0721750 * c)) <= 0.00017).
    { eapply Rle_trans; [apply curve_lip|]. assert (Rabs ((0.4124564 * c + 0.3575761 * c + 0.1804375 * c) / 0.950489 - (0.2126729 * c + 0.7151522 * c + 0.0721750 * c)) <= 0.0000212); [|lra]. apply Rabs_le'; lra. }
    assert (A2 : Rabs (lab_curve (0.2126729 * c + 0.7151522 * c + 0.0721750 * c) - lab_curve ((0.0193339 * c + 0.1191920 * c + 0.9503041 * c) / 1.08884)) <= 0.00008).
    { eapply Rle_trans; [apply curve_lip|]. assert (Rabs (0.2126729 * c + 0.7151522 * c + 0.0721750 * c - (0.0193339 * c + 0.1191920 * c + 0.9503041 * c) / 1.08884) <= 0.00001); [|lra]. apply Rabs_le'; lra. }
    apply Rabs_bd in Ha, Hb, A1, A2.
    set (n := (l + 16) / 116). assert (Nn : 0.9999 <= n <= 1.0088) by (unfold n; lra).
    assert (N2 : Rabs (n + a / 500 - n) <= 0.00028) by (apply Rabs_le'; lra).
    assert (N3 : Rabs (n - b' / 200 - n) <= 0.0002) by (apply Rabs_le'; lra).
    unfold lab_light, lab_xyz, xyz_light in Sr, Sg, Sb. cbn [fst snd white_real d65] in Sr, Sg, Sb. fold n in Sr, Sg, Sb.
    assert (P2 : 0.999 <= n + a / 500 <= 1.0095) by (apply Rabs_bd in N2; lra). assert (P3 : 0.999 <= n - b' / 200 <= 1.0095) by (apply Rabs_bd in N3; lra).
    rewrite !uncurve_hi in Sr, Sg, Sb by (unfold dl; lra).
    pose proof (cube_lip (n + a / 500) n ltac:(lra) ltac:(lra)) as C2. pose proof (cube_lip (n - b' / 200) n ltac:(lra) ltac:(lra)) as C3.
    assert (C1 : 0.9996 <= n ^ 3) by (apply Rle_trans with (0.9999 ^ 3); [cbn; lra|apply pow_incr; lra]).
    assert (D2 : Rabs ((n + a / 500) ^ 3 - n ^ 3) <= 0.00087) by lra. assert (D3 : Rabs ((n - b' / 200) ^ 3 - n ^ 3) <= 0.00062) by lra. apply Rabs_bd in D2, D3.
    set (u1 := n ^ 3) in *. set (u2 := (n + a / 500) ^ 3) in *. set (u3 := (n - b' / 200) ^ 3) in *. clearbody u1 u2 u3.
    assert (K : forall z t, shows (/ 8000) z t -> 0.9965 <= t -> (254 <= z <= 255)%Z).
    { intros z t Hz Ht. destruct (C83_bytes z t Hz ltac:(lra)) as (B & _ & [H1| ->]); [|lia]. split; [|lia].
      assert (0.9984 <= Rpower t (/ 2.2)).
      { replace (/ 2.2) with (INR 5 / INR 11) by (cbn; lra). apply Rpower_ge_root; [lra|lra|lia|].
        apply Rle_trans with (0.9965 ^ 5); [cbn; lra|apply pow_incr; lra]. }
      unfold encode in H1. destruct (Rle_dec t 0.0031308); [lra|]. assert (253 < IZR z) by lra. apply lt_IZR in H0. lia. }
    split; [|split]; [apply (K _ _ Sr)|apply (K _ _ Sg)|apply (K _ _ Sb)]; lra.
  Qed.
End Eq.

(** the hypotheses can be met *)
Theorem C84_example : (exists pow, pow_wide pow)
  /\ rgb_input (Image (Info 2 1 4 true) [0; 0; 0; 255; 7; 90; 7; 0])
  /\ (exists w precision pow, pow_wide pow /\ sorts (code_bin (Libm pow (fun x => x) (fun x => x)) w precision) (white_real w) 10)
  /\ (exists img, rgb_input img /\ 100 <= width (info_of img) * height (info_of img) /\ forall x y, inside img x y -> color_at img x y = [7; 7; 7]).
Proof.
  split; [exists ideal_pow; exact ideal_wide|]. split.
  { split; [apply wfb_wf; reflexivity|]. split; [repeat constructor; unfold is_u8; lia|]. split; [reflexivity|]. cbn. lia. }
  split.
  { exists D65, (f32_of_Z 10), ideal_pow. split; [exact ideal_wide|]. apply code_sorts; [exact ideal_wide|apply (of_Z_isZ 10); lia|lra]. }
  exists (Image (Info 100 1 3 false) (repeat 7 300)). split; [|split; [cbn; lia|]].
  - split; [apply wfb_wf; reflexivity|]. split; [apply Forall_forall; intros s Hs; apply repeat_spec in Hs; subst; unfold is_u8; lia|]. split; [reflexivity|]. cbn. lia.
  - intros x y [Hx Hy]. cbn [width height info_of] in *. assert (y = 0) by lia. subst y.
    assert (Hx' : In x (zrange 0 100)) by (apply in_zrange; exact Hx). clear Hx Hy.
    revert x Hx'. apply Forall_forall. vm_compute. repeat constructor.
Qed.
