(** * C42 (contrast), C43 (gamma), C49 (scaled conversions) *)
From Verif.Proofs Require Import BaseL ImageL ImageOps ToneL FloatL FloatL2.
From Verif.Model Require Import Tone Convert.
From Verif.Spec Require Import ImageS ColorS.
From Verif.Props Require Import ImageP FloatP ToneP.
From Flocq Require Import Core BinarySingleNaN.
Open Scope Z_scope.

(** ** C42 *)
Definition contrast_of (g : R) (c : Z) : Z := byte_of_real (rnd32 (IZR c * g)).

Section Contrast.
  Context (g : f32) (Hf : is_finite g = true) (Hg : (0 <= B2R g <= 1)%R).

  Lemma prod_bounds c : is_u8 c -> (0 <= IZR c * B2R g <= IZR c)%R.
  Proof. intros Hc. unfold is_u8 in Hc. assert (0 <= IZR c)%R by (apply IZR_le; lia). nra. Qed.
  Lemma rnd_bounds c : is_u8 c -> (0 <= rnd32 (IZR c * B2R g) <= IZR c)%R.
  Proof.
    intros Hc. pose proof (prod_bounds c Hc). unfold is_u8 in Hc. split.
    - apply (rnd_ge_Z _ 0); [lra|lia].
    - apply rnd_le_Z; [lra|]. lia.
  Qed.
  Lemma contrast_of_floor c : is_u8 c -> contrast_of (B2R g) c = Zfloor (rnd32 (IZR c * B2R g) + / 2)
     /\ 0 <= contrast_of (B2R g) c <= c.
  Proof.
    intros Hc. pose proof (rnd_bounds c Hc) as Hb. unfold contrast_of, byte_of_real.
    assert (0 <= Zfloor (rnd32 (IZR c * B2R g) + / 2)) by (apply Zfloor_lub; lra).
    assert (Zfloor (rnd32 (IZR c * B2R g) + / 2) < c + 1).
    { apply lt_IZR. rewrite plus_IZR. apply Rle_lt_trans with (rnd32 (IZR c * B2R g) + / 2)%R; [apply Zfloor_lb|lra]. }
    unfold is_u8 in Hc. lia.
  Qed.

  Lemma contrast_fn_ok c : is_u8 c -> contrast_fn g c = Ret (contrast_of (B2R g) c).
  Proof.
    intros Hc. pose proof (prod_bounds c Hc) as Hp. unfold contrast_fn.
    assert (Hm : fin (f32_mul (f32_of_Z c) g) (rnd32 (IZR c * B2R g))).
    { apply mul_fin; [apply of_Z_isZ; unfold is_u8 in Hc; lia|split; auto|].
      apply Rle_trans with (Rabs (IZR 255)); [|apply bigZ; lia].
      assert (IZR c <= 255)%R by (apply IZR_le; unfold is_u8 in Hc; lia). rewrite !Rabs_pos_eq by lra. lra. }
    destruct (contrast_of_floor c Hc) as [_ Hr].
    assert (Hz : isZ (f32_round (f32_mul (f32_of_Z c) g)) (contrast_of (B2R g) c)).
    { assert (Hz : exists k, isZ (f32_round (f32_mul (f32_of_Z c) g)) k /\ 0 <= k <= 255).
      { eexists. split; [apply (nearby_fin mode_NA _ _ Hm)|]. cbn [round_mode].
        pose proof (rnd_bounds c Hc). unfold is_u8 in Hc. split.
        - apply Z.le_trans with (round_mode mode_NA (IZR 0)); [rewrite rmode_Z; lia|]. apply (Zrnd_le ZnearestA). lra.
        - apply Z.le_trans with (round_mode mode_NA (IZR c)); [|rewrite rmode_Z; lia]. apply (Zrnd_le ZnearestA). lra. }
      destruct Hz as [k [Hz Hk]].
      pose proof (round_to_byte (f32_mul (f32_of_Z c) g)) as Hb.
      pose proof (to_int_isZ U8 _ k Hz ltac:(cbn; lia) ltac:(cbn; lia)) as Ht. unfold f32_to_int, f32_round in Ht.
      rewrite Ht in Hb. replace (contrast_of (B2R g) c) with k; [exact Hz|].
      rewrite Hb. destruct Hm as [F E]. unfold contrast_of. rewrite <- E.
      destruct (f32_mul (f32_of_Z c) g); try discriminate; reflexivity. }
    unfold f32_clamp. rewrite (leb_isZ _ _ 0 255) by (first [exact isZ_0 | apply of_Z_isZ; lia]). cbn [Z.leb Z.compare].
    unfold is_u8 in Hc.
    rewrite (ltb_isZ _ _ _ 0 Hz isZ_0). replace (contrast_of (B2R g) c <? 0) with false by lia. cbv zeta.
    rewrite (gtb_isZ _ _ _ 255 Hz) by (apply of_Z_isZ; lia). replace (255 <? contrast_of (B2R g) c) with false by lia.
    rewrite bind_Ret. f_equal. apply to_int_isZ; [exact Hz| |]; cbn; lia.
  Qed.
End Contrast.

Lemma gain_checks (g : f32) : is_finite g = true -> (0 <= B2R g <= 1)%R ->
  check_non_neg num_f32 g = Ret tt /\ check_in_range num_f32 g f32_0 f32_1 = Ret tt.
Proof.
  intros Hf Hg. assert (H : fin g (B2R g)) by (split; auto).
  assert (H0 : f32_ltb g f32_0 = false).
  { unfold f32_ltb. rewrite (ltb_fin _ _ _ _ H isZ_0). apply Rlt_bool_false. lra. }
  assert (H1 : f32_ltb f32_1 g = false).
  { unfold f32_ltb. rewrite (ltb_fin _ _ _ _ isZ_1 H). apply Rlt_bool_false. lra. }
  unfold check_non_neg, check_in_range. cbn [n_ltb num_f32]. change (n_zero num_f32) with f32_0. 
  change (f32_gtb g f32_1) with (f32_ltb f32_1 g). rewrite H0, H1. split; reflexivity.
Qed.

Definition accepted_gain (g : f32) : Prop := is_finite g = true /\ (0 <= B2R g <= 1)%R.

Theorem C42_contrast p (img : image Z) g : wf img -> samples is_u8 img -> has_channels (info_of img) -> accepted_gain g ->
  exists out, contrast p img g = Ret out /\ recolored (contrast_of (B2R g)) (fun a => a) img out.
Proof.
  intros Hwf Hu HC [Hf Hg]. unfold contrast. destruct (gain_checks g Hf Hg) as [-> ->]. rewrite !bind_Ret.
  rewrite (table_256 _ _ (contrast_of (B2R g))).
  2: { intros i Hi. apply contrast_fn_ok; auto. }
  rewrite bind_Ret. unfold samples in Hu. rewrite Forall_forall in Hu. apply map_if_alpha_recolored; auto.
  intros s Hs. apply (table_get (contrast_of (B2R g))). apply Hu. exact Hs.
Qed.

(** properties of the curve: never brighter, order kept, nearest value up to the f32 rounding of
    the product, end points *)
Theorem C42_curve g : accepted_gain g ->
  (forall c, is_u8 c -> 0 <= contrast_of (B2R g) c <= c) /\
  (forall c c', is_u8 c -> is_u8 c' -> c <= c' -> contrast_of (B2R g) c <= contrast_of (B2R g) c') /\
  (forall c, is_u8 c -> (Rabs (IZR (contrast_of (B2R g) c) - IZR c * B2R g) <= / 2 + / 65536)%R) /\
  (B2R g = 1%R -> forall c, is_u8 c -> contrast_of (B2R g) c = c) /\
  (B2R g = 0%R -> forall c, is_u8 c -> contrast_of (B2R g) c = 0).
Proof.
  intros [Hf Hg]. split; [|split; [|split; [|split]]].
  - intros c Hc. apply contrast_of_floor; auto.
  - intros c c' Hc Hc' Hle. rewrite (proj1 (contrast_of_floor g Hg c Hc)), (proj1 (contrast_of_floor g Hg c' Hc')).
    apply Zfloor_le. apply Rplus_le_compat_r. apply rnd_le. apply Rmult_le_compat_r; [lra|]. apply IZR_le. exact Hle.
  - intros c Hc. rewrite (proj1 (contrast_of_floor g Hg c Hc)).
    pose proof (prod_bounds g Hg c Hc) as Hp. set (v := (IZR c * B2R g)%R) in *.
    assert (Hc2 : (IZR c <= 255)%R) by (apply IZR_le; unfold is_u8 in Hc; lia).
    assert (He : (Rabs (rnd32 v - v) <= / 65536)%R).
    { destruct (Rle_lt_dec (bpow radix2 (-126)) v) as [Hv|Hv].
      - pose proof (rel_err v) as E. rewrite (Rabs_pos_eq v) in E by lra. specialize (E Hv).
        change (bpow radix2 (-24)) with (/ IZR (2 ^ 24))%R in E. change (2 ^ 24) with 16777216 in E. lra.
      - assert (Hb : (0 <= rnd32 v <= bpow radix2 (-126))%R).
        { split; [apply (rnd_ge_Z _ 0); [lra|lia]|]. apply rnd_le_fmt; [lra|].
          apply generic_format_bpow. cbn. lia. }
        assert (bpow radix2 (-126) <= / 65536)%R.
        { replace (/ 65536)%R with (bpow radix2 (-16)) by (cbn; lra). apply bpow_le. lia. }
        apply Rabs_le. lra. }
    pose proof (Zfloor_lb (rnd32 v + / 2)). pose proof (Zfloor_ub (rnd32 v + / 2)).
    apply Rabs_le. apply Rabs_le_inv in He. lra.
  - intros E c Hc. rewrite (proj1 (contrast_of_floor g Hg c Hc)), E, Rmult_1_r.
    unfold rnd32. rewrite rnd_Z by (unfold is_u8 in Hc; lia). apply Zfloor_imp. rewrite plus_IZR. lra.
  - intros E c Hc. rewrite (proj1 (contrast_of_floor g Hg c Hc)), E, Rmult_0_r.
    unfold rnd32. rewrite (rnd_Z 0) by lia. apply Zfloor_imp. cbn. lra.
Qed.

Theorem C42_rejects p (img : image Z) g : f32_ltb g f32_0 = true \/ f32_ltb f32_1 g = true ->
  contrast p img g = Fail InvalidArgError.
Proof.
  intros H. unfold contrast, check_non_neg, check_in_range. cbn [n_ltb num_f32]. change (n_zero num_f32) with f32_0.
  change (f32_gtb g f32_1) with (f32_ltb f32_1 g).
  destruct (f32_ltb g f32_0) eqn:E; [reflexivity|]. rewrite bind_Ret.
  destruct H as [H|H]; [discriminate|]. rewrite H. reflexivity.
Qed.
(** every gain that is neither accepted nor rejected is NaN; it is not detected and blackens the image *)
Theorem C42_gains g : accepted_gain g \/ (f32_ltb g f32_0 = true \/ f32_ltb f32_1 g = true) \/ is_nan g = true.
Proof.
  destruct (is_nan g) eqn:N; [auto|]. destruct (f32_ltb g f32_0) eqn:E0; [auto|]. destruct (f32_ltb f32_1 g) eqn:E1; [auto|].
  left. rewrite ltb_ext in E0, E1 by auto.
  assert (A : (0 <= ext g)%R).
  { apply Rnot_lt_le. intros L. rewrite Rlt_bool_true in E0; [discriminate|]. replace (ext f32_0) with 0%R; [exact L|].
    symmetry. apply isZ_0. }
  assert (B : (ext g <= 1)%R).
  { apply Rnot_lt_le. intros L. rewrite Rlt_bool_true in E1; [discriminate|]. replace (ext f32_1) with 1%R; [exact L|].
    destruct f32_1_form as [H1 E]. rewrite E. cbn [ext]. rewrite <- E. symmetry. apply isZ_1. }
  pose proof bpow128. unfold ext in A, B. destruct g as [s|s| |s m e Hm]; try discriminate; try (split; [reflexivity|lra]).
  assert (2 <= bpow radix2 128)%R. { replace 2%R with (bpow radix2 1) by reflexivity. apply bpow_le. lia. }
  destruct s; lra.
Qed.
Theorem C42_nan p (img : image Z) g : wf img -> samples is_u8 img -> has_channels (info_of img) -> is_nan g = true ->
  exists out, contrast p img g = Ret out /\ recolored (fun _ => 0) (fun a => a) img out.
Proof.
  intros Hwf Hu HC Hn. unfold contrast, check_non_neg, check_in_range. cbn [n_ltb num_f32]. change (n_zero num_f32) with f32_0.
  change (f32_gtb g f32_1) with (f32_ltb f32_1 g). rewrite (ltb_nan_l g) by exact Hn. rewrite (ltb_nan_r f32_1 g) by exact Hn.
  cbn [orb]. rewrite !bind_Ret.
  rewrite (table_256 _ _ (fun _ => 0)).
  2: { intros i Hi. destruct g; try discriminate. unfold contrast_fn.
       assert (E : f32_mul (f32_of_Z i) B754_nan = B754_nan) by (unfold f32_mul; destruct (f32_of_Z i); reflexivity).
       rewrite E. reflexivity. }
  rewrite bind_Ret. unfold samples in Hu. rewrite Forall_forall in Hu. apply map_if_alpha_recolored; auto.
  intros s Hs. apply (table_get (fun _ => 0)). apply Hu. exact Hs.
Qed.
Example C42_example : accepted_gain (f32_dec 5 1) /\
  match contrast Debug ex_rgba (f32_dec 5 1) with
  | Ret out => firstn 8 (data out) = [1; 1; 2; 4; 3; 3; 4; 8] | _ => False end.
Proof.
  split; [|vm_compute; reflexivity]. split; [reflexivity|].
  replace (B2R (f32_dec 5 1)) with (/ 2)%R; [lra|].
  unfold f32_dec. cbn. unfold F2R. cbn. lra.
Qed.

(** ** C49 *)
Lemma rel_bounds v : (/ 65536 <= v)%R -> (v * (1 - / 16777216) <= rnd32 v <= v * (1 + / 16777216))%R.
Proof.
  intros Hv.
  assert (H : (bpow radix2 (-126) <= v)%R).
  { apply Rle_trans with (bpow radix2 (-16)); [apply bpow_le; lia|]. cbn. lra. }
  pose proof (bpow_gt_0 radix2 (-126)).
  pose proof (rel_err v) as E. rewrite (Rabs_pos_eq v) in E by lra. specialize (E H).
  change (bpow radix2 (-24)) with (/ IZR (2 ^ 24))%R in E. change (2 ^ 24) with 16777216 in E.
  apply Rabs_le_inv in E. lra.
Qed.

(** a positive scale as a float *)
Lemma scale_fin s : 1 <= s <= u32_max -> exists S, fin (f32_of_Z s) S /\ (1 <= S <= 4294967296)%R.
Proof.
  intros Hs. unfold u32_max in Hs. exists (rnd32 (IZR s)). split.
  - apply of_Z_fin. assert (2 ^ 32 <= 2 ^ (128 - 1)) by (apply Z.pow_le_mono_r; lia). change (2 ^ 32) with 4294967296 in *. lia.
  - split.
    + apply (rnd_ge_Z _ 1); [apply IZR_le; lia|lia].
    + apply rnd_le_fmt.
      * apply IZR_le. lia.
      * replace 4294967296%R with (bpow radix2 32) by (cbn; lra). apply generic_format_bpow. cbn. lia.
Qed.

Lemma big127 r : (0 <= r <= 1000000000000)%R -> (Rabs r <= bpow radix2 (128 - 1))%R.
Proof.
  intros H. rewrite Rabs_pos_eq by lra. apply Rle_trans with (bpow radix2 40); [|apply bpow_le; lia].
  cbn. lra.
Qed.

Lemma byte_of_near (x : f32) r c : fin x r -> is_u8 c -> (IZR c - / 2 < r < IZR c + / 2)%R -> byte_of x = c.
Proof.
  intros [F E] Hc Hr. unfold is_u8 in Hc.
  assert (byte_of_real (B2R x) = c).
  { rewrite E. unfold byte_of_real. rewrite (Zfloor_imp c); [lia|]. rewrite plus_IZR. lra. }
  destruct x; try discriminate; assumption.
Qed.

Lemma quotient_255 c : 1 <= c <= 255 -> exists q, fin (f32_div (f32_of_Z c) (f32_of_Z 255)) q
  /\ (IZR c / 255 * (1 - / 16777216) <= q <= IZR c / 255 * (1 + / 16777216))%R /\ (/ 256 <= q <= 1)%R.
Proof.
  intros Hc. assert (HC : (1 <= IZR c <= 255)%R) by (split; apply IZR_le; lia).
  exists (rnd32 (IZR c / 255)). split; [|split].
  - apply div_fin; [apply of_Z_isZ; lia|apply of_Z_isZ; lia|lra|]. apply big127. lra.
  - apply rel_bounds. lra.
  - pose proof (rel_bounds (IZR c / 255) ltac:(lra)). split; [lra|]. apply (rnd_le_Z _ 1); [lra|lia].
Qed.

Lemma scaled_round_trip s c : 1 <= s <= u32_max -> is_u8 c -> to_u8_scaled s (to_f32_scaled s c) = c.
Proof.
  intros Hs Hc. unfold to_u8_scaled, to_f32_scaled. 
  destruct (scale_fin s Hs) as [S [FS HS]]. unfold is_u8 in Hc.
  destruct (Z.eq_dec c 0) as [->|Hc0].
  - assert (Z1 : isZ (f32_div (f32_of_Z 0) (f32_of_Z 255)) 0).
    { unfold isZ. replace (IZR 0) with (rnd32 (0 / 255)); [|unfold Rdiv; rewrite Rmult_0_l; apply (rnd_Z 0); lia].
      apply div_fin; [apply of_Z_isZ; lia|apply of_Z_isZ; lia|lra|apply big127; lra]. }
    assert (Z2 : isZ (f32_mul (f32_div (f32_of_Z 0) (f32_of_Z 255)) (f32_of_Z s)) 0).
    { unfold isZ. replace (IZR 0) with (rnd32 (0 * S)); [|rewrite Rmult_0_l; apply (rnd_Z 0); lia].
      apply mul_fin; [exact Z1|exact FS|apply big127; lra]. }
    assert (Z3 : isZ (f32_div (f32_mul (f32_div (f32_of_Z 0) (f32_of_Z 255)) (f32_of_Z s)) (f32_of_Z s)) 0).
    { unfold isZ. replace (IZR 0) with (rnd32 (0 / S)); [|unfold Rdiv; rewrite Rmult_0_l; apply (rnd_Z 0); lia].
      apply div_fin; [exact Z2|exact FS|lra|apply big127; unfold Rdiv; lra]. }
    apply to_int_isZ; [|cbn; lia|cbn; lia]. apply nearby_isZ.
    apply (mul_isZ _ _ 0 255 Z3); [apply of_Z_isZ; lia|lia].
  - destruct (quotient_255 c ltac:(lia)) as [q [F1 [H1 H1']]].
    assert (HC : (1 <= IZR c <= 255)%R) by (split; apply IZR_le; lia).
    set (u := (/ 16777216)%R) in *. assert (Hu : (0 < u < / 10000000)%R) by (unfold u; lra).
    assert (HqS : (/ 65536 <= q * S <= 4294967296)%R) by (split; nra).
    assert (F2 : fin (f32_mul (f32_div (f32_of_Z c) (f32_of_Z 255)) (f32_of_Z s)) (rnd32 (q * S))).
    { apply mul_fin; [exact F1|exact FS|apply big127; lra]. }
    pose proof (rel_bounds (q * S) ltac:(lra)) as H2. fold u in H2. set (r2 := rnd32 (q * S)) in *.
    assert (H2' : (q * (1 - u) <= r2 / S <= q * (1 + u))%R).
    { split; apply Rmult_le_reg_r with S; try lra; unfold Rdiv; rewrite ?Rmult_assoc, Rinv_l by lra; lra. }
    assert (F3 : fin (f32_div (f32_mul (f32_div (f32_of_Z c) (f32_of_Z 255)) (f32_of_Z s)) (f32_of_Z s)) (rnd32 (r2 / S))).
    { apply div_fin; [exact F2|exact FS|lra|apply big127; nra]. }
    pose proof (rel_bounds (r2 / S) ltac:(nra)) as H3. fold u in H3. set (r3 := rnd32 (r2 / S)) in *.
    assert (H3' : (q * (1 - u) * (1 - u) <= r3 <= q * (1 + u) * (1 + u))%R).
    { split; [apply Rle_trans with (r2 / S * (1 - u))%R|apply Rle_trans with (r2 / S * (1 + u))%R]; try apply H3;
        apply Rmult_le_compat_r; lra. }
    assert (Hr3 : (/ 512 <= r3 <= 2)%R) by (clear - H3' H1' Hu; nra).
    assert (F4 : fin (f32_mul (f32_div (f32_mul (f32_div (f32_of_Z c) (f32_of_Z 255)) (f32_of_Z s)) (f32_of_Z s)) (f32_of_Z 255)) (rnd32 (r3 * 255))).
    { apply mul_fin; [exact F3|apply of_Z_isZ; lia|apply big127; lra]. }
    pose proof (rel_bounds (r3 * 255) ltac:(lra)) as H4. fold u in H4.
    unfold f32_to_int, f32_round. rewrite round_to_byte. apply (byte_of_near _ _ _ F4); [unfold is_u8; lia|].
    assert (Hlow : (IZR c * (1 - u) * (1 - u) * (1 - u) * (1 - u) <= rnd32 (r3 * 255))%R).
    { apply Rle_trans with (r3 * 255 * (1 - u))%R; [|apply H4]. apply Rmult_le_compat_r; [lra|].
      assert (IZR c * (1 - u) <= q * 255)%R by lra.
      assert (IZR c * (1 - u) * ((1 - u) * (1 - u)) <= q * 255 * ((1 - u) * (1 - u)))%R by (apply Rmult_le_compat_r; nra).
      lra. }
    assert (Hupp : (rnd32 (r3 * 255) <= IZR c * (1 + u) * (1 + u) * (1 + u) * (1 + u))%R).
    { apply Rle_trans with (r3 * 255 * (1 + u))%R; [apply H4|]. apply Rmult_le_compat_r; [lra|].
      assert (q * 255 <= IZR c * (1 + u))%R by lra.
      assert (q * 255 * ((1 + u) * (1 + u)) <= IZR c * (1 + u) * ((1 + u) * (1 + u)))%R by (apply Rmult_le_compat_r; nra).
      lra. }
    assert (B : (1 - / 1000000 <= (1 - u) * (1 - u) * (1 - u) * (1 - u))%R /\ ((1 + u) * (1 + u) * (1 + u) * (1 + u) <= 1 + / 1000000)%R).
    { unfold u. lra. }
    clear - Hlow Hupp B HC. split; nra.
Qed.

Theorem C49_scaled_round_trip p (img : image Z) s : wf img -> samples is_u8 img -> 1 <= s <= u32_max ->
  (let! f := u8_to_f32_scale p img s in f32_to_u8_scale p f s) = Ret img.
Proof.
  intros Hwf Hu Hs. unfold u8_to_f32_scale. rewrite map_channels_pure by exact Hwf. rewrite bind_Ret.
  unfold f32_to_u8_scale. rewrite map_channels_pure by (apply map_data_wf; exact Hwf). cbn [info_of data].
  rewrite map_map. f_equal. apply image_eq; [reflexivity|]. cbn [data].
  unfold samples in Hu. induction Hu as [|c l Hc Hl IH]; [reflexivity|]. cbn [map]. rewrite IH, scaled_round_trip by assumption. reflexivity.
Qed.
(** scale 0 loses everything: 0/0 is NaN *)
Theorem C49_scale_0 p (img : image Z) : wf img -> samples is_u8 img ->
  (let! f := u8_to_f32_scale p img 0 in f32_to_u8_scale p f 0) = Ret (Image (info_of img) (map (fun _ => 0) (data img))).
Proof.
  intros Hwf Hu. unfold u8_to_f32_scale. rewrite map_channels_pure by exact Hwf. rewrite bind_Ret.
  unfold f32_to_u8_scale. rewrite map_channels_pure by (apply map_data_wf; exact Hwf). cbn [info_of data].
  rewrite map_map. do 2 f_equal. unfold samples in Hu.
  assert (T : forallb (fun c => to_u8_scaled 0 (to_f32_scaled 0 c) =? 0) (zrange 0 256) = true) by (vm_compute; reflexivity).
  rewrite forallb_forall in T. apply map_ext_in. intros c Hc. rewrite Forall_forall in Hu. specialize (Hu c Hc). unfold is_u8 in Hu.
  apply Z.eqb_eq, T, in_zrange. lia.
Qed.
Example C49_example : wf ex_rgba /\ samples is_u8 ex_rgba /\ 1 <= 1000 <= u32_max
  /\ (let! f := u8_to_f32_scale Debug ex_rgba 1000 in f32_to_u8_scale Debug f 1000) = Ret ex_rgba.
Proof. split; [exact ex_rgba_wf|]. split; [exact ex_rgba_u8|]. split; [unfold u32_max; lia|]. vm_compute. reflexivity. Qed.

(** ** C43 *)
Definition gamma_curve (lm : libm) (g : f32) (mx c : Z) : Z :=
  byte_of (f32_mul (powf lm (f32_div (f32_of_Z c) (f32_of_Z mx)) g) (f32_of_Z mx)).

(** one curve for the whole image, with values in [0,255]; alpha and info kept *)
Theorem C43_gamma p lm g mx : f32_ltb g f32_0 = false ->
  exists h, (forall c, 0 <= h c <= 255) /\
    forall img : image Z, wf img -> samples is_u8 img -> has_channels (info_of img) ->
      exists out, gamma p lm img g mx = Ret out /\ recolored h (fun a => a) img out.
Proof.
  intros Hg. exists (gamma_curve lm g mx). split.
  - intros c. unfold gamma_curve. rewrite <- round_to_byte. set (x := Bnearbyint _ _). clearbody x.
    unfold float_to_int. destruct x as [s|[]| |s m e Hm]; cbn [lo hi U8]; try lia;
      match goal with |- context [Btrunc ?y] => generalize (Btrunc y); intros z end;
      destruct (Z.ltb_spec z 0); try lia; destruct (Z.ltb_spec 255 z); lia.
  - intros img Hwf Hu HC. unfold gamma, check_non_neg. cbn [n_ltb num_f32]. change (n_zero num_f32) with f32_0. rewrite Hg, bind_Ret.
    apply map_if_alpha_recolored; auto. intros s _. unfold gamma_fn, f32_to_int, f32_round. rewrite round_to_byte. reflexivity.
Qed.
Theorem C43_rejects p lm (img : image Z) g mx : f32_ltb g f32_0 = true -> gamma p lm img g mx = Fail InvalidArgError.
Proof. intros Hg. unfold gamma, check_non_neg. cbn [n_ltb num_f32]. change (n_zero num_f32) with f32_0. rewrite Hg. reflexivity. Qed.

(** with a power function that satisfies x^1 = x on the quotients c/255, gamma 1 is the identity *)
Theorem C43_gamma_one p lm (img : image Z) : wf img -> samples is_u8 img -> has_channels (info_of img) ->
  (forall x, powf lm x f32_1 = x) -> gamma p lm img f32_1 255 = Ret img.
Proof.
  intros Hwf Hu HC Hpow. unfold gamma, check_non_neg. cbn [n_ltb num_f32]. change (n_zero num_f32) with f32_0.
  replace (f32_ltb f32_1 f32_0) with false by reflexivity. rewrite bind_Ret.
  destruct (map_if_alpha_recolored p img (fun c => Ret (gamma_fn lm f32_1 255 c)) (fun a => Ret a) (fun c => c) (fun a => a)) as [out [E R]]; auto.
  { intros s Hs. f_equal. unfold gamma_fn. rewrite Hpow.
    assert (T : forallb (fun c => f32_to_int U8 (f32_round (f32_mul (f32_div (f32_of_Z c) (f32_of_Z 255)) (f32_of_Z 255))) =? c) (zrange 0 256) = true) by (vm_compute; reflexivity).
    rewrite forallb_forall in T. unfold samples in Hu. rewrite Forall_forall in Hu. specialize (Hu s Hs). unfold is_u8 in Hu.
    apply Z.eqb_eq, T, in_zrange. lia. }
  rewrite E. f_equal. apply (recolored_unique (fun c => c) (fun a => a) img); auto.
  split; [reflexivity|]. split; [exact Hwf|]. intros x y c s Hin Hc Hs. rewrite Hs. destruct (is_alpha _ _); reflexivity.
Qed.

Example C43_example : f32_ltb (f32_of_Z 2) f32_0 = false /\ f32_ltb (f32_of_Z (-2)) f32_0 = true
  /\ match gamma Debug (Libm (fun x _ => f32_mul x x) (fun x => x) (fun x => x)) ex_rgba (f32_of_Z 2) 255 with
     | Ret out => nth 20 (data out) 0 = 2 /\ nth 23 (data out) 0 = 24 | _ => False end.
Proof. split; [reflexivity|]. split; [reflexivity|]. vm_compute. auto. Qed.
