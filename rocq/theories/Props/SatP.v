(** * C41: saturation (src/tone.rs) *)
From Verif.Proofs Require Import BaseL ImageL ImageOps ToneL SimdL HsvL.
From Verif.Model Require Import Tone.
From Verif.Props Require Import ImageP HsvP ToneP.
Open Scope Z_scope.

(** add to the saturation of an HSV triple *)
Definition shift_s (d : Z) (px : list Z) : list Z :=
  match px with [h; s; v] => [h; byte (s + d); v] | _ => px end.
(** the scalar result for one RGB triple *)
Definition saturated (d : Z) (px : list Z) : list Z := rgb_of (shift_s d (hsv_of px)).

Lemma quad (cs : list Z) : len cs = 4 -> exists r g b a, cs = [r; g; b; a].
Proof.
  destruct cs as [|r [|g [|b [|a [|? ?]]]]]; cbn; intros H; try (unfold len in H; cbn in H; lia). eauto.
Qed.

Lemma byte_range z : is_u8 (byte z).
Proof. unfold is_u8, byte. lia. Qed.

(** edit_channel with a closure that is [Ret (f' s)] on bytes and keeps them bytes *)
Lemma edit_loop_u8 (f : Z -> outcome Z) (f' : Z -> Z) (is : list Z) (d : list Z) :
  (forall s, is_u8 s -> f s = Ret (f' s)) -> (forall s, is_u8 s -> is_u8 (f' s)) -> Forall is_u8 d ->
  mfold (fun d i => let! c := vget d i in let! c' := f c in vset d i c') is d
  = mfold (fun d i => let! c := vget d i in let! c' := Ret (f' c) in vset d i c') is d.
Proof.
  intros Hf Hf' Hd. apply (mfold_ext_inv (fun d => Forall is_u8 d)); [exact Hd| |].
  - intros t i Ht _. apply bind_ext. intros c Hc. apply vget_inv in Hc as [_ Hc].
    rewrite Hf; [reflexivity|]. rewrite Forall_forall in Ht. apply Ht. apply nth_error_In in Hc. exact Hc.
  - intros t i t' Ht _ E. apply bind_inv in E as [c [Hc E]]. apply vget_inv in Hc as [Hr Hc].
    assert (is_u8 c) by (rewrite Forall_forall in Ht; apply Ht; apply nth_error_In in Hc; exact Hc).
    rewrite bind_Ret in E. rewrite vset_ok in E by exact Hr. injection E as <-.
    apply Forall_forall. intros s Hs. apply In_nth_error in Hs as [j Hj].
    destruct (Nat.eq_dec j (Z.to_nat i)) as [->|Hne].
    + rewrite (nth_error_nth' _ (f' c)) in Hj by (rewrite upd_length; unfold len in Hr; lia).
      rewrite nth_upd in Hj by (unfold len in Hr; lia). rewrite Nat.eqb_refl in Hj. injection Hj as <-. auto.
    + assert (Hjl : (j < length t)%nat) by (rewrite <- (upd_length t (Z.to_nat i) (f' c)); apply nth_error_Some; congruence).
      rewrite (nth_error_nth' _ 0) in Hj by (rewrite upd_length; exact Hjl).
      rewrite nth_upd in Hj by (unfold len in Hr; lia).
      replace (j =? Z.to_nat i)%nat with false in Hj by (symmetry; apply Nat.eqb_neq; exact Hne).
      injection Hj as <-. rewrite Forall_forall in Ht. apply Ht, nth_In. exact Hjl.
Qed.

Lemma saturation_norm_ok p (hsv : image Z) d : wf hsv -> samples is_u8 hsv -> 0 < channels (info_of hsv) -> -255 <= d <= 255 ->
  exists out, saturation_norm p hsv d = Ret out /\ wf out /\ info_of out = info_of hsv
    /\ forall j, 0 <= j < len (data hsv) ->
       nth (Z.to_nat j) (data out) 0
       = if (1 <=? j) && ((j - 1) mod channels (info_of hsv) =? 0)
         then byte (nth (Z.to_nat j) (data hsv) 0 + d) else nth (Z.to_nat j) (data hsv) 0.
Proof.
  intros Hwf Hu HC Hd.
  destruct (edit_channel_ok p (fun s => byte (s + d)) 1 hsv 0 Hwf HC ltac:(lia)) as [out [E [Hw [I D]]]].
  exists out. split.
  - rewrite <- E. unfold saturation_norm, edit_channel. rewrite full_size_ok by exact Hwf. rewrite !bind_Ret.
    apply bind_ext. intros is _. rewrite (edit_loop_u8 _ (fun s => byte (s + d))).
    + reflexivity.
    + intros s Hs. apply add_clamped_ok; [lia|exact Hs].
    + intros s _. apply byte_range.
    + exact Hu.
  - split; [exact Hw|]. split; [exact I|]. intros j Hj. rewrite D by (unfold len in Hj; lia).
    replace (Z.of_nat (Z.to_nat j)) with j by lia. reflexivity.
Qed.

Section Sat.
  Context (p : profile) (img : image Z) (d : Z).
  Context (Hwf : wf img) (Hu : samples is_u8 img) (Hc : colors (info_of img) = 3)
          (Hne : 0 < width (info_of img) * height (info_of img)) (Hd : -255 <= d <= 255).
  Notation W := (width (info_of img)).
  Notation H := (height (info_of img)).

  Lemma check_d : check_in_range (num_int I16) d (-255) 255 = Ret tt.
  Proof. unfold check_in_range. cbn [n_ltb num_int]. replace ((d <? -255) || (255 <? d)) with false by lia. reflexivity. Qed.

  Lemma chan : channels (info_of img) = if alpha (info_of img) then 4 else 3.
  Proof. unfold colors in Hc. destruct (alpha (info_of img)); lia. Qed.

  (** the edited HSV image determines the result *)
  Lemma finish (hsv' : image Z) : wf hsv' -> samples is_u8 hsv' -> info_of hsv' = info_of img ->
    exists out, hsv_to_rgb p hsv' = Ret out /\ repixeled rgb_of (fun a => a) 3 hsv' out /\ wf out /\ info_of out = info_of img.
  Proof.
    intros Hw Hu' I. destruct (C45_hsv_to_rgb p hsv') as [out [E [R [I2 U2]]]]; try rewrite I; auto.
    exists out. split; [exact E|]. split; [exact R|]. split; [apply R|congruence].
  Qed.

  (** what the pixel (x, y) of the result is, given the samples of the edited HSV image *)
  Definition keeps (hsv e : image Z) (x y : Z) : Prop := forall c, 0 <= c < channels (info_of img) ->
    let k := (y * W + x) * channels (info_of img) + c in
    nth (Z.to_nat k) (data e) 0 = if c =? 1 then byte (nth (Z.to_nat k) (data hsv) 0 + d) else nth (Z.to_nat k) (data hsv) 0.

  Lemma pixel_edit (hsv e out : image Z) x y cs rest :
    repixeled hsv_of (fun a => a) 3 img hsv -> info_of hsv = info_of img -> wf e -> info_of e = info_of img ->
    repixeled rgb_of (fun a => a) 3 e out -> inside img x y -> keeps hsv e x y ->
    pixel_at img x y = cs ++ rest -> length rest = (if alpha (info_of img) then 1%nat else 0%nat) ->
    pixel_at out x y = saturated d cs ++ rest.
  Proof.
    intros R1 I1 We Ie R2 Hin Hk Ep Hr.
    assert (Hin1 : inside hsv x y) by (unfold inside in *; rewrite I1; exact Hin).
    assert (Hine : inside e x y) by (unfold inside in *; rewrite Ie; exact Hin).
    assert (Hl : len cs = 3).
    { pose proof (pixel_at_len img Hwf x y Hin) as Hl. rewrite Ep, len_app, chan in Hl. unfold len in *.
      destruct (alpha (info_of img)); lia. }
    destruct (triple cs Hl) as [r [g [b ->]]].
    pose proof (repixeled_pixel _ _ _ _ _ x y _ _ R1 Hin Ep Hr) as E1. rewrite map_id in E1. cbn [hsv_of] in E1.
    assert (Hn : forall c, 0 <= c < channels (info_of img) ->
       nth (Z.to_nat c) (pixel_at e x y) 0 = if c =? 1 then byte (nth (Z.to_nat c) (pixel_at hsv x y) 0 + d)
                                            else nth (Z.to_nat c) (pixel_at hsv x y) 0).
    { intros c Hcc. rewrite !nth_pixel by (rewrite ?Ie, ?I1; assumption). rewrite Ie, I1. apply (Hk c Hcc). }
    assert (E2 : pixel_at e x y = [hsv_hue r g b; byte (hsv_saturation r g b + d); hsv_value r g b] ++ rest).
    { pose proof (pixel_at_len e We x y Hine) as Hle. rewrite Ie, chan in Hle. rewrite chan in Hn. rewrite E1 in Hn.
      destruct (alpha (info_of img)).
      - destruct rest as [|al [|? ?]]; try discriminate. destruct (quad _ Hle) as [e0 [e1 [e2 [e3 Ee]]]]. rewrite Ee in *.
        pose proof (Hn 0 ltac:(lia)) as N0. pose proof (Hn 1 ltac:(lia)) as N1.
        pose proof (Hn 2 ltac:(lia)) as N2. pose proof (Hn 3 ltac:(lia)) as N3. clear - N0 N1 N2 N3.
        change (Z.to_nat 0) with 0%nat in *. change (Z.to_nat 1) with 1%nat in *. change (Z.to_nat 2) with 2%nat in *.
        change (Z.to_nat 3) with 3%nat in *. cbn [nth app Z.eqb Pos.eqb] in *. subst. reflexivity.
      - destruct rest as [|al ?]; try discriminate. destruct (triple _ Hle) as [e0 [e1 [e2 Ee]]]. rewrite Ee in *.
        pose proof (Hn 0 ltac:(lia)) as N0. pose proof (Hn 1 ltac:(lia)) as N1. pose proof (Hn 2 ltac:(lia)) as N2. clear - N0 N1 N2.
        change (Z.to_nat 0) with 0%nat in *. change (Z.to_nat 1) with 1%nat in *. change (Z.to_nat 2) with 2%nat in *.
        cbn [nth app Z.eqb Pos.eqb] in *. subst. reflexivity. }
    rewrite <- Ie in Hr. pose proof (repixeled_pixel _ _ _ _ _ x y _ _ R2 Hine E2 Hr) as E3. rewrite map_id in E3. exact E3.
  Qed.

  (** a pixel whose edited value (and alpha) is 0 is black (and transparent) *)
  Lemma pixel_black (e out : image Z) x y : wf e -> samples is_u8 e -> info_of e = info_of img ->
    repixeled rgb_of (fun a => a) 3 e out -> inside img x y ->
    (forall c, 2 <= c < channels (info_of img) -> nth (Z.to_nat ((y * W + x) * channels (info_of img) + c)) (data e) 0 = 0) ->
    pixel_at out x y = repeat 0 (Z.to_nat (channels (info_of img))).
  Proof.
    intros We Ue Ie R2 Hin Hk.
    assert (Hine : inside e x y) by (unfold inside in *; rewrite Ie; exact Hin).
    assert (Hn : forall c, 2 <= c < channels (info_of img) -> nth (Z.to_nat c) (pixel_at e x y) 0 = 0).
    { intros c Hcc. rewrite !nth_pixel by (rewrite ?Ie; lia || assumption). rewrite Ie. apply (Hk c Hcc). }
    pose proof (pixel_at_len e We x y Hine) as Hle. rewrite Ie in Hle. rewrite chan in *.
    assert (B : forall h s rest, pixel_at e x y = [h; s; 0] ++ rest ->
       length rest = (if alpha (info_of e) then 1%nat else 0%nat) -> pixel_at out x y = [0; 0; 0] ++ rest).
    { intros h s rest Ep Hr. pose proof (repixeled_pixel _ _ _ _ _ x y _ _ R2 Hine Ep Hr) as E3. rewrite map_id in E3.
      rewrite E3. f_equal.
      assert (F : Forall is_u8 (pixel_at e x y)) by (apply pixels_samples; exact Ue). rewrite Ep in F.
      apply Forall_app in F as [F _]. pose proof (Forall_inv F) as Hh. apply Forall_inv_tail in F. pose proof (Forall_inv F) as Hs.
      destruct (rgb_of_max h s 0 Hh Hs) as [r' [g' [b' [E [? [? [? [E1 E2]]]]]]]]; [unfold is_u8; lia|].
      rewrite E. unfold max3, is_u8 in *. repeat f_equal; lia. }
    destruct (alpha (info_of img)) eqn:Ea.
    - destruct (quad _ Hle) as [e0 [e1 [e2 [e3 Ee]]]].
      pose proof (Hn 2 ltac:(lia)) as N2. pose proof (Hn 3 ltac:(lia)) as N3. rewrite Ee in N2, N3. 
      change (Z.to_nat 2) with 2%nat in *. change (Z.to_nat 3) with 3%nat in *. cbn [nth] in N2, N3. subst.
      rewrite (B e0 e1 [0]); [reflexivity|exact Ee|rewrite Ie, Ea; reflexivity].
    - destruct (triple _ Hle) as [e0 [e1 [e2 Ee]]].
      pose proof (Hn 2 ltac:(lia)) as N2. rewrite Ee in N2.
      change (Z.to_nat 2) with 2%nat in *. cbn [nth] in N2. subst.
      rewrite (B e0 e1 []); [reflexivity|exact Ee|rewrite Ie, Ea; reflexivity].
  Qed.

  Lemma number_range x y : inside img x y -> 0 <= y * W + x < W * H.
  Proof. intros [? ?]. split; nia. Qed.

  Theorem C41_saturation_scalar : exists out, saturation p false img d = Ret out /\ info_of out = info_of img
    /\ repixeled (saturated d) (fun a => a) 3 img out.
  Proof.
    unfold saturation. rewrite check_d, bind_Ret.
    destruct (C44_rgb_to_hsv p img Hwf Hu Hc Hne) as [hsv [-> [R1 [I1 U1]]]]. rewrite bind_Ret.
    assert (Hw1 : wf hsv) by apply R1.
    assert (HC : 0 < channels (info_of hsv)) by (rewrite I1, chan; destruct (alpha _); lia).
    destruct (saturation_norm_ok p hsv d Hw1 U1 HC Hd) as [e [-> [We [Ie De]]]]. rewrite bind_Ret.
    assert (Ue : samples is_u8 e).
    { assert (Hl : len (data e) = len (data hsv)) by (rewrite (wf_data _ We), (wf_data _ Hw1), Ie; reflexivity).
      apply Forall_forall. intros s Hs. apply (In_nth _ _ 0) in Hs as [j [Hj <-]].
      assert (Hj2 : 0 <= Z.of_nat j < len (data hsv)) by (unfold len in *; lia).
      specialize (De (Z.of_nat j) Hj2). rewrite Nat2Z.id in De. rewrite De.
      destruct (_ && _); [apply byte_range|]. replace j with (Z.to_nat (Z.of_nat j)) by apply Nat2Z.id. apply (nth_u8 hsv); [exact U1|exact Hj2]. }
    destruct (finish e We Ue) as [out [-> [R2 [Wo Io]]]]; [congruence|].
    exists out. split; [reflexivity|]. split; [exact Io|].
    split; [exact Wo|]. split.
    { rewrite Io. clear - Hc. destruct (info_of img) as [w h c a]; unfold colors in Hc; cbn [channels alpha width height] in *. f_equal. lia. }
    intros x y Hin.
    assert (Hk : keeps hsv e x y).
    { intros c Hcc. cbv zeta. set (C := channels (info_of img)) in *.
      pose proof (number_range x y Hin) as Hi. set (i := y * W + x) in *.
      assert (HC3 : 3 <= C) by (unfold C; rewrite chan; destruct (alpha _); lia).
      assert (Hlen : len (data hsv) = W * H * C) by (rewrite (wf_data _ Hw1), I1; reflexivity).
      rewrite De by (rewrite Hlen; clear - Hi HC3 Hcc; nia).
      rewrite I1. fold C.
      replace (i * C + c - 1) with (c - 1 + i * C) by ring. rewrite Z.mod_add by lia.
      replace ((1 <=? i * C + c) && ((c - 1) mod C =? 0)) with (c =? 1); [reflexivity|].
      assert (0 <= i * C) by (clear - Hi HC3; nia).
      destruct (Z.eqb_spec c 1) as [->|Hc1].
      - rewrite Z.mod_0_l by lia. replace (1 <=? i * C + 1) with true by lia. reflexivity.
      - destruct (Z.eq_dec c 0) as [->|Hc0].
        + replace ((0 - 1) mod C) with (C - 1) by (apply (Z.mod_unique_pos _ _ (-1)); lia).
          replace (C - 1 =? 0) with false by lia. rewrite andb_false_r. reflexivity.
        + rewrite Z.mod_small by lia. replace (c - 1 =? 0) with false by lia. rewrite andb_false_r. reflexivity. }
    rewrite I1 in Ie.
    pose proof (fun cs rest => pixel_edit hsv e out x y cs rest R1 I1 We Ie R2 Hin Hk) as Hgoal.
    destruct (alpha (info_of img)) eqn:Ea.
    - intros cs a Ep. apply (Hgoal cs [a] Ep). reflexivity.
    - rewrite <- (app_nil_r (pixel_at img x y)) in Hgoal. specialize (Hgoal (pixel_at img x y) [] eq_refl eq_refl).
      rewrite app_nil_r in Hgoal. exact Hgoal.
  Qed.

  (** pixels per chunk of the vector version *)
  Definition per_chunk : Z := if alpha (info_of img) then 8 else 10.

  (** With the vector unit: pixels (numbered row by row) before the last multiple of 8 (RGBA) or
      10 (RGB) agree with the scalar version, the remaining ones become 0 in all channels *)
  Theorem C41_simd_exact : W * H * channels (info_of img) + 32 <= u32_max ->
    alpha (info_of img) = true \/ W * H < 10 \/ W * H mod 10 <> 0 ->
    exists out ref, saturation p true img d = Ret out /\ saturation p false img d = Ret ref
      /\ info_of out = info_of img /\ wf out
      /\ forall x y, inside img x y ->
         pixel_at out x y = if y * W + x <? per_chunk * (W * H / per_chunk) then pixel_at ref x y
                            else repeat 0 (Z.to_nat (channels (info_of img))).
  Proof.
    intros Hbig Hub. destruct C41_saturation_scalar as [ref [Er [Ir Rr]]].
    unfold saturation at 1. rewrite check_d, bind_Ret.
    destruct (C44_rgb_to_hsv p img Hwf Hu Hc Hne) as [hsv [-> [R1 [I1 U1]]]]. rewrite bind_Ret.
    assert (Hw1 : wf hsv) by apply R1.
    assert (HN : len (data hsv) = W * H * channels (info_of img)) by (rewrite (wf_data _ Hw1), I1; reflexivity).
    pose proof chan as Hch.
    destruct (C62_adds_n p hsv d 1 Hw1 U1 Hd ltac:(lia)) as [e [Ee [Ie [Le De]]]].
    { rewrite HN. exact Hbig. }
    { rewrite I1, HN, Hch. clear - Hub. destruct (alpha (info_of img)); cbn [chunk_bytes].
      - right. pose proof (Z.mod_pos_bound (W * H * 4) 32). lia.
      - destruct Hub as [Hub|[Hub|Hub]]; [discriminate|left; lia|right].
        replace (W * H * 3) with (3 * (W * H)) by ring. change 30 with (3 * 10).
        rewrite Z.mul_mod_distr_l by lia. pose proof (Z.mod_pos_bound (W * H) 10). lia. }
    rewrite Ee, bind_Ret.
    rewrite I1 in Ie.
    assert (We : wf e).
    { destruct Hwf as [? ? ? ? ? ?]. constructor; rewrite ?Ie; try assumption. rewrite Le. exact HN. }
    assert (Ue : samples is_u8 e).
    { apply Forall_forall. intros s Hs. apply (In_nth _ _ 0) in Hs as [j [Hj <-]].
      assert (Hj2 : 0 <= Z.of_nat j < len (data hsv)) by (unfold len in *; lia).
      specialize (De (Z.of_nat j) Hj2). pose proof (nth_u8 hsv (Z.of_nat j) U1 Hj2) as Hb. rewrite Nat2Z.id in De, Hb. rewrite De. cbv zeta.
      destruct (_ <? _); [destruct (in_channel _ _ _); [apply byte_range|exact Hb]|].
      destruct (_ && _); [exact Hb|unfold is_u8; lia]. }
    destruct (finish e We Ue Ie) as [out [-> [R2 [Wo Io]]]].
    exists out, ref. split; [reflexivity|]. split; [exact Er|]. split; [exact Io|]. split; [exact Wo|].
    intros x y Hin. pose proof (number_range x y Hin) as Hi. 
    rewrite I1, HN in De.
    set (C := channels (info_of img)) in *. set (n := W * H) in *. set (a := alpha (info_of img)) in *.
    set (i := y * W + x) in *.
    assert (Hpc : chunk_bytes a = per_chunk * C) by (unfold per_chunk, chunk_bytes; fold a; rewrite Hch; destruct a; reflexivity).
    assert (HpcP : 8 <= per_chunk <= 10) by (unfold per_chunk; destruct (alpha _); lia).
    assert (HC3 : 3 <= C <= 4) by (rewrite Hch; destruct a; lia).
    assert (Hq : n * C / chunk_bytes a = n / per_chunk) by (rewrite Hpc; apply Z.div_mul_cancel_r; lia).
    assert (Hkc : forall c, 0 <= c < C -> (i * C + c <? chunk_bytes a * (n * C / chunk_bytes a)) = (i <? per_chunk * (n / per_chunk))).
    { intros c Hcc. rewrite Hq, Hpc. set (q := per_chunk * (n / per_chunk)).
      replace (per_chunk * C * (n / per_chunk)) with (q * C) by (unfold q; ring).
      clear - Hcc HC3. destruct (Z.ltb_spec i q); [apply Z.ltb_lt|apply Z.ltb_ge]; nia. }
    destruct (i <? per_chunk * (n / per_chunk)) eqn:Ei.
    - assert (Hk : keeps hsv e x y).
      { intros c Hcc. cbv zeta. fold C i in Hcc |- *. rewrite De by (clear - Hi HC3 Hcc; nia). cbv zeta. rewrite Hkc by exact Hcc.
        replace (in_channel a 1 (i * C + c)) with (c =? 1); [reflexivity|].
        unfold in_channel. clear - Hch Hcc.
        destruct a; rewrite Hch in *; cbn [Z.leb Z.compare Pos.compare Pos.compare_cont andb]; f_equal;
          rewrite Z.add_comm, Z.mod_add by lia; symmetry; apply Z.mod_small; lia. }
      assert (HC0 : alpha (info_of img) = false \/ 0 < channels (info_of img)) by (right; fold C; lia).
      destruct (pixel_colors img x y Hwf Hin HC0) as [cs [rest [Ep [Hl Hr]]]].
      rewrite (pixel_edit hsv e out x y cs rest R1 I1 We Ie R2 Hin Hk Ep Hr).
      rewrite (repixeled_pixel _ _ _ _ _ x y cs rest Rr Hin Ep Hr), map_id. reflexivity.
    - apply (pixel_black e out x y We Ue Ie R2 Hin). intros c Hcc. fold C i. fold C in Hcc.
      rewrite De by (clear - Hi HC3 Hcc; nia). cbv zeta. rewrite Hkc by lia.
      replace (_ && _) with false; [reflexivity|]. symmetry. apply andb_false_iff. right. apply Z.ltb_ge.
      specialize (Hkc 0 ltac:(lia)). apply Z.ltb_ge in Hkc. unfold chunk_bytes in *. destruct a; lia.
  Qed.

  (** RGB images with a positive multiple of 10 pixels: the last vector load reads outside the buffer *)
  Theorem C41_simd_UB : alpha (info_of img) = false -> W * H mod 10 = 0 -> saturation p true img d = UB.
  Proof.
    intros Ha Hm. unfold saturation. rewrite check_d, bind_Ret.
    destruct (C44_rgb_to_hsv p img Hwf Hu Hc Hne) as [hsv [-> [R1 [I1 U1]]]]. rewrite bind_Ret.
    assert (Hw1 : wf hsv) by apply R1.
    pose proof chan as Hch. rewrite Ha in Hch.
    assert (HN : len (data hsv) = W * H * 3) by (rewrite (wf_data _ Hw1), I1, Hch; reflexivity).
    assert (H10 : 10 <= W * H) by (clear - Hne Hm; pose proof (Z.div_mod (W * H) 10); nia).
    rewrite C62_adds_n_UB; auto; try lia.
    - rewrite I1. exact Ha.
    - rewrite HN. replace (W * H * 3) with (3 * (W * H)) by ring. change 30 with (3 * 10).
      rewrite Z.mul_mod_distr_l by lia. lia.
  Qed.

  (** the two versions agree on RGBA images with a multiple of 8 pixels *)
  Theorem C41_simd_agrees : alpha (info_of img) = true -> W * H mod 8 = 0 -> W * H * 4 + 32 <= u32_max ->
    saturation p true img d = saturation p false img d.
  Proof.
    intros Ha Hm Hbig. destruct C41_simd_exact as [out [ref [-> [E [I [Wo Hp]]]]]].
    { rewrite chan, Ha. exact Hbig. } { left. exact Ha. }
    destruct C41_saturation_scalar as [ref' [E' [Ir Rr]]]. assert (ref' = ref) as <- by congruence. rewrite E. f_equal.
    apply image_ext; [exact Wo|apply Rr|congruence|].
    intros x y Hin. rewrite Hp by (unfold inside in *; rewrite I in Hin; exact Hin).
    unfold per_chunk. rewrite Ha. pose proof (number_range x y) as Hi.
    pose proof (Z.div_mod (W * H) 8). replace (_ <? _) with true; [reflexivity|].
    symmetry. apply Z.ltb_lt. unfold inside in *. rewrite I in Hin. specialize (Hi Hin). lia.
  Qed.
End Sat.

Theorem C41_rejects p simd (img : image Z) d : Z.abs d > 255 -> saturation p simd img d = Fail InvalidArgError.
Proof.
  intros Hd. unfold saturation, check_in_range. cbn [n_ltb num_int].
  replace ((d <? -255) || (255 <? d)) with true by lia. reflexivity.
Qed.

(** the effect on one colour: the value (largest sample) stays, the smallest sample becomes
    v * (255 - s') / 255 for the new saturation s' *)
Theorem C41_value_kept d r g b : is_u8 r -> is_u8 g -> is_u8 b ->
  exists r' g' b', saturated d [r; g; b] = [r'; g'; b']
    /\ Z.max r' (Z.max g' b') = Z.max r (Z.max g b)
    /\ Z.min r' (Z.min g' b') = Z.max r (Z.max g b) * (255 - byte (hsv_saturation r g b + d)) / 255.
Proof.
  intros Hr Hg Hb. unfold saturated. cbn [hsv_of shift_s].
  destruct (C44_value_saturation_hue r g b Hr Hg Hb) as [h [s [v [E [Ev [_ [_ [Hs [Hh _]]]]]]]]].
  cbn [hsv_of] in E. injection E as E1 E2 E3. rewrite E1, E2, E3.
  destruct (C45_max_min h (byte (s + d)) v) as [r' [g' [b' [E [M1 [M2 _]]]]]].
  - unfold is_u8. lia.
  - apply byte_range.
  - unfold is_u8 in *. lia.
  - exists r', g', b'. rewrite E. split; [reflexivity|]. split; [lia|]. rewrite M2, Ev. reflexivity.
Qed.

Definition ex_10x1 : image Z := Image (Info 10 1 3 false) (map (fun k => 8 * k) (zrange 0 30)).
Definition ex_11x1 : image Z := Image (Info 11 1 3 false) (map (fun k => 7 * k) (zrange 0 33)).
Example ex_10x1_wf : wf ex_10x1. Proof. apply wfb_wf. reflexivity. Qed.
Example ex_11x1_wf : wf ex_11x1. Proof. apply wfb_wf. reflexivity. Qed.
Example C41_UB_example : colors (info_of ex_10x1) = 3 /\ saturation Release true ex_10x1 50 = UB.
Proof. split; [reflexivity|]. vm_compute. reflexivity. Qed.
(** the last pixel of the vector version is black, so the two versions disagree *)
Example C41_simd_refuted_example :
  match saturation Debug true ex_11x1 50, saturation Debug false ex_11x1 50 with
  | Ret a, Ret b => pixel_at a 10 0 = [0; 0; 0] /\ pixel_at b 10 0 = [166; 197; 224]
                    /\ pixel_at a 9 0 = pixel_at b 9 0 | _, _ => False end.
Proof. vm_compute. auto. Qed.
