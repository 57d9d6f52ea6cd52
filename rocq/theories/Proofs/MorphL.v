(** * Lemmas for src/morphology.rs *)
From Verif.Model Require Import Morph.
From Verif.Spec Require Import SumS MorphS.
From Verif.Proofs Require Import BaseL ImageL ImageOps FloatL SumL Safe.
From Verif.Props Require Import UtilP.
From Flocq Require Import Core BinarySingleNaN.
Open Scope Z_scope.

(** ** sums *)
Lemma Zsum_full f m a b : (forall k, a <= k < b -> f k <= m) -> m * (b - a) <= Zsum f a b -> forall k, a <= k < b -> f k = m.
Proof.
  intros Hf Hs k Hk. rewrite (Zsum_app f a k b) in Hs by lia. rewrite (Zsum_cons f k b) in Hs by lia.
  pose proof (Zsum_upper f a k m ltac:(lia) ltac:(intros; apply Hf; lia)).
  pose proof (Zsum_upper f (k + 1) b m ltac:(lia) ltac:(intros; apply Hf; lia)).
  pose proof (Hf k Hk). nia.
Qed.
Lemma Zsum_pos f a b : (forall k, a <= k < b -> 0 <= f k) -> 0 < Zsum f a b -> exists k, a <= k < b /\ 0 < f k.
Proof.
  intros Hf Hs. destruct (Z_le_gt_dec b a) as [Hab|Hab]; [rewrite Zsum_nil in Hs; lia|].
  revert Hf Hs. apply (zrange_ind (fun b => (forall k, a <= k < b -> 0 <= f k) -> 0 < Zsum f a b -> exists k, a <= k < b /\ 0 < f k) a b); [lia| |].
  - intros _ Hs. rewrite Zsum_nil in Hs; lia.
  - intros n Hn IH Hf Hs. rewrite Zsum_snoc in Hs by lia.
    destruct (Z_lt_le_dec 0 (f n)) as [H|H]; [exists n; lia|].
    destruct IH as [k [Hk ?]]; [intros; apply Hf; lia|pose proof (Hf n ltac:(lia)); lia|]. exists k. lia.
Qed.
Lemma Zsum_term f a b k : (forall k, a <= k < b -> 0 <= f k) -> a <= k < b -> f k <= Zsum f a b.
Proof.
  intros Hf Hk. rewrite <- (Zsum_single f k). apply Zsum_sub; [exact Hf|lia|lia].
Qed.

Lemma rect_full v m x0 y0 x1 y1 : x0 <= x1 -> y0 <= y1 ->
  (forall x y, x0 <= x <= x1 -> y0 <= y <= y1 -> v x y <= m) ->
  rect_sum v x0 y0 x1 y1 = m * ((x1 - x0 + 1) * (y1 - y0 + 1)) ->
  forall x y, x0 <= x <= x1 -> y0 <= y <= y1 -> v x y = m.
Proof.
  intros Hx01 Hy01 Hv Hs x y Hx Hy. unfold rect_sum in Hs.
  assert (R : forall j, y0 <= j < y1 + 1 -> Zsum (fun x => v x j) x0 (x1 + 1) <= m * (x1 + 1 - x0)).
  { intros j Hj. apply Zsum_upper; [lia|]. intros i Hi. apply Hv; lia. }
  assert (E : Zsum (fun x => v x y) x0 (x1 + 1) = m * (x1 + 1 - x0)).
  { apply (Zsum_full (fun y => Zsum (fun x => v x y) x0 (x1 + 1)) (m * (x1 + 1 - x0)) y0 (y1 + 1)); [exact R| |lia].
    rewrite Hs. apply Z.eq_le_incl. ring. }
  apply (Zsum_full (fun x => v x y) m x0 (x1 + 1)); [intros; apply Hv; lia|lia|lia].
Qed.
Lemma rect_le v m x0 y0 x1 y1 : x0 <= x1 + 1 -> y0 <= y1 + 1 ->
  (forall x y, x0 <= x <= x1 -> y0 <= y <= y1 -> v x y <= m) ->
  rect_sum v x0 y0 x1 y1 <= m * ((x1 - x0 + 1) * (y1 - y0 + 1)).
Proof.
  intros Hx Hy Hv. unfold rect_sum. apply Z.le_trans with (m * (x1 + 1 - x0) * (y1 + 1 - y0)).
  - apply Zsum_upper; [lia|]. intros y Hy'. apply Zsum_upper; [lia|]. intros x Hx'. apply Hv; lia.
  - apply Z.eq_le_incl. ring.
Qed.
Lemma rect_const m x0 y0 x1 y1 : x0 <= x1 + 1 -> y0 <= y1 + 1 ->
  rect_sum (fun _ _ => m) x0 y0 x1 y1 = m * ((x1 - x0 + 1) * (y1 - y0 + 1)).
Proof.
  intros Hx Hy. unfold rect_sum. rewrite (Zsum_ext _ (fun _ => m * (x1 + 1 - x0))).
  - rewrite Zsum_const by lia. ring.
  - intros k _. apply Zsum_const. lia.
Qed.
Lemma rect_pos v x0 y0 x1 y1 : (forall x y, x0 <= x <= x1 -> y0 <= y <= y1 -> 0 <= v x y) ->
  0 < rect_sum v x0 y0 x1 y1 -> exists x y, x0 <= x <= x1 /\ y0 <= y <= y1 /\ 0 < v x y.
Proof.
  intros Hv Hs. unfold rect_sum in Hs. apply Zsum_pos in Hs as [y [Hy Hs]].
  - apply Zsum_pos in Hs as [x [Hx Hs]]; [exists x, y; lia|]. intros; apply Hv; lia.
  - intros y Hy. apply Zsum_nonneg. intros; apply Hv; lia.
Qed.
Lemma rect_nonneg v x0 y0 x1 y1 : (forall x y, x0 <= x <= x1 -> y0 <= y <= y1 -> 0 <= v x y) -> 0 <= rect_sum v x0 y0 x1 y1.
Proof. intros Hv. unfold rect_sum. apply Zsum_nonneg. intros y Hy. apply Zsum_nonneg. intros; apply Hv; lia. Qed.
Lemma rect_term v x0 y0 x1 y1 x y : (forall x y, x0 <= x <= x1 -> y0 <= y <= y1 -> 0 <= v x y) ->
  x0 <= x <= x1 -> y0 <= y <= y1 -> v x y <= rect_sum v x0 y0 x1 y1.
Proof.
  intros Hv Hx Hy. unfold rect_sum. apply Z.le_trans with (Zsum (fun x => v x y) x0 (x1 + 1)).
  - apply (Zsum_term (fun x => v x y)); [intros; apply Hv; lia|lia].
  - apply (Zsum_term (fun y => Zsum (fun x => v x y) x0 (x1 + 1))); [|lia].
    intros j Hj. apply Zsum_nonneg. intros; apply Hv; lia.
Qed.

(** ** windows *)
Definition win_lo (r x : Z) : Z := if r <=? x then x - r else x.
Definition win_hi (w r x : Z) : Z := if x <? w - r then x + r else x.

Lemma window_ok p w h r x y : 0 <= r <= w -> r <= h -> w <= u32_max -> h <= u32_max -> 0 <= x < w -> 0 <= y < h ->
  window p w h r x y = Ret (win_lo r x, win_lo r y, win_hi w r x, win_hi h r y).
Proof.
  intros. unfold window, win_lo, win_hi, u32_max in *.
  destruct (Z.leb_spec r x); ari; destruct (Z.ltb_spec x (w - r)); ari; destruct (Z.leb_spec r y); ari; destruct (Z.ltb_spec y (h - r)); ari; reflexivity.
Qed.
Lemma win_bounds w r x : 0 <= r <= w -> 0 <= x < w -> 0 <= win_lo r x <= x /\ x <= win_hi w r x < w
  /\ x - r <= win_lo r x /\ win_hi w r x <= x + r.
Proof. intros. unfold win_lo, win_hi. destruct (Z.leb_spec r x), (Z.ltb_spec x (w - r)); lia. Qed.

Lemma sums_u8 (img : image Z) c : wf img -> samples is_u8 img -> 0 <= c < channels (info_of img) ->
  rect_sum (fun x y => Z.abs (sample_at img x y c)) 0 0 (width (info_of img) - 1) (height (info_of img) - 1)
  = rect_sum (fun x y => sample_at img x y c) 0 0 (width (info_of img) - 1) (height (info_of img) - 1).
Proof.
  intros Hwf Hu8 Hc. apply rect_ext. intros x y Hx Hy.
  destruct (sample_u8 img x y c Hwf Hu8 ltac:(split; lia) Hc) as [[? ?] _]. lia.
Qed.

(** images of up to 32896 pixels are small enough *)
Lemma small_sums_size (img : image Z) : wf img -> samples is_u8 img ->
  width (info_of img) * height (info_of img) <= 32896 -> small_sums img.
Proof.
  intros Hwf Hu8 Hs c Hc. pose proof Hwf as [? ? ? ? ? _]. change (2 ^ 24) with 16777216.
  pose proof (rect_upper (fun x y => sample_at img x y c) 255 (width (info_of img) - 1) (height (info_of img) - 1)) as U.
  assert (rect_sum (fun x y => sample_at img x y c) 0 0 (width (info_of img) - 1) (height (info_of img) - 1)
    <= 255 * ((width (info_of img) - 1 + 1) * (height (info_of img) - 1 + 1))).
  { apply U; try lia. intros x y Hx Hy. destruct (sample_u8 img x y c Hwf Hu8 ltac:(split; lia) Hc) as [[? ?] _]. lia. }
  replace (width (info_of img) - 1 + 1) with (width (info_of img)) in * by lia.
  replace (height (info_of img) - 1 + 1) with (height (info_of img)) in * by lia. lia.
Qed.

Section Scan.
  Context (p : profile) (img : image Z) (Hwf : wf img) (Hu8 : samples is_u8 img) (Hsm : small_sums img).
  Notation W := (width (info_of img)).
  Notation Ht := (height (info_of img)).
  Notation C := (channels (info_of img)).
  Context (r : Z) (Hr : 0 <= r <= W) (Hrh : r <= Ht) (HC : 1 <= C).

  Definition wsum (x y : Z) : Z :=
    rect_sum (fun i j => sample_at img i j 0) (win_lo r x) (win_lo r y) (win_hi W r x) (win_hi Ht r y).

  Lemma wsum_bound x y : inside img x y -> 0 <= wsum x y <= 8388608.
  Proof.
    intros [Hx Hy]. destruct (win_bounds W r x) as (?&?&?&?); try lia. destruct (win_bounds Ht r y) as (?&?&?&?); try lia.
    assert (Hn : forall i j, 0 <= i <= W - 1 -> 0 <= j <= Ht - 1 -> 0 <= sample_at img i j 0).
    { intros i j Hi Hj. destruct (sample_u8 img i j 0 Hwf Hu8 ltac:(split; lia) ltac:(lia)) as [[? ?] _]. lia. }
    split; [apply rect_nonneg; intros; apply Hn; lia|].
    pose proof (Hsm 0 ltac:(lia)) as Htot. change (2 ^ 24) with 16777216 in Htot.
    rewrite <- (sums_u8 img 0 Hwf Hu8) in Htot by lia.
    unfold wsum. rewrite (rect_ext _ (fun i j => Z.abs (sample_at img i j 0))).
    - pose proof (rect_sub (fun i j => Z.abs (sample_at img i j 0)) (win_lo r x) (win_lo r y) (win_hi W r x) (win_hi Ht r y) (W - 1) (Ht - 1)) as Q8.
      specialize (Q8 ltac:(intros; lia) ltac:(lia) ltac:(lia) ltac:(lia) ltac:(lia)). lia.
    - intros i j Hi Hj. rewrite Z.abs_eq; [reflexivity|]. apply Hn; lia.
  Qed.

  Lemma scan_table : exists f t, from_u8_f32 p img = Ret f /\ generate_summed_area_table p f = Ret t
    /\ forall x y, inside img x y -> exists l s,
         rectangular_intensity_sum p t (win_lo r x) (win_lo r y) (win_hi W r x) (win_hi Ht r y) = Ret l
         /\ vget l 0 = Ret s /\ isZ s (wsum x y).
  Proof.
    unfold from_u8_f32. rewrite map_channels_pure by exact Hwf.
    set (f := Image (info_of img) (map f32_of_Z (data img))).
    assert (Hwff : wf f) by (apply map_data_wf; exact Hwf).
    assert (Hint : int_image f (sample_at img)).
    { intros x y c Hin Hc. destruct (sample_u8 img x y c Hwf Hu8 Hin Hc) as [Hb He].
      exists (f32_of_Z (sample_at img x y c)). split.
      - unfold f. rewrite pixel_at_map, nth_error_map, He. reflexivity.
      - apply of_Z_isZ. unfold is_u8 in Hb. lia. }
    assert (Htot : forall c, 0 <= c < channels (info_of f) -> total f (sample_at img) c <= 8388608).
    { intros c Hc. unfold total. cbn [info_of f] in *. rewrite (sums_u8 img c Hwf Hu8 Hc).
      pose proof (Hsm c Hc) as Hs. change (2 ^ 24) with 16777216 in Hs. lia. }
    destruct (sat_loop p f (sample_at img) Hwff Hint Htot) as [t (E & _ & _ & _)].
    exists f, t. conj; [reflexivity|exact E|]. intros x y [Hx Hy].
    destruct (win_bounds W r x) as (?&?&?&?); try lia. destruct (win_bounds Ht r y) as (?&?&?&?); try lia.
    destruct (sat_rect p f (sample_at img) Hwff Hint Htot (win_lo r x) (win_lo r y) (win_hi W r x) (win_hi Ht r y))
      as [l (El & Ll & Vl)]; cbn [info_of f] in *; try lia.
    rewrite E in El. cbn [bind] in El. exists l, (nth 0 l f32_0). conj; [exact El| |].
    - apply (vget_ok l 0 f32_0). lia.
    - apply (Vl 0). lia.
  Qed.

  Context (q : f32 -> bool) (qz : Z -> bool) (Hq : forall s z, isZ s z -> 0 <= z <= 8388608 -> q s = qz z).

  Lemma scan_ok : C = 1 ->
    exists out, morph_scan p q img r = Ret out /\ wf out /\ info_of out = info_of img
      /\ forall x y, inside img x y -> pixel_at out x y = if qz (wsum x y) then [255] else [0].
  Proof.
    intros HC1. destruct scan_table as (f & t & Ef & Et & Hs). pose proof Hwf as [? ? _ _ _ _].
    unfold morph_scan. rewrite Ef. cbn [bind]. rewrite Et. cbn [bind].
    rewrite (blank_ok p num_u8 (info_of img)) by (apply wf_info_ok; exact Hwf). cbn [bind].
    match goal with |- context [mfold _ _ ?b] => set (bl := b) in * end.
    assert (Wb : wf bl) by (apply (blank_wf num_u8), wf_info_ok, Hwf).
    edestruct (write_rect p (fun x y => if qz (wsum x y) then Some [255] else None)) as [out (E & Wo & I & P)].
    5:{ exists out. conj; [exact E|exact Wo|exact I|]. intros x y Hin. rewrite (P x y Hin). pose proof Hin as [Hx Hy].
        assert (B0 : pixel_at bl x y = [0]) by (unfold bl; rewrite pixel_at_blank; [rewrite HC1; reflexivity|apply wf_info_ok, Hwf|exact Hx|exact Hy]).
        rewrite B0. replace ((0 <=? x) && (x <? W) && (0 <=? y) && (y <? Ht)) with true by lia.
        destruct (qz (wsum x y)); reflexivity. }
    - exact Wb.
    - intros im x y Hx Hy Him Wim. cbv beta. rewrite window_ok by lia. rewrite bind_Ret.
      destruct (Hs x y ltac:(split; assumption)) as (l & s & El & Es & Zs). rewrite El, bind_Ret, Es, bind_Ret.
      rewrite (Hq s (wsum x y) Zs) by (apply wsum_bound; split; assumption). destruct (qz (wsum x y)); reflexivity.
    - intros x y Hx Hy _. split; assumption.
    - intros x y px Hx Hy E. destruct (qz (wsum x y)); [|discriminate]. injection E as <-. cbn. symmetry. exact HC1.
  Qed.

  Lemma scan_panic x y : C <> 1 -> inside img x y -> qz (wsum x y) = true -> morph_scan p q img r = Panic.
  Proof.
    intros HC1 Hin Hqz. destruct scan_table as (f & t & Ef & Et & Hs). pose proof Hwf as [? ? _ _ _ _].
    unfold morph_scan. rewrite Ef. cbn [bind]. rewrite Et. cbn [bind].
    rewrite (blank_ok p num_u8 (info_of img)) by (apply wf_info_ok; exact Hwf). cbn [bind].
    match goal with |- context [mfold _ _ ?b] => set (bl := b) in * end.
    rewrite (mfold_nest (fun output x y => let! '(x0, y0, x1, y1) := window p W Ht r x y in
        let! sums := rectangular_intensity_sum p t x0 y0 x1 y1 in
        let! s := vget sums 0 in
        if q s then set_pixel p output x y [255] else Ret output)).
    assert (St : forall im x y, wf im -> info_of im = info_of img -> inside img x y ->
      (let! '(x0, y0, x1, y1) := window p W Ht r x y in
        let! sums := rectangular_intensity_sum p t x0 y0 x1 y1 in
        let! s := vget sums 0 in
        if q s then set_pixel p im x y [255] else Ret im) = if qz (wsum x y) then Panic else Ret im).
    { intros im x' y' Wim Him Hin'. pose proof Hin' as [Hx' Hy']. rewrite window_ok by lia. rewrite bind_Ret.
      destruct (Hs x' y' Hin') as (l & s & El & Es & Zs). rewrite El, bind_Ret, Es, bind_Ret.
      rewrite (Hq s (wsum x' y') Zs) by (apply wsum_bound; assumption). destruct (qz (wsum x' y')); [|reflexivity].
      apply set_pixel_panic; [exact Wim|lia|lia|]. rewrite Him. intros [_ HL]. cbn in HL. lia. }
    apply (mfold_panic (fun im => wf im /\ info_of im = info_of img) _ _ _ (x, y)).
    - apply in_coords. destruct Hin. lia.
    - split; [apply (blank_wf num_u8), wf_info_ok, Hwf|reflexivity].
    - intros im [x' y'] [Wim Him] Hl. apply in_coords in Hl. cbn [fst snd]. rewrite St by (try assumption; split; lia).
      destruct (qz (wsum x' y')); [right; reflexivity|left; eauto].
    - intros im [Wim Him]. cbn [fst snd]. rewrite St by assumption. rewrite Hqz. reflexivity.
  Qed.

  Lemma scan_blank : (forall x y, inside img x y -> qz (wsum x y) = false) ->
    morph_scan p q img r = Ret (Image (info_of img) (repeat 0 (Z.to_nat (W * Ht * C)))).
  Proof.
    intros Hno. destruct scan_table as (f & t & Ef & Et & Hs). pose proof Hwf as [? ? _ _ _ _].
    unfold morph_scan. rewrite Ef. cbn [bind]. rewrite Et. cbn [bind].
    rewrite (blank_ok p num_u8 (info_of img)) by (apply wf_info_ok; exact Hwf). cbn [bind].
    match goal with |- mfold _ _ ?b = _ => set (bl := b) in * end.
    edestruct (mfold_zrange_inv (fun _ im => im = bl)) as [out [E Eo]]; cycle 3.
    - rewrite E, Eo. reflexivity.
    - lia.
    - reflexivity.
    - intros y im Hy ->. edestruct (mfold_zrange_inv (fun _ im => im = bl)) as [out [E Eo]]; cycle 3.
      + exists out. split; [exact E|exact Eo].
      + lia.
      + reflexivity.
      + intros x im Hx ->. cbv beta. rewrite window_ok by lia. rewrite bind_Ret.
        destruct (Hs x y ltac:(split; assumption)) as (l & s & El & Es & Zs). rewrite El, bind_Ret, Es, bind_Ret.
        rewrite (Hq s (wsum x y) Zs) by (apply wsum_bound; split; assumption). rewrite Hno by (split; assumption). eauto.
  Qed.
End Scan.

(** ** the two comparisons *)
Lemma dilates_Z s z : isZ s z -> dilates s = (255 <=? z).
Proof. intros Hs. apply geb_isZ; [exact Hs|]. apply of_Z_isZ. lia. Qed.

Lemma erodes_Z M s z : 0 <= M <= u32_max -> isZ s z -> 0 <= z <= 8388608 -> erodes (f32_of_Z M) s = (z =? M).
Proof.
  unfold u32_max. intros HM Hs Hz. unfold erodes.
  assert (He : fin f32_epsilon (bpow radix2 (-23))) by (split; [reflexivity|vm_compute; lra]).
  destruct (Z_le_gt_dec M 16777216) as [H|H].
  - assert (Hd : isZ (f32_abs (f32_sub s (f32_of_Z M))) (Z.abs (z - M))).
    { apply abs_isZ, sub_isZ; [exact Hs|apply of_Z_isZ; lia|lia]. }
    unfold f32_ltb. rewrite (ltb_fin _ _ _ _ Hd He).
    assert (B : (0 < bpow radix2 (-23) < 1)%R) by (split; [apply bpow_gt_0|apply (bpow_lt radix2 (-23) 0); lia]).
    destruct (Z.eqb_spec z M) as [->|Hne].
    + rewrite Z.sub_diag. apply Rlt_bool_true. cbn [Z.abs]. lra.
    + apply Rlt_bool_false. apply Rle_trans with (IZR 1); [cbn; lra|]. apply IZR_le. lia.
  - assert (Hm : fin (f32_of_Z M) (rnd32 (IZR M))).
    { apply of_Z_fin. apply Z.le_trans with (2 ^ 32); [lia|]. apply Z.pow_le_mono_r; lia. }
    assert (HmB : (16777216 <= rnd32 (IZR M))%R) by (apply (rnd_ge_Z _ 16777216); [apply IZR_le; lia|cbn; lia]).
    assert (HmU : (rnd32 (IZR M) <= IZR 4294967296)%R).
    { apply rnd_le_fmt; [apply IZR_le; lia|].
      change 4294967296 with (2 ^ 32). rewrite (IZR_Zpower radix2) by lia. apply generic_format_bpow. apply Z.leb_le. reflexivity. }
    replace (z =? M) with false by lia.
    assert (Hsub : fin (f32_sub s (f32_of_Z M)) (rnd32 (IZR z - rnd32 (IZR M)))).
    { apply sub_fin; [exact Hs|exact Hm|]. apply Rle_trans with (IZR 4294967296).
      - apply Rabs_le. assert (0 <= IZR z <= 8388608)%R by (split; apply IZR_le; lia). lra.
      - change 4294967296 with (2 ^ 32). rewrite (IZR_Zpower radix2) by lia. apply bpow_le. lia. }
    apply abs_fin in Hsub. unfold f32_ltb, f32_abs.
    rewrite (ltb_fin _ _ _ _ Hsub He). apply Rlt_bool_false.
    assert (L : (rnd32 (IZR z - rnd32 (IZR M)) <= -1)%R).
    { apply (rnd_le_Z _ (-1)); [|cbn; lia]. assert (IZR z <= 8388608)%R by (apply IZR_le; lia). lra. }
    assert (B : (bpow radix2 (-23) < 1)%R) by (apply (bpow_lt radix2 (-23) 0); lia).
    unfold Rabs. destruct (Rcase_abs _); lra.
Qed.
