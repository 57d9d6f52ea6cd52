(** * C26, C27, C28, C30, C32, C33: src/util (C31: SpatialP.v). *)
From Verif.Model Require Import Util.
From Verif.Spec Require Import SumS MorphS.
From Verif.Proofs Require Import BaseL ImageL ImageOps FloatL SumL.
Open Scope Z_scope.

(** ** C26, C27: summed-area tables *)
Section Sat.
  Context (p : profile) (img : image f32) (v : Z -> Z -> Z -> Z).
  Hypotheses (Hwf : wf img) (Hint : int_image img v).
  Hypothesis Htot : forall c, 0 <= c < channels (info_of img) -> total img v c <= 8388608.
  Notation W := (width (info_of img)).
  Notation H := (height (info_of img)).
  Notation C := (channels (info_of img)).
  Let S (x y c : Z) : Z := rect_sum (fun x y => v x y c) 0 0 x y.

  Lemma sat_bound x0 y0 x1 y1 c : 0 <= c < C -> 0 <= x0 -> 0 <= y0 -> x1 < W -> y1 < H ->
    Z.abs (rect_sum (fun x y => v x y c) x0 y0 x1 y1) <= 8388608.
  Proof.
    intros Hc Hx Hy Hx1 Hy1. eapply Z.le_trans; [apply rect_abs|].
    eapply Z.le_trans; [|apply (Htot c Hc)]. unfold total. apply rect_sub; try lia.
  Qed.

  (** a table row/column access, or zeroes outside *)
  Lemma sat_get (out : image f32) (b : bool) x y :
    wf out -> info_of out = info_of img ->
    (b = true -> inside img x y /\ (forall c, 0 <= c < C -> isZ (nth (Z.to_nat c) (pixel_at out x y) f32_0) (S x y c))) ->
    (b = false -> x < 0 \/ y < 0) ->
    exists l, (if b then get_pixel p out x y else Ret (repeat f32_0 (Z.to_nat C))) = Ret l
      /\ len l = C /\ forall c, 0 <= c < C -> isZ (nth (Z.to_nat c) l f32_0) (S x y c).
  Proof.
    intros Hwo Hi Ht Hf. pose proof (wf_c _ Hwf). destruct b.
    - destruct (Ht eq_refl) as [Hin Hv]. exists (pixel_at out x y).
      assert (Hin' : inside out x y) by (unfold inside; rewrite Hi; exact Hin).
      rewrite get_pixel_ok by assumption. conj; auto. rewrite pixel_at_len by assumption. rewrite Hi. reflexivity.
    - exists (repeat f32_0 (Z.to_nat C)). conj; [reflexivity|rewrite len_repeat; lia|].
      intros c Hc. rewrite nth_repeat' by lia. unfold S. 
      destruct (Hf eq_refl); [rewrite rect_empty_x by lia|rewrite rect_empty_y by lia]; apply isZ_0.
  Qed.

  Lemma sat_loop : exists out, generate_summed_area_table p img = Ret out /\ wf out /\ info_of out = info_of img
    /\ forall x y c, inside img x y -> 0 <= c < C -> isZ (nth (Z.to_nat c) (pixel_at out x y) f32_0) (S x y c).
  Proof.
    pose proof Hwf as [? ? ? ? ? ?]. unfold generate_summed_area_table.
    assert (Hok : info_ok (info_of img)) by (apply wf_info_ok; exact Hwf).
    rewrite blank_ok by exact Hok. cbn [bind].
    set (b := Image _ _). assert (Hwb : wf b) by (apply (blank_wf num_f32 _ Hok)).
    set (P := fun (x y : Z) (out : image f32) => wf out /\ info_of out = info_of img
       /\ forall x' y' c, inside img x' y' -> 0 <= c < C -> y' < y \/ (y' = y /\ x' < x) ->
            isZ (nth (Z.to_nat c) (pixel_at out x' y') f32_0) (S x' y' c)).
    assert (Hrow : forall y out, 0 <= y < H -> P 0 y out ->
      exists out', mfold (fun output x =>
        let! p_in := get_pixel p img x y in
        let! p_left := if 0 <? x then get_pixel p output (x - 1) y else Ret (repeat f32_0 (Z.to_nat C)) in
        let! p_diag := if (0 <? x) && (0 <? y) then get_pixel p output (x - 1) (y - 1) else Ret (repeat f32_0 (Z.to_nat C)) in
        let! p_top := if 0 <? y then get_pixel p output x (y - 1) else Ret (repeat f32_0 (Z.to_nat C)) in
        let! p_out := mmap (fun c =>
            let! i := vget p_in c in
            let! t := vget p_top c in
            let! l := vget p_left c in
            let! d := vget p_diag c in
            Ret (f32_sub (f32_add (f32_add i t) l) d)) (zrange 0 C) in
        set_pixel p output x y p_out) (zrange 0 W) out = Ret out' /\ P 0 (y + 1) out').
    { intros y out Hy Hout.
      destruct (mfold_zrange_inv (fun x out => P x y out) (fun output x =>
        let! p_in := get_pixel p img x y in
        let! p_left := if 0 <? x then get_pixel p output (x - 1) y else Ret (repeat f32_0 (Z.to_nat C)) in
        let! p_diag := if (0 <? x) && (0 <? y) then get_pixel p output (x - 1) (y - 1) else Ret (repeat f32_0 (Z.to_nat C)) in
        let! p_top := if 0 <? y then get_pixel p output x (y - 1) else Ret (repeat f32_0 (Z.to_nat C)) in
        let! p_out := mmap (fun c =>
            let! i := vget p_in c in
            let! t := vget p_top c in
            let! l := vget p_left c in
            let! d := vget p_diag c in
            Ret (f32_sub (f32_add (f32_add i t) l) d)) (zrange 0 C) in
        set_pixel p output x y p_out) 0 W out) as [out' [E HP]]; [lia|exact Hout| |].
      - clear out Hout. intros x out Hx [Hwo [Hi Hp]].
        assert (Hin : inside img x y) by (split; lia).
        rewrite (get_pixel_ok img Hwf p x y Hin). cbn [bind].
        destruct (sat_get out (0 <? x) (x - 1) y Hwo Hi) as [ll [-> [Ll Vl]]].
        { intros Hb. split; [split; lia|]. intros c Hc. apply Hp; try assumption; [split; lia|lia]. }
        { lia. }
        cbn [bind].
        destruct (sat_get out ((0 <? x) && (0 <? y)) (x - 1) (y - 1) Hwo Hi) as [ld [-> [Ld Vd]]].
        { intros Hb. split; [split; lia|]. intros c Hc. apply Hp; try assumption; [split; lia|lia]. }
        { lia. }
        cbn [bind].
        destruct (sat_get out (0 <? y) x (y - 1) Hwo Hi) as [lt [-> [Lt Vt]]].
        { intros Hb. split; [split; lia|]. intros c Hc. apply Hp; try assumption; [split; lia|lia]. }
        { lia. }
        cbn [bind].
        set (px := map (fun c => f32_sub (f32_add (f32_add (nth (Z.to_nat c) (pixel_at img x y) f32_0) (nth (Z.to_nat c) lt f32_0))
                    (nth (Z.to_nat c) ll f32_0)) (nth (Z.to_nat c) ld f32_0)) (zrange 0 C)).
        assert (Lin : len (pixel_at img x y) = C) by (apply pixel_at_len; assumption).
        rewrite (mmap_Ret _ (fun c => f32_sub (f32_add (f32_add (nth (Z.to_nat c) (pixel_at img x y) f32_0) (nth (Z.to_nat c) lt f32_0))
                    (nth (Z.to_nat c) ll f32_0)) (nth (Z.to_nat c) ld f32_0))).
        2:{ intros c Hc. apply in_zrange in Hc. rewrite !(vget_ok _ c f32_0) by lia. reflexivity. }
        fold px. cbn [bind].
        assert (Lpx : len px = channels (info_of out)) by (unfold px; rewrite len_map, len_zrange, Hi; lia).
        assert (Hino : inside out x y) by (unfold inside; rewrite Hi; exact Hin).
        rewrite set_pixel_ok by assumption. eexists. split; [reflexivity|].
        unfold P. conj.
        + apply put_wf; auto. destruct Hino. destruct (pos_bound (width (info_of out)) (height (info_of out)) 0 x y); lia.
        + exact Hi.
        + intros x' y' c Hin' Hc Hor.
          rewrite pixel_at_put by (try assumption; unfold inside; rewrite Hi; exact Hin').
          destruct ((x' =? x) && (y' =? y)) eqn:Exy.
          * assert (x' = x /\ y' = y) as [-> ->] by lia. unfold px.
            rewrite nth_map_zrange by lia. replace (0 + c) with c by lia.
            unfold S. rewrite rect_step by lia. 
            destruct (Hint x y c Hin Hc) as [s [Es Hs]].
            assert (isZ (nth (Z.to_nat c) (pixel_at img x y) f32_0) (v x y c)) as Hv.
            { rewrite (nth_error_nth _ _ _ Es). exact Hs. }
            pose proof (Vt c Hc) as Ht'. pose proof (Vl c Hc) as Hl'. pose proof (Vd c Hc) as Hd'. unfold S in *.
            destruct Hin as [Hx1 Hy1].
            pose proof (sat_bound 0 0 x (y - 1) c Hc ltac:(lia) ltac:(lia) ltac:(lia) ltac:(lia)) as B1.
            pose proof (sat_bound 0 0 (x - 1) y c Hc ltac:(lia) ltac:(lia) ltac:(lia) ltac:(lia)) as B2.
            pose proof (sat_bound 0 0 (x - 1) (y - 1) c Hc ltac:(lia) ltac:(lia) ltac:(lia) ltac:(lia)) as B3.
            pose proof (sat_bound 0 0 x y c Hc ltac:(lia) ltac:(lia) ltac:(lia) ltac:(lia)) as B4.
            (* column above together with the new cell *)
            pose proof (sat_bound x y x y c Hc ltac:(lia) ltac:(lia) ltac:(lia) ltac:(lia)) as B5. rewrite rect_one in B5.
            pose proof (rect_step (fun x y => v x y c) x y ltac:(lia) ltac:(lia)) as St. cbv beta in St.
            apply sub_isZ; [apply add_isZ; [apply add_isZ; [assumption|assumption|lia]|assumption|lia]|assumption|lia].
          * apply Hp; try assumption. lia.
      - exists out'. split; [exact E|]. destruct HP as [Hw' [Hi' Hp']]. unfold P. conj; auto.
        intros x' y' c Hin Hc Hor. apply Hp'; auto. destruct Hin. lia. }
    destruct (mfold_zrange_inv (fun y out => P 0 y out)
      (fun output y => mfold (fun output x =>
        let! p_in := get_pixel p img x y in
        let! p_left := if 0 <? x then get_pixel p output (x - 1) y else Ret (repeat f32_0 (Z.to_nat C)) in
        let! p_diag := if (0 <? x) && (0 <? y) then get_pixel p output (x - 1) (y - 1) else Ret (repeat f32_0 (Z.to_nat C)) in
        let! p_top := if 0 <? y then get_pixel p output x (y - 1) else Ret (repeat f32_0 (Z.to_nat C)) in
        let! p_out := mmap (fun c =>
            let! i := vget p_in c in
            let! t := vget p_top c in
            let! l := vget p_left c in
            let! d := vget p_diag c in
            Ret (f32_sub (f32_add (f32_add i t) l) d)) (zrange 0 C) in
        set_pixel p output x y p_out) (zrange 0 W) output) 0 H b) as [out [E [Hw' [Hi' Hp']]]].
    - lia.
    - unfold P. conj; auto. intros x' y' c [? ?] Hc Hor. lia.
    - intros y out Hy HP. apply Hrow; assumption.
    - exists out. conj; auto. intros x y c Hin Hc. apply Hp'; auto. destruct Hin. lia.
  Qed.

  Lemma sat_rect x0 y0 x1 y1 : 0 <= x0 <= x1 -> x1 < W -> 0 <= y0 <= y1 -> y1 < H ->
    exists l, (let! t := generate_summed_area_table p img in rectangular_intensity_sum p t x0 y0 x1 y1) = Ret l
      /\ len l = C
      /\ forall c, 0 <= c < C -> isZ (nth (Z.to_nat c) l f32_0) (rect_sum (fun x y => v x y c) x0 y0 x1 y1).
  Proof.
    intros Hx0 Hx1 Hy0 Hy1. destruct sat_loop as [t [E [Hwt [Hi Hv]]]]. rewrite E. cbn [bind].
    pose proof (wf_c _ Hwf). unfold rectangular_intensity_sum. rewrite Hi.
    assert (Hin : inside t x1 y1) by (unfold inside; rewrite Hi; lia).
    rewrite (get_pixel_ok t Hwt p x1 y1 Hin). cbn [bind].
    destruct (sat_get t (negb (x0 =? 0)) (x0 - 1) y1 Hwt Hi) as [lbl [-> [Lbl Vbl]]].
    { intros Hb. assert (inside img (x0 - 1) y1) by (split; lia). split; auto. }
    { lia. }
    cbn [bind].
    destruct (sat_get t (negb (x0 =? 0) && negb (y0 =? 0)) (x0 - 1) (y0 - 1) Hwt Hi) as [ltl [-> [Ltl Vtl]]].
    { intros Hb. assert (inside img (x0 - 1) (y0 - 1)) by (split; lia). split; auto. }
    { lia. }
    cbn [bind].
    destruct (sat_get t (negb (y0 =? 0)) x1 (y0 - 1) Hwt Hi) as [ltr [-> [Ltr Vtr]]].
    { intros Hb. assert (inside img x1 (y0 - 1)) by (split; lia). split; auto. }
    { lia. }
    cbn [bind].
    assert (Lbr : len (pixel_at t x1 y1) = C) by (rewrite pixel_at_len by assumption; rewrite Hi; reflexivity).
    rewrite (mmap_Ret _ (fun c => f32_add (f32_sub (f32_sub (nth (Z.to_nat c) (pixel_at t x1 y1) f32_0) (nth (Z.to_nat c) ltr f32_0))
              (nth (Z.to_nat c) lbl f32_0)) (nth (Z.to_nat c) ltl f32_0))).
    2:{ intros c Hc. apply in_zrange in Hc. rewrite !(vget_ok _ c f32_0) by lia. reflexivity. }
    eexists. conj; [reflexivity|rewrite len_map, len_zrange; lia|].
    intros c Hc. rewrite nth_map_zrange by lia. replace (0 + c) with c by lia.
    assert (Hin' : inside img x1 y1) by (split; lia).
    pose proof (Hv x1 y1 c Hin' Hc) as V1. pose proof (Vtr c Hc) as V2. pose proof (Vbl c Hc) as V3. pose proof (Vtl c Hc) as V4.
    unfold S in *.
    pose proof (sat_bound 0 0 x1 y1 c Hc ltac:(lia) ltac:(lia) ltac:(lia) ltac:(lia)) as B1.
    pose proof (sat_bound 0 0 x1 (y0 - 1) c Hc ltac:(lia) ltac:(lia) ltac:(lia) ltac:(lia)) as B2.
    pose proof (sat_bound 0 0 (x0 - 1) y1 c Hc ltac:(lia) ltac:(lia) ltac:(lia) ltac:(lia)) as B3.
    pose proof (sat_bound 0 0 (x0 - 1) (y0 - 1) c Hc ltac:(lia) ltac:(lia) ltac:(lia) ltac:(lia)) as B4.
    pose proof (sat_bound x0 y0 x1 y1 c Hc ltac:(lia) ltac:(lia) ltac:(lia) ltac:(lia)) as B5.
    pose proof (rect_incl_excl (fun x y => v x y c) x0 y0 x1 y1 ltac:(lia) ltac:(lia)) as IE.
    rewrite IE.
    apply add_isZ; [apply sub_isZ; [apply sub_isZ; [assumption|assumption|lia]|assumption|lia]|assumption|lia].
  Qed.
End Sat.

Lemma nth_Some {A} (l : list A) c d : 0 <= c < len l -> nth_error l (Z.to_nat c) = Some (nth (Z.to_nat c) l d).
Proof. intros Hc. apply nth_error_nth'. unfold len in Hc. lia. Qed.

Theorem C26_summed_area_table p (img : image f32) v :
  wf img -> int_image img v ->
  (forall c, 0 <= c < channels (info_of img) -> 2 * total img v c <= 2 ^ 24) ->
  exists out, generate_summed_area_table p img = Ret out /\ wf out /\ info_of out = info_of img
    /\ int_image out (fun x y c => rect_sum (fun i j => v i j c) 0 0 x y).
Proof.
  intros Hwf Hint Ht.
  destruct (sat_loop p img v Hwf Hint) as [out [E [Hw [Hi Hv]]]].
  { intros c Hc. pose proof (Ht c Hc). lia. }
  exists out. conj; auto. intros x y c Hin Hc. rewrite Hi in Hc.
  exists (nth (Z.to_nat c) (pixel_at out x y) f32_0). split.
  - apply nth_Some. rewrite pixel_at_len by assumption. rewrite Hi. exact Hc.
  - apply Hv; [|exact Hc]. unfold inside in *. rewrite Hi in Hin. exact Hin.
Qed.

Theorem C27_rectangular_sum p (img : image f32) v x0 y0 x1 y1 :
  wf img -> int_image img v ->
  (forall c, 0 <= c < channels (info_of img) -> 2 * total img v c <= 2 ^ 24) ->
  0 <= x0 <= x1 -> x1 < width (info_of img) -> 0 <= y0 <= y1 -> y1 < height (info_of img) ->
  exists sums, (let! t := generate_summed_area_table p img in rectangular_intensity_sum p t x0 y0 x1 y1) = Ret sums
    /\ len sums = channels (info_of img)
    /\ forall c, 0 <= c < channels (info_of img) ->
         exists s, nth_error sums (Z.to_nat c) = Some s /\ holds s (rect_sum (fun i j => v i j c) x0 y0 x1 y1).
Proof.
  intros Hwf Hint Ht Hx0 Hx1 Hy0 Hy1.
  destruct (sat_rect p img v Hwf Hint) with (x0 := x0) (y0 := y0) (x1 := x1) (y1 := y1) as [l [E [Hl Hv]]]; auto.
  { intros c Hc. pose proof (Ht c Hc). lia. }
  exists l. conj; auto. intros c Hc. exists (nth (Z.to_nat c) l f32_0). split; [apply nth_Some; lia|]. apply Hv. exact Hc.
Qed.

(** u8 images converted to f32, up to 32896 pixels, meet the hypotheses *)
Lemma rect_upper (w : Z -> Z -> Z) m X Y : 0 <= X + 1 -> 0 <= Y + 1 -> 0 <= m ->
  (forall x y, 0 <= x <= X -> 0 <= y <= Y -> w x y <= m) -> rect_sum w 0 0 X Y <= m * ((X + 1) * (Y + 1)).
Proof.
  intros HX HY Hm Hw. unfold rect_sum.
  apply Z.le_trans with (m * (X + 1) * (Y + 1 - 0)); [|nia].
  apply Zsum_upper; [lia|]. intros y Hy. apply Z.le_trans with (m * (X + 1 - 0)); [|nia].
  apply Zsum_upper; [lia|]. intros x Hx. apply Hw; lia.
Qed.

Lemma sample_u8 (img : image Z) x y c : wf img -> samples is_u8 img -> inside img x y -> 0 <= c < channels (info_of img) ->
  is_u8 (sample_at img x y c) /\ nth_error (pixel_at img x y) (Z.to_nat c) = Some (sample_at img x y c).
Proof.
  intros Hwf Hs Hin Hc. pose proof (pixel_at_len img Hwf x y Hin) as Hl. split.
    - unfold sample_at. unfold samples in Hs. rewrite Forall_forall in Hs. apply Hs.
      assert (Hn : In (nth (Z.to_nat c) (pixel_at img x y) 0) (pixel_at img x y)) by (apply nth_In; unfold len in Hl; lia).
      unfold pixel_at in Hn at 2. 
      set (k := Z.to_nat ((y * width (info_of img) + x) * channels (info_of img))) in Hn.
      rewrite <- (firstn_skipn k (data img)). apply in_or_app. right.
      rewrite <- (firstn_skipn (Z.to_nat (channels (info_of img))) (skipn k (data img))). apply in_or_app. left. exact Hn.
    - apply nth_Some. lia.
Qed.

Theorem C26_summed_area_table_u8 p (img : image Z) : wf img -> samples is_u8 img ->
  width (info_of img) * height (info_of img) <= 32896 ->
  exists out, (let! f := from_u8_f32 p img in generate_summed_area_table p f) = Ret out /\ info_of out = info_of img
    /\ int_image out (fun x y c => rect_sum (fun i j => sample_at img i j c) 0 0 x y).
Proof.
  intros Hwf Hs Hsz. pose proof Hwf as [? ? ? ? ? ?].
  unfold from_u8_f32. rewrite map_channels_pure by exact Hwf. cbn [bind].
  set (f := Image (info_of img) (map f32_of_Z (data img))).
  assert (Hwff : wf f) by (apply map_data_wf; exact Hwf).
  assert (Hu8 := fun x y c => sample_u8 img x y c Hwf Hs).
  destruct (C26_summed_area_table p f (sample_at img) Hwff) as [out [E [Hw [Hi Hv]]]].
  - intros x y c Hin Hc. destruct (Hu8 x y c Hin Hc) as [Hb He].
    exists (f32_of_Z (sample_at img x y c)). split.
    + unfold f. rewrite pixel_at_map, nth_error_map, He. reflexivity.
    + apply of_Z_isZ. unfold is_u8 in Hb. lia.
  - intros c Hc. unfold total. cbn [info_of f].
    assert (B : rect_sum (fun x y => Z.abs (sample_at img x y c)) 0 0 (width (info_of img) - 1) (height (info_of img) - 1)
             <= 255 * ((width (info_of img) - 1 + 1) * (height (info_of img) - 1 + 1))).
    { apply rect_upper; try lia. intros x y Hx Hy. destruct (Hu8 x y c ltac:(split; lia) Hc) as [Hb _].
      unfold is_u8 in Hb. lia. }
    change (2 ^ 24) with 16777216. nia.
  - exists out. conj; auto.
Qed.

(** the exactness bound cannot be dropped: 2^24 + 1 is not an f32 *)
Theorem C26_bound_needed :
  match generate_summed_area_table Debug (Image (Info 2 1 1 false) [f32_of_Z 16777216; f32_of_Z 1]) with
  | Ret out => map B2SF (data out) | _ => [] end
  = [B2SF (f32_of_Z 16777216); B2SF (f32_of_Z 16777216)].
Proof. vm_compute. reflexivity. Qed.
Example C26_example :
  match generate_summed_area_table Debug (Image (Info 2 2 1 false) (map f32_of_Z [3; 4; 10; 200])) with
  | Ret out => map B2SF (data out) | _ => [] end = map B2SF (map f32_of_Z [3; 7; 13; 217]).
Proof. vm_compute. reflexivity. Qed.
Example C27_example :
  match (let! t := generate_summed_area_table Debug (Image (Info 2 2 1 false) (map f32_of_Z [3; 4; 10; 200])) in
         rectangular_intensity_sum Debug t 1 0 1 1) with
  | Ret l => map B2SF l | _ => [] end = [B2SF (f32_of_Z 204)].
Proof. vm_compute. reflexivity. Qed.
