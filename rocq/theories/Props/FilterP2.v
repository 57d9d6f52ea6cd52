(** * C50-C53: src/filter/mod.rs, the remaining functions. *)
From Verif.Proofs Require Import BaseL ImageL FilterL FloatL FloatL2 DyadL ToneL.
From Verif.Spec Require Import SumS ColorS.
From Verif.Props Require Import ImageP FloatP FilterP.
From Coq Require Import Reals.
Open Scope Z_scope.

(** the float x is finite and its value is z / 2^j *)
Definition is_fraction (x : f32) (z j : Z) : Prop := is_finite x = true /\ B2R x = (IZR z / IZR (2 ^ j))%R.

Lemma isD_fraction x z j : 0 <= j -> isD x z j <-> is_fraction x z j.
Proof.
  intros Hj. unfold isD, is_fraction, fin. rewrite IZR_pow2 by exact Hj. unfold Rdiv. rewrite bpow_opp. reflexivity.
Qed.

(** kernels whose weights are multiples of 1/2^j (0 <= j <= 100) on integer images: exact *)
Theorem C50_dyadic_exact (taps : list tap) zs j (img out : image f32) v x y c :
  correlates taps img out -> 0 <= j <= 100 ->
  Forall2 (fun t z => is_fraction (fst (fst t)) (fst (fst z)) j /\ snd (fst t) = snd (fst z) /\ snd t = snd z) taps zs ->
  int_image img v ->
  inside img x y -> 0 <= c < channels (info_of img) ->
  Zcorrelation Z.abs zs (info_of img) v x y c <= 16777216 ->
  is_fraction (value out x y c) (Zcorrelation (fun z => z) zs (info_of img) v x y c) j.
Proof.
  intros [_ [_ HC]] Hj Ht Hv Hin Hc Hb. rewrite HC by assumption.
  unfold correlation, weighted_sum. rewrite fold_left_map. unfold Zcorrelation in *. pose proof Hin as [Hx Hy].
  assert (G : forall acc a, isD acc a j -> Z.abs a + fold_right Z.add 0 (map (fun '(k, dx, dy) => Z.abs
        (k * v (padded (width (info_of img)) x dx) (padded (height (info_of img)) y dy) c)) zs) <= 16777216 ->
    isD (fold_left (fun acc (t : tap) => f32_add acc (f32_mul (fst (let '(k, dx, dy) := t in
      (k, value img (padded (width (info_of img)) x dx) (padded (height (info_of img)) y dy) c)))
       (snd (let '(k, dx, dy) := t in
      (k, value img (padded (width (info_of img)) x dx) (padded (height (info_of img)) y dy) c))))) taps acc)
     (a + fold_right Z.add 0 (map (fun '(k, dx, dy) => k * v (padded (width (info_of img)) x dx) (padded (height (info_of img)) y dy) c) zs)) j).
  { clear Hb HC. induction Ht as [|[[k dx] dy] [[z zx] zy] taps zs [Hk [Ex Ey]] _ IH]; intros acc a Ha Hb; cbn [fold_left map fold_right] in *.
    - rewrite Z.add_0_r. exact Ha.
    - cbn [fst snd] in *. subst zx zy. apply isD_fraction in Hk; [|lia].
      set (vv := v (padded (width (info_of img)) x dx) (padded (height (info_of img)) y dy) c) in *.
      set (rest := fold_right Z.add 0 (map (fun '(k, dx, dy) => k * v (padded (width (info_of img)) x dx) (padded (height (info_of img)) y dy) c) zs)) in *.
      set (rabs := fold_right Z.add 0 (map (fun '(k, dx, dy) => Z.abs (k * v (padded (width (info_of img)) x dx) (padded (height (info_of img)) y dy) c)) zs)) in *.
      assert (0 <= rabs).
      { unfold rabs. clear. induction zs as [|[[z dx] dy] zs IH]; cbn; lia. }
      assert (Hs : isZ (value img (padded (width (info_of img)) x dx) (padded (height (info_of img)) y dy) c) vv).
      { destruct (Hv (padded (width (info_of img)) x dx) (padded (height (info_of img)) y dy) c) as [s [Es Hs]]; auto.
        - split; apply padded_range; assumption.
        - unfold value. rewrite (nth_error_nth _ _ _ Es). exact Hs. }
      replace (a + (z * vv + rest)) with (a + z * vv + rest) by lia.
      apply IH; [|lia].
      apply add_D; [exact Ha| |lia|lia].
      replace j with (j + 0) by lia. apply mul_D; [exact Hk| |lia|lia|lia|lia].
      apply isZ_isD in Hs. exact Hs. }
  apply isD_fraction; [lia|]. apply (G f32_0 0); [|exact Hb].
  apply (isZ_D f32_0 0 j isZ_0). lia.
Qed.

(** unsharp_masking = 2 * image - Gaussian blur, the blur having weights b_i b_j / 256, b = 1 4 6 4 1 *)
Definition binom (d : Z) : Z := nth (Z.to_nat (d + 2)) [1; 4; 6; 4; 1] 0.
Definition blur256 (inf : info) (v : Z -> Z -> Z -> Z) (x y c : Z) : Z :=
  Zsum (fun dy => Zsum (fun dx => binom dx * binom dy * v (padded (width inf) x dx) (padded (height inf) y dy) c) (-2) 3) (-2) 3.

Lemma unsharp_taps : exists zs,
  Forall2 (fun t z => is_fraction (fst (fst t)) (fst (fst z)) 8 /\ snd (fst t) = snd (fst z) /\ snd t = snd z)
    (square 5 K_UNSHARP_MASKING) zs
  /\ zs = flat_map (fun dy => map (fun dx =>
        ((if (dx =? 0) && (dy =? 0) then 512 else 0) - binom dx * binom dy, dx, dy)) (zrange (-2) 3)) (zrange (-2) 3).
Proof.
  eexists. split; [|reflexivity].
  unfold square. change (zrange 0 (5 * 5)) with [0;1;2;3;4;5;6;7;8;9;10;11;12;13;14;15;16;17;18;19;20;21;22;23;24].
  change (zrange (-2) 3) with [-2;-1;0;1;2]. cbn [map flat_map app].
  assert (G : forall i z, nth_error [-1; -4; -6; -4; -1; -4; -16; -24; -16; -4; -6; -24; 476; -24; -6;
     -4; -16; -24; -16; -4; -1; -4; -6; -4; -1] (Z.to_nat i) = Some z -> is_fraction (weight K_UNSHARP_MASKING i) z 8).
  { intros i z E. unfold weight, K_UNSHARP_MASKING.
    apply isD_fraction; [lia|].
    rewrite (nth_error_nth _ _ _ (map_nth_error (fun n => f32_div (f32_of_Z n) (f32_of_Z 256)) _ _ E)).
    apply nth_error_In in E. cbn [In] in E.
    apply div_pow2_D; [apply of_Z_isZ|apply (of_Z_isZ 256)| |]; lia. }
  repeat (apply Forall2_cons; [cbn [fst snd]; split; [apply G; reflexivity|split; reflexivity]|]). apply Forall2_nil.
Qed.

Theorem C50_unsharp_masking p b (img : image f32) v x y c :
  wf img -> small (info_of img) -> scheduled b (info_of img) ->
  int_image img v -> (forall x y, inside img x y -> Z.abs (v x y c) <= 20000) ->
  inside img x y -> 0 <= c < channels (info_of img) ->
  exists out, unsharp_masking p b img = Ret out /\ info_of out = info_of img /\
    is_fraction (value out x y c) (2 * 256 * v x y c - blur256 (info_of img) v x y c) 8.
Proof.
  intros Hwf Hsm Hb Hv Hm Hin Hc.
  destruct (C50_unseparable_filter p b 0 img 5 K_UNSHARP_MASKING) as [out [E C]]; auto; try reflexivity; try lia.
  exists out. split; [exact E|]. split; [exact (proj1 C)|].
  destruct unsharp_taps as [zs [HT Hz]].
  pose proof (C50_dyadic_exact _ zs 8 img out v x y c C ltac:(lia) HT Hv Hin Hc) as HE.
  pose proof Hin as [Hx Hy].
  assert (Hp : forall dx dy, Z.abs (v (padded (width (info_of img)) x dx) (padded (height (info_of img)) y dy) c) <= 20000).
  { intros dx dy. apply Hm. split; apply padded_range; assumption. }
  set (w := fun dx dy => v (padded (width (info_of img)) x dx) (padded (height (info_of img)) y dy) c).
  assert (Hw : forall dx dy, Z.abs (w dx dy) <= 20000) by exact Hp.
  replace (2 * 256 * v x y c - blur256 (info_of img) v x y c)
    with (Zcorrelation (fun z => z) zs (info_of img) v x y c); [apply HE|].
  - subst zs. unfold Zcorrelation. change (zrange (-2) 3) with [-2;-1;0;1;2]. cbn [map flat_map app fold_right].
    change (binom (-2)) with 1. change (binom (-1)) with 4. change (binom 0) with 6. change (binom 1) with 4. change (binom 2) with 1.
    cbn [Z.eqb andb].
    repeat match goal with |- context [v (padded ?W x ?dx) (padded ?H y ?dy) c] =>
      change (v (padded W x dx) (padded H y dy) c) with (w dx dy) end.
    repeat match goal with |- context [Z.abs (?k * w ?dx ?dy)] =>
      let Hn := fresh in assert (Hn : Z.abs (k * w dx dy) <= Z.abs k * 20000) by (rewrite Z.abs_mul; apply Z.mul_le_mono_nonneg_l; [lia|apply Hw]);
      let a := fresh in set (a := Z.abs (k * w dx dy)) in *; clearbody a; cbn in Hn end.
    clear -  H H0 H1 H2 H3 H4 H5 H6 H7 H8 H9 H10 H11 H12 H13 H14 H15 H16 H17 H18 H19 H20 H21 H22 H23 H24 H25 H26 H27 H28 H29 H30 H31 H32 H33 H34 H35 H36 H37 H38 H39 H40 H41 H42 H43 H44 H45 H46 H47 H48. lia.
  - subst zs. unfold Zcorrelation, blur256, Zsum. change (zrange (-2) 3) with [-2;-1;0;1;2]. cbn [map flat_map app fold_right].
    change (binom (-2)) with 1. change (binom (-1)) with 4. change (binom 0) with 6. change (binom 1) with 4. change (binom 2) with 1.
    cbn [Z.eqb andb]. rewrite !padded_0. lia.
Qed.

(** ** C52: threshold *)
(** s > t, as the f32 comparison (false when one of them is NaN) *)
Definition above (s t : f32) : Prop := f32_ltb t s = true.
(** the five documented rules (src/enums.rs): r is the new value of a sample s *)
Definition thresh_rule (m : thresh) (t max s r : f32) : Prop :=
  match m with
  | Binary => (above s t -> r = max) /\ (~ above s t -> r = f32_0)
  | BinaryInv => (above s t -> r = f32_0) /\ (~ above s t -> r = max)
  | Trunc => (above s t -> r = t) /\ (~ above s t -> r = s)
  | ToZero => (above s t -> r = s) /\ (~ above s t -> r = f32_0)
  | ToZeroInv => (above s t -> r = f32_0) /\ (~ above s t -> r = s)
  end.
Definition grayscale {T} (img : image T) : Prop := channels (info_of img) = if alpha (info_of img) then 2 else 1.

Lemma check_grayscale_ok {T} (img : image T) : grayscale img -> check_grayscale img = Ret tt.
Proof.
  intros H. apply C61_check_grayscale. unfold grayscale in H. destruct (alpha (info_of img)); auto.
Qed.
Lemma check_grayscale_bad {T} (img : image T) : ~ grayscale img -> check_grayscale img = Fail InvalidArgError.
Proof.
  intros H. apply C61_check_grayscale. unfold grayscale in H. destruct (alpha (info_of img)); intuition congruence.
Qed.

Theorem C52_threshold p (img : image f32) t max m :
  wf img ->
  (~ grayscale img -> threshold p img t max m = Fail InvalidArgError)
  /\ (grayscale img -> exists out, threshold p img t max m = Ret out /\ info_of out = info_of img /\ wf out
      /\ forall x y, inside img x y ->
         (exists s r, sample img x y 0 = Some s /\ sample out x y 0 = Some r /\ thresh_rule m t max s r)
         /\ (alpha (info_of img) = true -> sample out x y 1 = sample img x y 1)).
Proof.
  intros Hwf. split; intros Hg; unfold threshold.
  - rewrite check_grayscale_bad by exact Hg. reflexivity.
  - rewrite check_grayscale_ok by exact Hg. cbn [bind].
    assert (HC : 0 < channels (info_of img)) by (unfold grayscale in Hg; destruct (alpha (info_of img)); lia).
    destruct (map_if_alpha_recolored p img (fun c => Ret (thresh_fn t max m c)) (fun a => Ret a)
      (thresh_fn t max m) (fun a => a) Hwf (or_intror HC)) as [out [E [Hi [Hw H]]]]; auto.
    exists out. conj; auto. intros x y Hin.
    assert (Hlen : length (pixel_at img x y) = Z.to_nat (channels (info_of img))).
    { pose proof (pixel_at_len img Hwf x y Hin). unfold len in *. lia. }
    split.
    + destruct (sample img x y 0) as [s|] eqn:Es.
      * exists s, (thresh_fn t max m s). split; [reflexivity|]. split.
        -- rewrite (H x y 0 s Hin ltac:(lia) Es). unfold is_alpha.
           replace (alpha (info_of img) && (0 =? channels (info_of img) - 1)) with false; [reflexivity|].
           symmetry. unfold grayscale in Hg. destruct (alpha (info_of img)); [cbn [andb]; lia|reflexivity].
        -- unfold thresh_rule, above, thresh_fn. change (f32_gtb s t) with (f32_ltb t s).
           destruct m, (f32_ltb t s); split; intros; congruence.
      * exfalso. unfold sample in Es. apply nth_error_None in Es. lia.
    + intros Ha. destruct (sample img x y 1) as [s|] eqn:Es.
      * rewrite (H x y 1 s Hin ltac:(lia) Es). unfold is_alpha. unfold grayscale in Hg. rewrite Ha in *. rewrite Hg. reflexivity.
      * exfalso. unfold sample in Es. apply nth_error_None in Es. unfold grayscale in Hg. rewrite Ha in Hg. lia.
Qed.
Example C52_example : grayscale ex_ga /\ exists out, threshold Debug ex_ga (f32_of_Z 25) (f32_of_Z 200) Binary = Ret out
  /\ pixel_at out 1 0 = [f32_0; f32_of_Z 128] /\ pixel_at out 2 0 = [f32_of_Z 200; f32_of_Z 255].
Proof. split; [reflexivity|]. eexists. split; [reflexivity|]. split; reflexivity. Qed.

(** ** C53: residual *)
Lemma mfold_concat {A B} (g : A -> outcome (list B)) l acc :
  mfold (fun acc a => let! bs := g a in Ret (acc ++ bs)) l acc = (let! bss := mmap g l in Ret (acc ++ concat bss)).
Proof.
  revert acc. induction l as [|a l IH]; intros acc; cbn [mfold mmap]; [cbn; rewrite app_nil_r; reflexivity|].
  destruct (g a); cbn [bind]; auto. rewrite IH. destruct (mmap g l); cbn; auto. rewrite app_assoc. reflexivity.
Qed.

Lemma coords_flat {A} (G : Z -> Z -> A) w h : 0 <= w -> 0 <= h ->
  map (fun xy => G (fst xy) (snd xy)) (coords 0 w 0 h) = map (fun k => G (k mod w) (k / w)) (zrange 0 (w * h)).
Proof.
  intros Hw Hh. rewrite Z.mul_comm. apply (zrange_ind (fun h => map (fun xy => G (fst xy) (snd xy)) (coords 0 w 0 h) = map (fun k => G (k mod w) (k / w)) (zrange 0 (h * w))) 0 h Hh).
  - reflexivity.
  - intros k Hk IH. unfold coords in *. rewrite zrange_snoc, flat_map_app, map_app, IH by lia.
    rewrite (zrange_app 0 (k * w) ((k + 1) * w)) by nia. rewrite map_app. f_equal.
    cbn [flat_map]. rewrite app_nil_r, map_map. cbn [fst snd]. rewrite (zrange_shift (k * w)), map_map.
    replace ((k + 1) * w - k * w) with w by lia. apply map_ext_in. intros j Hj. apply in_zrange in Hj.
    destruct (pos_div w j k) as [-> ->]; [lia|]. reflexivity.
Qed.

Section Residual.
  Context (p : profile) {T : Type} (N : number T) (a b : image T).
  Hypotheses (Ha : wf a) (Hb : wf b) (Hi : info_of a = info_of b).
  Notation inf := (info_of a).

  Let diff (x y : Z) : outcome (list T) :=
    mmap (fun c => let! u := vget (pixel_at a x y) c in let! v := vget (pixel_at b x y) c in n_sub N p u v) (zrange 0 (channels inf)).

  Lemma residual_eq : residual p N a b =
    (let! d := mmap (fun xy => diff (fst xy) (snd xy)) (coords 0 (width inf) 0 (height inf)) in
     Ret (Image inf (concat d))).
  Proof.
    unfold residual, check_equal_info. rewrite (proj2 (info_eqb_eq _ _) Hi). cbn [bind].
    rewrite (mfold_nest (fun d x y =>
        let! p1 := get_pixel p a x y in
        let! p2 := get_pixel p b x y in
        mfold (fun d c => let! a := vget p1 c in let! b := vget p2 c in let! r := n_sub N p a b in Ret (d ++ [r])) (zrange 0 (channels inf)) d)).
    transitivity (let! d := mfold (fun d xy => let! bs := diff (fst xy) (snd xy) in Ret (d ++ bs)) (coords 0 (width inf) 0 (height inf)) [] in
      Ret (from_slice (width inf) (height inf) (channels inf) (alpha inf) d)).
    - f_equal. apply mfold_ext. intros d [x y] Hxy. apply in_coords in Hxy. cbn [fst snd].
      rewrite (get_pixel_ok a) by (auto; split; lia). cbn [bind].
      rewrite (get_pixel_ok b) by (auto; split; rewrite <- Hi; lia). cbn [bind].
      unfold diff. rewrite <- (mfold_push (fun c => let! u := vget (pixel_at a x y) c in let! v := vget (pixel_at b x y) c in n_sub N p u v)).
      apply mfold_ext. intros d' c _. destruct (vget (pixel_at a x y) c); cbn [bind]; auto.
      destruct (vget (pixel_at b x y) c); reflexivity.
    - rewrite mfold_concat. destruct (mmap _ _) as [d| | |]; cbn [bind]; auto.
      cbn [app]. unfold from_slice. destruct inf; reflexivity.
  Qed.

  (** when all differences exist *)
  Lemma residual_ret (sub : T -> T -> T) :
    (forall x y c u v, inside a x y -> 0 <= c -> sample a x y c = Some u -> sample b x y c = Some v -> n_sub N p u v = Ret (sub u v)) ->
    exists out, residual p N a b = Ret out /\ info_of out = inf /\ wf out
      /\ forall x y c u v, inside a x y -> 0 <= c -> sample a x y c = Some u -> sample b x y c = Some v ->
           sample out x y c = Some (sub u v).
  Proof.
    intros H. rewrite residual_eq.
    pose proof (wf_info_ok _ Ha) as Hok. pose proof (wf_c _ Ha) as HC.
    destruct (Z_le_gt_dec (width inf * height inf * channels inf) 0) as [Hz|Hz].
    { (* no sample *)
      assert (Hmm : forall xy, In xy (coords 0 (width inf) 0 (height inf)) -> diff (fst xy) (snd xy) = Ret []).
      { intros [x y] Hxy. apply in_coords in Hxy. unfold diff. rewrite zrange_nil; [reflexivity|].
        destruct Hok as (?&?&?&?&?). assert (0 < width inf * height inf) by nia. nia. }
      rewrite (mmap_Ret _ (fun _ => [])) by exact Hmm. cbn [bind]. eexists. split; [reflexivity|].
      assert (Hcc : forall l, concat (map (fun _ : Z * Z => @nil T) l) = []) by (induction l; cbn; auto).
      rewrite Hcc. assert (Hw : wf (Image inf (@nil T))).
      { destruct Ha. constructor; cbn [info_of data]; auto. change (len (@nil T)) with 0. nia. }
      conj; auto. intros x y c u v Hin Hc Eu. exfalso. unfold sample in Eu.
      assert (nth_error (pixel_at a x y) (Z.to_nat c) <> None) as Hnn by congruence. apply nth_error_Some in Hnn.
      pose proof (pixel_at_len a Ha x y Hin). unfold len in *. destruct Hin as [? ?]. 
      destruct Hok as (?&?&?&?&?). assert (0 < width inf * height inf) by nia. nia. }
    assert (Hd : exists d0 : T, True).
    { destruct (data a) as [|d0 ?] eqn:E; [|eauto]. pose proof (wf_data _ Ha) as Hl. rewrite E in Hl. cbn in Hl. lia. }
    destruct Hd as [d0 _].
    set (G := fun x y => map (fun c => sub (nth (Z.to_nat c) (pixel_at a x y) d0) (nth (Z.to_nat c) (pixel_at b x y) d0)) (zrange 0 (channels inf))).
    assert (HG : forall x y, inside a x y -> diff x y = Ret (G x y)).
    { intros x y Hin. unfold diff, G. apply mmap_Ret. intros c Hc. apply in_zrange in Hc.
      assert (Hinb : inside b x y) by (unfold inside in *; rewrite <- Hi; exact Hin).
      pose proof (pixel_at_len a Ha x y Hin) as La. pose proof (pixel_at_len b Hb x y Hinb) as Lb. rewrite <- Hi in Lb.
      rewrite (vget_ok _ c d0) by lia. cbn [bind]. rewrite (vget_ok _ c d0) by lia. cbn [bind].
      apply (H x y c); auto; [lia| |]; unfold sample; apply nth_error_nth'; unfold len in *; lia. }
    assert (HL : forall x y, len (G x y) = channels inf) by (intros; unfold G; rewrite len_map, len_zrange; lia).
    rewrite (mmap_Ret _ (fun xy => G (fst xy) (snd xy))) by (intros [x y] Hxy; apply in_coords in Hxy; apply HG; split; cbn; lia).
    cbn [bind].
    assert (Eq : map (fun xy => G (fst xy) (snd xy)) (coords 0 (width inf) 0 (height inf))
      = map (fun k => G (k mod width inf) (k / width inf)) (zrange 0 (width inf * height inf))).
    { apply coords_flat; destruct Hok as (?&?&?&?&?); lia. }
    rewrite Eq. exists (of_fun inf G). conj; auto; [apply of_fun_wf; auto|].
    intros x y c u v Hin Hc Eu Ev. unfold sample. pose proof Hin as [? ?]. rewrite pixel_at_of_fun by auto.
    assert (nth_error (pixel_at a x y) (Z.to_nat c) <> None) as Hnn by (unfold sample in Eu; congruence). apply nth_error_Some in Hnn.
    pose proof (pixel_at_len a Ha x y Hin). unfold len in *. unfold G.
    rewrite (nth_error_nth' _ d0) by (rewrite map_length, zrange_length; lia). rewrite nth_map_zrange by lia. rewrite Z.add_0_l.
    unfold sample in Eu, Ev. rewrite (nth_error_nth _ _ _ Eu), (nth_error_nth _ _ _ Ev). reflexivity.
  Qed.

  (** when one difference panics *)
  Lemma residual_panics :
    (forall u v, n_sub N p u v = Panic \/ exists r, n_sub N p u v = Ret r) ->
    (exists x y c u v, inside a x y /\ 0 <= c /\ sample a x y c = Some u /\ sample b x y c = Some v /\ n_sub N p u v = Panic) ->
    residual p N a b = Panic.
  Proof.
    intros Htot (x & y & c & u & v & Hin & Hc & Eu & Ev & Ep). rewrite residual_eq.
    pose proof (wf_c _ Ha) as HC.
    assert (Hcell : forall x y c, let r := (let! u := vget (pixel_at a x y) c in let! v := vget (pixel_at b x y) c in n_sub N p u v) in
      r = Panic \/ exists q, r = Ret q).
    { intros x0 y0 c0. cbv zeta. pose proof (safe_vget (pixel_at a x0 y0) c0) as S1. pose proof (safe_vget (pixel_at b x0 y0) c0) as S2.
      destruct (vget (pixel_at a x0 y0) c0) as [u0| | |]; cbn in S1; try contradiction; cbn [bind]; auto.
      destruct (vget (pixel_at b x0 y0) c0) as [v0| | |]; cbn in S2; try contradiction; cbn [bind]; auto. }
    assert (Hd : forall x y, diff x y = Panic \/ exists q, diff x y = Ret q).
    { intros x0 y0. unfold diff. induction (zrange 0 (channels inf)) as [|c0 l IH]; [right; eexists; reflexivity|].
      cbn [mmap]. destruct (Hcell x0 y0 c0) as [->|[q ->]]; cbn [bind]; auto.
      destruct IH as [->|[q' ->]]; cbn [bind]; eauto. }
    rewrite (mmap_panic _ _ (x, y)); [reflexivity| | |].
    - destruct Hin as [? ?]. apply in_coords. lia.
    - cbn [fst snd]. unfold diff.
      assert (nth_error (pixel_at a x y) (Z.to_nat c) <> None) as Hnn by (unfold sample in Eu; congruence). apply nth_error_Some in Hnn.
      pose proof (pixel_at_len a Ha x y Hin) as La. unfold len in La.
      apply (mmap_panic _ _ c).
      + apply in_zrange. lia.
      + unfold sample in *. unfold vget, len. 
        assert (Hinb : inside b x y) by (unfold inside in *; rewrite <- Hi; exact Hin).
        pose proof (pixel_at_len b Hb x y Hinb) as Lb. unfold len in Lb. rewrite <- Hi in Lb.
        replace ((0 <=? c) && (c <? Z.of_nat (length (pixel_at a x y)))) with true by lia.
        replace ((0 <=? c) && (c <? Z.of_nat (length (pixel_at b x y)))) with true by lia.
        rewrite Eu, Ev. exact Ep.
      + intros c0 _. destruct (Hcell x y c0); auto.
    - intros [x0 y0] _. cbn [fst snd]. destruct (Hd x0 y0); auto.
  Qed.
End Residual.

Theorem C53_info_mismatch p {T} (N : number T) (a b : image T) :
  info_of a <> info_of b -> residual p N a b = Fail InvalidArgError.
Proof.
  intros H. unfold residual, check_equal_info. destruct (info_eqb _ _) eqn:E; [|reflexivity].
  apply info_eqb_eq in E. contradiction.
Qed.

Theorem C53_residual_f32 p (a b : image f32) : wf a -> wf b -> info_of a = info_of b ->
  exists out, residual p num_f32 a b = Ret out /\ info_of out = info_of a /\ wf out
    /\ forall x y c u v, inside a x y -> 0 <= c -> sample a x y c = Some u -> sample b x y c = Some v ->
         sample out x y c = Some (f32_sub u v).
Proof. intros Ha Hb Hi. apply residual_ret; auto. Qed.

(** integer samples of type t: in release the difference wraps; in debug it panics when one does not fit *)
Theorem C53_residual_int p t (a b : image Z) : wf a -> wf b -> info_of a = info_of b ->
  p = Release \/ (forall x y c u v, inside a x y -> 0 <= c -> sample a x y c = Some u -> sample b x y c = Some v -> in_ity t (u - v) = true) ->
  exists out, residual p (num_int t) a b = Ret out /\ info_of out = info_of a /\ wf out
    /\ forall x y c u v, inside a x y -> 0 <= c -> sample a x y c = Some u -> sample b x y c = Some v ->
         sample out x y c = Some (if in_ity t (u - v) then u - v else cast t (u - v)).
Proof.
  intros Ha Hb Hi H. apply (residual_ret p (num_int t) a b Ha Hb Hi (fun u v => if in_ity t (u - v) then u - v else cast t (u - v))).
  intros x y c u v Hin Hc Eu Ev. cbn [n_sub num_int]. unfold isub, arith.
  destruct (in_ity t (u - v)) eqn:E; [reflexivity|]. destruct H as [-> | H]; [reflexivity|].
  rewrite (H x y c u v) in E; auto. discriminate.
Qed.
Theorem C53_residual_int_debug_panics t (a b : image Z) : wf a -> wf b -> info_of a = info_of b ->
  (exists x y c u v, inside a x y /\ 0 <= c /\ sample a x y c = Some u /\ sample b x y c = Some v /\ in_ity t (u - v) = false) ->
  residual Debug (num_int t) a b = Panic.
Proof.
  intros Ha Hb Hi (x & y & c & u & v & Hin & Hc & Eu & Ev & E). apply residual_panics; auto.
  - intros u0 v0. cbn [n_sub num_int]. unfold isub, arith. destruct (in_ity t (u0 - v0)); eauto.
  - exists x, y, c, u, v. conj; auto. cbn [n_sub num_int]. unfold isub, arith. rewrite E. reflexivity.
Qed.

(** the residual of an image with itself is black *)
Theorem C53_residual_self_f32 p (a : image f32) : wf a -> Forall (fun s => is_finite s = true) (data a) ->
  exists out, residual p num_f32 a a = Ret out /\ info_of out = info_of a
    /\ forall x y c s, inside a x y -> 0 <= c < channels (info_of a) -> sample out x y c = Some s -> holds s 0.
Proof.
  intros Ha Hf. destruct (C53_residual_f32 p a a Ha Ha eq_refl) as [out [E [Hi [Hw H]]]]. exists out. conj; auto.
  intros x y c s Hin Hc Es. pose proof (pixel_at_len a Ha x y Hin) as La.
  destruct (sample a x y c) as [u|] eqn:Eu; [|unfold sample in Eu; apply nth_error_None in Eu; unfold len in La; lia].
  rewrite (H x y c u u Hin ltac:(lia) Eu Eu) in Es. injection Es as <-.
  assert (Hu : is_finite u = true).
  { rewrite Forall_forall in Hf. apply Hf. rewrite sample_data in Eu by auto. eapply nth_error_In; eauto. }
  assert (Hfin : fin (f32_sub u u) (rnd32 (B2R u - B2R u))).
  { apply sub_fin; [split; auto|split; auto|].
    replace (B2R u - B2R u)%R with (IZR 0) by (rewrite Rminus_eq_0; reflexivity).
    rewrite Rabs_R0. apply bpow_ge_0. }
  replace (B2R u - B2R u)%R with (IZR 0) in Hfin by (rewrite Rminus_eq_0; reflexivity).
  unfold rnd32 in Hfin. rewrite rnd_Z in Hfin by lia. exact Hfin.
Qed.
Theorem C53_residual_self_int p t (a : image Z) : wf a -> lo t <= 0 <= hi t ->
  exists out, residual p (num_int t) a a = Ret out /\ info_of out = info_of a
    /\ forall x y c s, inside a x y -> 0 <= c < channels (info_of a) -> sample out x y c = Some s -> s = 0.
Proof.
  intros Ha Ht. assert (H0 : forall u v, Some u = Some v -> in_ity t (u - v) = true) by (intros u v E; injection E as ->; unfold in_ity; lia).
  destruct (C53_residual_int p t a a Ha Ha eq_refl) as [out [E [Hi [Hw H]]]].
  { right. intros x y c u v _ _ Eu Ev. apply H0. congruence. }
  exists out. conj; auto. intros x y c s Hin Hc Es. pose proof (pixel_at_len a Ha x y Hin) as La.
  destruct (sample a x y c) as [u|] eqn:Eu; [|unfold sample in Eu; apply nth_error_None in Eu; unfold len in La; lia].
  rewrite (H x y c u u Hin ltac:(lia) Eu Eu) in Es. rewrite (H0 u u eq_refl) in Es. injection Es as <-. lia.
Qed.
Example C53_example : wf ex_rgba /\ exists out, residual Release (num_int U8) ex_rgba ex_rgba = Ret out /\ nth 5 (data out) 1 = 0.
Proof. split; [apply ex_rgba_wf|]. eexists. split; reflexivity. Qed.
Example C53_example_negative :
  residual Debug num_u8 (Image (Info 1 1 1 false) [3]) (Image (Info 1 1 1 false) [5]) = Panic
  /\ exists out, residual Release num_u8 (Image (Info 1 1 1 false) [3]) (Image (Info 1 1 1 false) [5]) = Ret out /\ data out = [254].
Proof. split; [reflexivity|]. eexists. split; reflexivity. Qed.
