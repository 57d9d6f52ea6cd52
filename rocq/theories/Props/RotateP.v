(** * C24 (rotate by 0 degrees) and C25 (shear). *)
From Verif.Model Require Import MathM Transform.
From Verif.Spec Require Import ImageS.
From Verif.Proofs Require Import BaseL ImageL FloatL WriteL.
From Verif.Props Require Import FloatP.
From Flocq Require Import Core BinarySingleNaN.
Open Scope Z_scope.

(** ** floats that are integers *)
Lemma vec2 p (m0 m1 m2 m3 a b : f32) :
  vector_mul p num_f32 [m0; m1; m2; m3] [a; b]
  = Ret [f32_add (f32_add f32_0 (f32_mul m0 a)) (f32_mul m1 b); f32_add (f32_add f32_0 (f32_mul m2 a)) (f32_mul m3 b)].
Proof. destruct p; reflexivity. Qed.
Lemma vec2_mut p (m0 m1 m2 m3 a b : f32) :
  vector_mul_mut p num_f32 [m0; m1; m2; m3] [a; b] []
  = Ret [f32_add (f32_add f32_0 (f32_mul m0 a)) (f32_mul m1 b); f32_add (f32_add f32_0 (f32_mul m2 a)) (f32_mul m3 b)].
Proof. destruct p; reflexivity. Qed.

(** one row of the matrix applied to an integer vector *)
Lemma row_Z (m0 m1 a b : f32) k0 k1 x y : isZ m0 k0 -> isZ m1 k1 -> isZ a x -> isZ b y ->
  Z.abs (k0 * x) <= 16777216 -> Z.abs (k1 * y) <= 16777216 -> Z.abs (k0 * x + k1 * y) <= 16777216 ->
  isZ (f32_add (f32_add f32_0 (f32_mul m0 a)) (f32_mul m1 b)) (k0 * x + k1 * y).
Proof.
  intros H0 H1 Ha Hb B0 B1 B. apply add_isZ; [|apply mul_isZ; assumption|exact B].
  replace (k0 * x) with (0 + k0 * x) by lia. apply add_isZ; [apply isZ_0|apply mul_isZ; assumption|lia].
Qed.

Lemma vget_0 {A} (a b : A) : vget [a; b] 0 = Ret a. Proof. reflexivity. Qed.
Lemma vget_1 {A} (a b : A) : vget [a; b] 1 = Ret b. Proof. reflexivity. Qed.
Lemma is_fin_not_nan (x : f32) z : isZ x z -> is_nan x = false.
Proof. intros [H _]. destruct x; try reflexivity; discriminate. Qed.

Lemma max_4_isZ (a b c d : f32) x y z w : isZ a x -> isZ b y -> isZ c z -> isZ d w ->
  isZ (max_4 a b c d) (Z.max (Z.max x y) (Z.max z w)).
Proof.
  intros Ha Hb Hc Hd. unfold max_4, max_3.
  rewrite ?(gtb_isZ a b x y Ha Hb), ?(gtb_isZ b c y z Hb Hc), ?(gtb_isZ c d z w Hc Hd), ?(gtb_isZ a c x z Ha Hc),
    ?(gtb_isZ a d x w Ha Hd), ?(gtb_isZ b d y w Hb Hd).
  repeat match goal with |- context [?u <? ?v] => destruct (Z.ltb_spec u v) end;
    match goal with |- isZ ?f ?e => match goal with H : isZ f ?n |- _ => replace e with n by lia; exact H end end.
Qed.
Lemma min_4_isZ (a b c d : f32) x y z w : isZ a x -> isZ b y -> isZ c z -> isZ d w ->
  isZ (min_4 a b c d) (Z.min (Z.min x y) (Z.min z w)).
Proof.
  intros Ha Hb Hc Hd. unfold min_4, min_3.
  rewrite ?(ltb_isZ a b x y Ha Hb), ?(ltb_isZ b c y z Hb Hc), ?(ltb_isZ c d z w Hc Hd), ?(ltb_isZ a c x z Ha Hc),
    ?(ltb_isZ a d x w Ha Hd), ?(ltb_isZ b d y w Hb Hd).
  repeat match goal with |- context [?u <? ?v] => destruct (Z.ltb_spec u v) end;
    match goal with |- isZ ?f ?e => match goal with H : isZ f ?n |- _ => replace e with n by lia; exact H end end.
Qed.
(** saturating conversion of an integer-valued float that may be negative *)
Lemma to_u32_Z (x : f32) a : isZ x a -> a <= 16777216 -> f32_to_int U32 x = Z.max 0 a.
Proof.
  intros H Ha. unfold f32_to_int. rewrite (to_int_fin U32 x (IZR a)) by (cbn; try lia; exact H).
  rewrite Ztrunc_IZR. unfold clampZ. cbn [lo hi U32]. lia.
Qed.

(** ** C24 *)
(** which input column (row) ends up in output column a of an image of width w (row b, height h)
    when rotating by 0 degrees; None: nothing is ever written there (the samples stay 0) *)
Definition rot0_col (w a : Z) : option Z :=
  if Z.odd w then Some (Z.min (a + 1) (w - 1))
  else if a + 2 <? w then Some (a + 2) else if a + 1 <? w then Some (a + 1) else None.
Definition rot0_row (h b : Z) : option Z :=
  if h =? 1 then Some 0 else if b + 1 <? h then Some (b + 1) else None.

Section Rot0.
  Context (p : profile) (img : image f32) (Hwf : wf img).
  Let w := width (info_of img).
  Let h := height (info_of img).
  Context (Hw : 1 <= w < 8388608) (Hh : 1 <= h < 8388608).
  Let e := w - 2 * (w / 2) - 1.

  (** the writes made for input pixel (i,j) *)
  Definition rot0_writes (i j : Z) : list (write (T := f32)) :=
    (Z.max 0 (i + e), Z.max 0 (j - 1), pixel_at img i j)
    :: if 1 <=? i + e then [(i + e - 1, Z.max 0 (j - 1), pixel_at img i j)] else [].

  Lemma e_val : e = if Z.odd w then 0 else -1.
  Proof.
    unfold e. pose proof (Z.div_mod w 2). pose proof (Zmod_odd w). destruct (Z.odd w); lia.
  Qed.

  Lemma rot0_loop (sn cs : f32) : isZ sn 0 -> isZ cs 1 ->
    exists out, rotate_by p img sn cs = Ret out /\ wf out /\ info_of out = info_of img
      /\ forall x y, inside img x y -> pixel_at out x y
         = last_write (flat_map (fun j => flat_map (fun i => rot0_writes i j) (zrange 0 w)) (zrange 0 h)) x y
             (repeat f32_0 (Z.to_nat (channels (info_of img)))).
  Proof.
    intros Z0 Z1. pose proof Hwf as [Hw0 Hh0 HC Hsz Hfull Hd]. unfold u32_max in *.
    unfold rotate_by. fold w h.
    assert (Hx : 0 <= w / 2 <= w) by (split; [apply Z.div_pos; lia|apply Z.div_le_upper_bound; lia]).
    assert (Hy : 0 <= h / 2 <= h) by (split; [apply Z.div_pos; lia|apply Z.div_le_upper_bound; lia]).
    set (x := w / 2) in Hx |- *. set (y := h / 2) in Hy |- *.
    assert (Ee : -1 <= e <= 0) by (rewrite e_val; destruct (Z.odd w); lia).
    rewrite vec2, bind_Ret. rewrite isub_ok by (cbn; lia). rewrite bind_Ret. rewrite vec2, bind_Ret, vec2, bind_Ret, vec2, bind_Ret.
    rewrite !vget_0, !bind_Ret, !vget_1, !bind_Ret.
    set (F := f32_of_Z).
    assert (ZF : forall z, Z.abs z <= 16777216 -> isZ (F z) z) by (intros; apply of_Z_isZ; assumption).
    assert (Zm0 : isZ (f32_neg sn) 0) by (apply (neg_isZ _ 0); exact Z0).
    assert (O1 : isZ f32_1 1) by apply isZ_1.
    assert (Xn : isZ (f32_neg (F x)) (- x)) by (apply neg_isZ, ZF; lia).
    assert (Yd : isZ (f32_sub (F y) (F h)) (y - h)) by (apply sub_isZ; try apply ZF; lia).
    pose proof (row_Z cs (f32_neg sn) (f32_neg (F x)) (F y) 1 0 (-x) y Z1 Zm0 Xn (ZF y ltac:(lia)) ltac:(lia) ltac:(lia) ltac:(lia)) as A1.
    pose proof (row_Z sn cs (f32_neg (F x)) (F y) 0 1 (-x) y Z0 Z1 Xn (ZF y ltac:(lia)) ltac:(lia) ltac:(lia) ltac:(lia)) as B1.
    pose proof (row_Z cs (f32_neg sn) (F (w - x)) (F y) 1 0 (w-x) y Z1 Zm0 (ZF (w - x) ltac:(lia)) (ZF y ltac:(lia)) ltac:(lia) ltac:(lia) ltac:(lia)) as A2.
    pose proof (row_Z sn cs (F (w - x)) (F y) 0 1 (w-x) y Z0 Z1 (ZF (w - x) ltac:(lia)) (ZF y ltac:(lia)) ltac:(lia) ltac:(lia) ltac:(lia)) as B2.
    pose proof (row_Z cs (f32_neg sn) (f32_neg (F x)) (f32_sub (F y) (F h)) 1 0 (-x) (y-h) Z1 Zm0 Xn Yd ltac:(lia) ltac:(lia) ltac:(lia)) as A3.
    pose proof (row_Z sn cs (f32_neg (F x)) (f32_sub (F y) (F h)) 0 1 (-x) (y-h) Z0 Z1 Xn Yd ltac:(lia) ltac:(lia) ltac:(lia)) as B3.
    pose proof (row_Z cs (f32_neg sn) (F (w - x)) (f32_sub (F y) (F h)) 1 0 (w-x) (y-h) Z1 Zm0 (ZF (w - x) ltac:(lia)) Yd ltac:(lia) ltac:(lia) ltac:(lia)) as A4.
    pose proof (row_Z sn cs (F (w - x)) (f32_sub (F y) (F h)) 0 1 (w-x) (y-h) Z0 Z1 (ZF (w - x) ltac:(lia)) Yd ltac:(lia) ltac:(lia) ltac:(lia)) as B4.
    pose proof (max_4_isZ _ _ _ _ _ _ _ _ A1 A2 A3 A4) as XM. pose proof (min_4_isZ _ _ _ _ _ _ _ _ A1 A2 A3 A4) as Xm.
    pose proof (max_4_isZ _ _ _ _ _ _ _ _ B1 B2 B3 B4) as YM. pose proof (min_4_isZ _ _ _ _ _ _ _ _ B1 B2 B3 B4) as Ym.
    clear A1 A2 A3 A4 B1 B2 B3 B4.
    match type of XM with isZ ?m _ => set (xM := m) in * end. match type of Xm with isZ ?m _ => set (xm := m) in * end.
    match type of YM with isZ ?m _ => set (yM := m) in * end. match type of Ym with isZ ?m _ => set (ym := m) in * end.
    clearbody xM xm yM ym.
    match type of XM with isZ _ ?m => replace m with (w - x) in XM by lia end.
    match type of Xm with isZ _ ?m => replace m with (- x) in Xm by lia end.
    match type of YM with isZ _ ?m => replace m with y in YM by lia end.
    match type of Ym with isZ _ ?m => replace m with (y - h) in Ym by lia end.
    rewrite (to_u32_Z (f32_sub xM xm) w) by (try (replace w with (w - x - - x) at 1 by lia; apply sub_isZ; [exact XM|exact Xm|]); lia).
    rewrite (to_u32_Z (f32_sub yM ym) h) by (try (replace h with (y - (y - h)) at 1 by lia; apply sub_isZ; [exact YM|exact Ym|]); lia).
    rewrite !Z.max_r by lia.
    assert (Ei : Info w h (channels (info_of img)) (alpha (info_of img)) = info_of img) by (unfold w, h; destruct (info_of img); reflexivity).
    rewrite Ei, (blank_ok p num_f32 (info_of img)) by (apply wf_info_ok; exact Hwf). cbn [bind].
    match goal with |- context [mfold _ _ ?b] => set (bl := b) in * end.
    assert (Wb : wf bl) by (apply (blank_wf num_f32), wf_info_ok, Hwf).
    assert (Ib : info_of bl = info_of img) by reflexivity.
    edestruct (loop_writes p rot0_writes) as [out (E & W & I & P)]; cycle 3.
    - exists out. conj; [exact E|exact W|exact I|]. intros a b Hab. rewrite P by exact Hab. f_equal.
      unfold bl. apply pixel_at_blank; [apply wf_info_ok; exact Hwf|apply Hab|apply Hab].
    - exact Wb.
    - intros im i j Hi Hj Him Wim. cbv beta.
      rewrite vec2_mut. cbn [bind]. rewrite vget_0, bind_Ret, vget_1, bind_Ret.
      assert (C0 : isZ (f32_add (f32_add (f32_add f32_0 (f32_mul cs (f32_sub (F i) (F x)))) (f32_mul (f32_neg sn) (f32_sub (F y) (F j)))) (f32_sub xM f32_1)) (i + e)).
      { replace (i + e) with ((1 * (i - x) + 0 * (y - j)) + (w - x - 1)) by (unfold e; fold x; lia).
        apply add_isZ; [apply row_Z; try assumption; try (apply sub_isZ; try apply ZF; lia); lia|apply sub_isZ; try assumption; lia|lia]. }
      assert (C1 : isZ (f32_sub (f32_sub yM (f32_add (f32_add f32_0 (f32_mul sn (f32_sub (F i) (F x)))) (f32_mul cs (f32_sub (F y) (F j))))) f32_1) (j - 1)).
      { replace (j - 1) with ((y - (0 * (i - x) + 1 * (y - j))) - 1) by lia.
        apply sub_isZ; [|exact O1|lia]. apply sub_isZ; [exact YM| |lia].
        apply row_Z; try assumption; try (apply sub_isZ; try apply ZF; lia); lia. }
      match type of C0 with isZ ?m _ => set (c0 := m) in * end. match type of C1 with isZ ?m _ => set (c1 := m) in * end.
      clearbody c0 c1.
      rewrite (to_u32_Z c0 (i + e)) by (try assumption; lia). rewrite (to_u32_Z c1 (j - 1)) by (try assumption; lia).
      rewrite (get_pixel_ok img Hwf p i j) by (split; assumption). cbn [bind].
      rewrite (geb_isZ c0 f32_1 (i + e) 1 C0 O1). unfold rot0_writes. cbn [mfold fst snd].
      destruct (Z.leb_spec 1 (i + e)) as [Hie|Hie].
      + cbn [mfold fst snd]. rewrite Z.max_r by lia. rewrite isub_ok by (cbn; lia).
        apply bind_ext. intros im' _. cbn [bind]. destruct (set_pixel p im' (i + e - 1) (Z.max 0 (j - 1)) (pixel_at img i j)); reflexivity.
      + reflexivity.
    - intros i j wr Hi Hj Hwr. unfold inside. rewrite Ib. fold w h.
      assert (Hl : len (pixel_at img i j) = channels (info_of img)) by (apply pixel_at_len; [exact Hwf|split; assumption]).
      unfold rot0_writes in Hwr. destruct (Z.leb_spec 1 (i + e)) as [Hie|Hie]; cbn [In] in Hwr.
      + destruct Hwr as [<-|[<-|[]]]; cbn [fst snd]; split; [lia|exact Hl|lia|exact Hl].
      + destruct Hwr as [<-|[]]; cbn [fst snd]; split; [lia|exact Hl].
  Qed.

  (** one row of writes *)
  Lemma rot0_row_hit j a b d : 0 <= a < w -> b = Z.max 0 (j - 1) ->
    last_write (flat_map (fun i => rot0_writes i j) (zrange 0 w)) a b d
    = match rot0_col w a with Some i => pixel_at img i j | None => d end.
  Proof.
    intros Ha ->. pose proof e_val as Ee. unfold rot0_col.
    assert (Hm : forall i, (i + e - 1 <> a) -> Z.max 0 (i + e) <> a -> misses (rot0_writes i j) a (Z.max 0 (j - 1))).
    { intros i H1 H2 wr Hwr. unfold rot0_writes in Hwr. unfold hits.
      destruct (1 <=? i + e); cbn [In] in Hwr; [destruct Hwr as [<-|[<-|[]]]|destruct Hwr as [<-|[]]]; cbn [fst snd]; lia. }
    assert (Hh2 : forall i d, 1 <= i + e -> i + e - 1 = a -> last_write (rot0_writes i j) a (Z.max 0 (j - 1)) d = pixel_at img i j).
    { intros i d' H1 H2. unfold rot0_writes. replace (1 <=? i + e) with true by lia. cbn [last_write fold_left].
      unfold hits. cbn [fst snd]. rewrite H2, !Z.eqb_refl. reflexivity. }
    assert (Hh1 : forall i d, Z.max 0 (i + e) = a -> last_write (rot0_writes i j) a (Z.max 0 (j - 1)) d = pixel_at img i j).
    { intros i d' H1. unfold rot0_writes. destruct (Z.leb_spec 1 (i + e)); cbn [last_write fold_left]; unfold hits; cbn [fst snd];
        rewrite H1, !Z.eqb_refl; cbn [andb]; [|reflexivity]. destruct ((i + e - 1 =? a) && true); reflexivity. }
    destruct (Z.odd w) eqn:Eo.
    - destruct (Z.le_gt_cases (a + 1) (w - 1)) as [H|H].
      + rewrite Z.min_l by lia. apply (last_write_zrange _ _ _ _ _ _ (a + 1)); [lia| |].
        * intros k Hk. apply Hm; lia.
        * intros d'. apply Hh2; lia.
      + rewrite Z.min_r by lia. apply (last_write_zrange _ _ _ _ _ _ (w - 1)); [lia| |].
        * intros k Hk. lia.
        * intros d'. apply Hh1; lia.
    - assert (Ew : w <> 1) by (intros E1; rewrite E1 in Eo; discriminate).
      destruct (Z.ltb_spec (a + 2) w) as [H|H]; [|destruct (Z.ltb_spec (a + 1) w) as [H'|H']].
      + apply (last_write_zrange _ _ _ _ _ _ (a + 2)); [lia| |].
        * intros k Hk. apply Hm; lia.
        * intros d'. apply Hh2; lia.
      + apply (last_write_zrange _ _ _ _ _ _ (a + 1)); [lia| |].
        * intros k Hk. lia.
        * intros d'. apply Hh1; lia.
      + apply last_write_miss. apply misses_flat_map. intros i Hi. apply in_zrange in Hi. apply Hm; lia.
  Qed.
  Lemma rot0_row_miss j a b : b <> Z.max 0 (j - 1) -> misses (flat_map (fun i => rot0_writes i j) (zrange 0 w)) a b.
  Proof.
    intros Hb. apply misses_flat_map. intros i _ wr Hwr. unfold rot0_writes in Hwr. unfold hits.
    destruct (1 <=? i + e); cbn [In] in Hwr; [destruct Hwr as [<-|[<-|[]]]|destruct Hwr as [<-|[]]]; cbn [fst snd]; lia.
  Qed.
End Rot0.

(** rotate by 0 degrees: what really comes out.  (The hypotheses on the math library are
    what IEEE sin and cos return for 0.) *)
Theorem C24_rotate_0 p lm (img : image f32) :
  wf img -> 1 <= width (info_of img) < 8388608 -> 1 <= height (info_of img) < 8388608 ->
  sinf lm f32_0 = f32_0 -> cosf lm f32_0 = f32_1 ->
  exists out, rotate p lm img f32_0 = Ret out /\ wf out /\ info_of out = info_of img
    /\ forall a b, inside img a b ->
       pixel_at out a b
       = match rot0_col (width (info_of img)) a, rot0_row (height (info_of img)) b with
         | Some i, Some j => pixel_at img i j
         | _, _ => repeat f32_0 (Z.to_nat (channels (info_of img)))
         end.
Proof.
  intros Hwf Hw Hh Hs Hc.
  assert (Hr : f32_to_radians f32_0 = f32_0) by (apply B2SF_inj; vm_compute; reflexivity).
  destruct (rot0_loop p img Hwf Hw Hh f32_0 f32_1 isZ_0 isZ_1) as [out (E & W & I & P)].
  exists out. split; [unfold rotate; rewrite Hr, Hs, Hc; exact E|]. conj; auto. intros a b [Ha Hb]. rewrite P by (split; assumption). clear P.
  set (w := width (info_of img)) in *. set (h := height (info_of img)) in *.
  set (z := repeat f32_0 (Z.to_nat (channels (info_of img)))).
  unfold rot0_row. destruct (Z.eqb_spec h 1) as [H1|H1]; [|destruct (Z.ltb_spec (b + 1) h) as [H2|H2]].
  - rewrite H1. change (zrange 0 1) with [0]. cbn [flat_map]. rewrite app_nil_r.
    rewrite rot0_row_hit by lia. fold w. destruct (rot0_col w a); reflexivity.
  - (* the last row that writes to row b is b + 1 *)
    rewrite (zrange_app 0 (b + 1) h) by lia. rewrite flat_map_app, last_write_app.
    rewrite (zrange_cons (b + 1) h) by lia. cbn [flat_map]. rewrite last_write_app.
    rewrite rot0_row_hit by lia. fold w.
    rewrite (last_write_miss (flat_map _ (zrange (b + 1 + 1) h))).
    + destruct (rot0_col w a) as [i|] eqn:Ecol; [reflexivity|].
      destruct (Z.eq_dec b 0) as [-> |Hb0].
      * change (zrange 0 (0 + 1)) with [0]. cbn [flat_map]. rewrite app_nil_r. rewrite rot0_row_hit by lia.
        fold w. rewrite Ecol. reflexivity.
      * apply last_write_miss, misses_flat_map. intros j Hj. apply in_zrange in Hj. apply rot0_row_miss. lia.
    + apply misses_flat_map. intros j Hj. apply in_zrange in Hj. apply rot0_row_miss. lia.
  - (* no row writes to the last row *)
    rewrite last_write_miss; [destruct (rot0_col w a); reflexivity|].
    apply misses_flat_map. intros j Hj. apply in_zrange in Hj. apply rot0_row_miss. lia.
Qed.

(** The documented identity is false: for every image with at least two rows whose last row is
    not black, rotating by 0 degrees changes the image. *)
Theorem C24_identity_refuted p lm (img : image f32) a :
  wf img -> 1 <= width (info_of img) < 8388608 -> 2 <= height (info_of img) < 8388608 ->
  sinf lm f32_0 = f32_0 -> cosf lm f32_0 = f32_1 ->
  inside img a (height (info_of img) - 1) ->
  pixel_at img a (height (info_of img) - 1) <> repeat f32_0 (Z.to_nat (channels (info_of img))) ->
  rotate p lm img f32_0 <> Ret img.
Proof.
  intros Hwf Hw Hh Hs Hc Ha Hne E.
  destruct (C24_rotate_0 p lm img Hwf Hw ltac:(lia) Hs Hc) as [out (E' & _ & _ & P)].
  rewrite E in E'. injection E' as <-. apply Hne. rewrite (P _ _ Ha) at 1. unfold rot0_row.
  destruct (Z.eqb_spec (height (info_of img)) 1) as [H1|H1]; [lia|].
  destruct (Z.ltb_spec (height (info_of img) - 1 + 1) (height (info_of img))) as [H2|H2]; [lia|].
  destruct (rot0_col (width (info_of img)) a); reflexivity.
Qed.
(** a math library with the right values at 0 *)
Definition lm_id : libm := Libm (fun x _ => x) (fun x => x) (fun _ => f32_1).
Definition ex_rot : image f32 := Image (Info 2 3 1 false) (map f32_of_Z [1; 2; 3; 4; 5; 6]).
Example C24_example : wfb ex_rot = true /\ sinf lm_id f32_0 = f32_0 /\ cosf lm_id f32_0 = f32_1
  /\ match rotate Debug lm_id ex_rot f32_0 with
     | Ret out => map (f32_to_int I32) (data out) = [4; 0; 6; 0; 0; 0] | _ => False end.
Proof. conj; [vm_compute; reflexivity|reflexivity|reflexivity|vm_compute; reflexivity]. Qed.

(** ** C25 *)
(** where shear(a,b) puts input pixel (x,y) of a w x h image, for integer factors *)
Definition shear_x (a h x y : Z) : Z := x - a * y + (if 0 <? a then a * h else 0).
Definition shear_y (b w x y : Z) : Z := y - b * x + (if 0 <? b then b * w else 0).

Lemma shear_bound a h w x y : 0 <= x < w -> 0 <= y < h -> 0 <= shear_x a h x y < w + Z.abs a * h.
Proof. unfold shear_x. intros. destruct (Z.ltb_spec 0 a); nia. Qed.
Lemma shear_inj a b w h x y x' y' : a * b <> 1 ->
  shear_x a h x y = shear_x a h x' y' -> shear_y b w x y = shear_y b w x' y' -> x = x' /\ y = y'.
Proof.
  unfold shear_x, shear_y. intros Hab E1 E2.
  assert (A : (x - x') = a * (y - y')) by lia. assert (B : (y - y') = b * (x - x')) by lia.
  assert (C : (1 - a * b) * (y - y') = 0) by (rewrite A in B; lia).
  apply Z.mul_eq_0 in C. destruct C as [C|C]; [lia|]. rewrite C in A. lia.
Qed.
Lemma mul_le_abs a y h : 0 <= y <= h -> Z.abs (a * y) <= Z.abs a * h.
Proof. intros H. rewrite Z.abs_mul, (Z.abs_eq y) by lia. apply Z.mul_le_mono_nonneg_l; lia. Qed.

Section Shear.
  Context (p : profile) (img : image f32) (Hwf : wf img) (sx sy : f32) (a b : Z) (Ha : isZ sx a) (Hb : isZ sy b).
  Let w := width (info_of img).
  Let h := height (info_of img).
  Let inf := Info (w + Z.abs a * h) (Z.abs b * w + h) (channels (info_of img)) (alpha (info_of img)).
  Context (Hok : info_ok inf) (Hw : w + Z.abs a * h <= 16777216) (Hh : Z.abs b * w + h <= 16777216).

  Lemma shear_loop :
    exists out, shear p img sx sy = Ret out /\ wf out /\ info_of out = inf
      /\ forall u v, 0 <= u < width inf -> 0 <= v < height inf -> pixel_at out u v
         = last_write (flat_map (fun y => flat_map (fun x => [(shear_x a h x y, shear_y b w x y, pixel_at img x y)]) (zrange 0 w)) (zrange 0 h)) u v
             (repeat f32_0 (Z.to_nat (channels (info_of img)))).
  Proof.
    destruct Hwf as [Hw0 Hh0 HC Hsz Hfull Hd]. fold w in Hw0, Hsz. fold h in Hh0, Hsz. unfold u32_max in *.
    assert (P1 : 0 <= Z.abs a * h) by nia. assert (P2 : 0 <= Z.abs b * w) by nia.
    unfold shear. fold w h.
    assert (ZF : forall z, Z.abs z <= 16777216 -> isZ (f32_of_Z z) z) by (intros; apply of_Z_isZ; assumption).
    pose proof (mul_le_abs a h h ltac:(lia)) as M1. pose proof (mul_le_abs b w w ltac:(lia)) as M2.
    assert (Ox : isZ (f32_abs (f32_mul (f32_of_Z h) sx)) (Z.abs a * h)).
    { replace (Z.abs a * h) with (Z.abs (h * a)) by (rewrite Z.abs_mul, (Z.abs_eq h) by lia; lia).
      apply abs_isZ, mul_isZ; [apply ZF; lia|exact Ha|lia]. }
    assert (Oy : isZ (f32_abs (f32_mul (f32_of_Z w) sy)) (Z.abs b * w)).
    { replace (Z.abs b * w) with (Z.abs (w * b)) by (rewrite Z.abs_mul, (Z.abs_eq w) by lia; lia).
      apply abs_isZ, mul_isZ; [apply ZF; lia|exact Hb|lia]. }
    match type of Ox with isZ ?m _ => set (ox := m) in * end. match type of Oy with isZ ?m _ => set (oy := m) in * end.
    rewrite (to_u32_Z ox _ Ox), (to_u32_Z oy _ Oy) by lia. rewrite !Z.max_r by lia.
    rewrite iadd_ok by (cbn; lia). cbn [bind]. rewrite iadd_ok by (cbn; lia). cbn [bind]. fold inf.
    rewrite (blank_ok p num_f32 inf Hok). cbn [bind].
    match goal with |- context [mfold _ _ ?bb] => set (bl := bb) in * end.
    assert (Wb : wf bl) by (apply (blank_wf num_f32), Hok).
    assert (Ib : info_of bl = inf) by reflexivity.
    assert (Z0 : isZ f32_0 0) by apply isZ_0. assert (Z1 : isZ f32_1 1) by apply isZ_1.
    edestruct (loop_writes p (fun x y => [(shear_x a h x y, shear_y b w x y, pixel_at img x y)])) as [out (E & W & I & P)]; cycle 3.
    - exists out. conj; [exact E|exact W|exact I|]. intros u v Hu Hv. rewrite P by (split; assumption). f_equal.
      unfold bl. apply (pixel_at_blank _ inf); assumption.
    - exact Wb.
    - intros im x y Hx Hy Him Wim. cbv beta. rewrite vec2_mut. cbn [bind]. rewrite vget_0, bind_Ret, vget_1, bind_Ret.
      pose proof (shear_bound a h w x y Hx Hy) as Bx. pose proof (shear_bound b w h y x Hy Hx) as By.
      pose proof (mul_le_abs a y h ltac:(lia)) as Ay. pose proof (mul_le_abs b x w ltac:(lia)) as Bb.
      assert (C0 : isZ (f32_add (f32_add f32_0 (f32_mul f32_1 (f32_of_Z x))) (f32_mul (f32_neg sx) (f32_of_Z y))) (x - a * y)).
      { replace (x - a * y) with (1 * x + - a * y) by lia. apply row_Z; try assumption; try (apply ZF; lia); try (apply neg_isZ; assumption).
        all: rewrite ?Z.mul_opp_l, ?Z.abs_opp; lia. }
      assert (C1 : isZ (f32_add (f32_add f32_0 (f32_mul (f32_neg sy) (f32_of_Z x))) (f32_mul f32_1 (f32_of_Z y))) (y - b * x)).
      { replace (y - b * x) with (- b * x + 1 * y) by lia. apply row_Z; try assumption; try (apply ZF; lia); try (apply neg_isZ; assumption).
        all: rewrite ?Z.mul_opp_l, ?Z.abs_opp; lia. }
      match type of C0 with isZ ?m _ => set (c0 := m) in * end. match type of C1 with isZ ?m _ => set (c1 := m) in * end.
      clearbody c0 c1.
      cbv zeta. rewrite (gtb_isZ sx f32_0 a 0 Ha Z0), (gtb_isZ sy f32_0 b 0 Hb Z0).
      assert (D0 : isZ (if 0 <? a then f32_add c0 ox else c0) (shear_x a h x y)).
      { revert Bx. unfold shear_x. destruct (Z.ltb_spec 0 a); intros Bx; [|rewrite Z.add_0_r; exact C0].
        replace (a * h) with (Z.abs a * h) in * by (rewrite Z.abs_eq by lia; reflexivity). apply add_isZ; [exact C0|exact Ox|lia]. }
      assert (D1 : isZ (if 0 <? b then f32_add c1 oy else c1) (shear_y b w x y)).
      { revert By. unfold shear_x, shear_y. destruct (Z.ltb_spec 0 b); intros By; [|rewrite Z.add_0_r; exact C1].
        replace (b * w) with (Z.abs b * w) in * by (rewrite Z.abs_eq by lia; reflexivity). apply add_isZ; [exact C1|exact Oy|lia]. }
      assert (K0 := to_u32_Z _ _ D0 ltac:(lia)). rewrite Z.max_r in K0 by lia.
      assert (K1 := to_u32_Z _ _ D1 ltac:(unfold shear_x, shear_y in *; lia)). rewrite Z.max_r in K1 by (unfold shear_x, shear_y in *; lia).
      rewrite (get_pixel_ok img Hwf p x y) by (split; assumption). rewrite bind_Ret. cbn [mfold fst snd].
      destruct (0 <? a), (0 <? b); rewrite K0, K1;
        destruct (set_pixel p im (shear_x a h x y) (shear_y b w x y) (pixel_at img x y)); reflexivity.
    - intros x y wr Hx Hy Hwr. destruct Hwr as [<-|[]]. unfold inside. rewrite Ib. cbn [fst snd inf width height channels].
      pose proof (shear_bound a h w x y Hx Hy). pose proof (shear_bound b w h y x Hy Hx) as By. unfold shear_x at 1 2 in By.
      unfold shear_y. split; [lia|]. apply pixel_at_len; [exact Hwf|split; assumption].
  Qed.
End Shear.

(** Integer shear factors: the output has the enlarged size, pixel (x,y) is found at its sheared
    position, and every other pixel is zero. *)
Theorem C25_integer_factors p (img : image f32) a b :
  wf img ->
  let w := width (info_of img) in let h := height (info_of img) in
  w + Z.abs a * h <= 16777216 -> h + Z.abs b * w <= 16777216 -> Z.abs a <= 16777216 -> Z.abs b <= 16777216 ->
  (w + Z.abs a * h) * (h + Z.abs b * w) * Z.max 1 (channels (info_of img)) <= u32_max ->
  a * b <> 1 ->
  exists out, shear p img (f32_of_Z a) (f32_of_Z b) = Ret out /\ wf out
    /\ info_of out = Info (w + Z.abs a * h) (h + Z.abs b * w) (channels (info_of img)) (alpha (info_of img))
    /\ (forall x y, inside img x y ->
          inside out (shear_x a h x y) (shear_y b w x y)
          /\ pixel_at out (shear_x a h x y) (shear_y b w x y) = pixel_at img x y)
    /\ (forall u v, inside out u v -> (forall x y, inside img x y -> ~ (u = shear_x a h x y /\ v = shear_y b w x y)) ->
          pixel_at out u v = repeat f32_0 (Z.to_nat (channels (info_of img)))).
Proof.
  intros Hwf w h Hw Hh Haa Hbb Hfit Hab. pose proof Hwf as [Hw0 Hh0 HC Hsz Hfull Hd]. fold w in Hw0. fold h in Hh0.
  unfold u32_max in *.
  assert (P1 : 0 <= Z.abs a * h) by (apply Z.mul_nonneg_nonneg; lia). assert (P2 : 0 <= Z.abs b * w) by (apply Z.mul_nonneg_nonneg; lia).
  rewrite (Z.add_comm h (Z.abs b * w)) in *.
  set (W := w + Z.abs a * h) in *. set (H := Z.abs b * w + h) in *. set (c := channels (info_of img)) in *.
  assert (Q : 0 <= W * H) by (apply Z.mul_nonneg_nonneg; lia).
  destruct (shear_loop p img Hwf (f32_of_Z a) (f32_of_Z b) a b (of_Z_isZ a Haa) (of_Z_isZ b Hbb)) as [out (E & Wo & I & P)].
  { unfold info_ok. cbn [width height channels]. fold w h. fold W H c. unfold u32_max. conj; try lia.
    - apply (Z.le_trans _ (W * H * Z.max 1 c)); [|exact Hfit]. clear - Q. nia.
    - apply (Z.le_trans _ (W * H * Z.max 1 c)); [|exact Hfit]. apply Z.mul_le_mono_nonneg_l; lia. }
  { exact Hw. } { exact Hh. }
  fold w h c in I, P. fold W H in I, P. cbn [width height] in P.
  exists out. conj; auto.
  - intros x y [Hx Hy]. fold w in Hx. fold h in Hy.
    pose proof (shear_bound a h w x y Hx Hy) as Bx. pose proof (shear_bound b w h y x Hy Hx) as By.
    assert (By' : 0 <= shear_y b w x y < H) by (unfold shear_x in By; unfold shear_y; lia). fold W in Bx.
    split; [unfold inside; rewrite I; cbn; lia|]. rewrite P by assumption.
    apply (last_write_zrange _ _ _ _ _ _ y); [lia| |].
    + intros y' Hy'. apply misses_flat_map. intros x' _ wr [<-|[]]. unfold hits. cbn [fst snd].
      apply andb_false_iff. destruct (Z.eqb_spec (shear_x a h x' y') (shear_x a h x y)) as [E1|E1]; [right|left; reflexivity].
      apply Z.eqb_neq. intros E2. destruct (shear_inj a b w h x' y' x y Hab E1 E2). lia.
    + intros d. apply (last_write_zrange _ _ _ _ _ _ x); [lia| |].
      * intros x' Hx' wr [<-|[]]. unfold hits. cbn [fst snd].
        apply andb_false_iff. destruct (Z.eqb_spec (shear_x a h x' y) (shear_x a h x y)) as [E1|E1]; [right|left; reflexivity].
        apply Z.eqb_neq. intros E2. destruct (shear_inj a b w h x' y x y Hab E1 E2). lia.
      * intros d'. cbn [last_write fold_left]. unfold hits. cbn [fst snd]. rewrite !Z.eqb_refl. reflexivity.
  - intros u v [Hu Hv] Hno. rewrite I in Hu, Hv. cbn in Hu, Hv. rewrite P by assumption.
    apply last_write_miss, misses_flat_map. intros y Hy. apply misses_flat_map. intros x Hx wr [<-|[]].
    apply in_zrange in Hx, Hy. unfold hits. cbn [fst snd].
    specialize (Hno x y ltac:(split; [exact Hx|exact Hy])).
    apply andb_false_iff. destruct (Z.eqb_spec (shear_x a h x y) u) as [E1|E1]; [right|left; reflexivity].
    apply Z.eqb_neq. intros E2. apply Hno. auto.
Qed.

Theorem C25_zero_identity p (img : image f32) :
  wf img -> width (info_of img) <= 16777216 -> height (info_of img) <= 16777216 ->
  shear p img f32_0 f32_0 = Ret img.
Proof.
  intros Hwf Hw Hh. pose proof Hwf as [Hw0 Hh0 HC Hsz Hfull Hd].
  destruct (C25_integer_factors p img 0 0 Hwf) as [out (E & W & I & S & _)]; try lia.
  change f32_0 with (f32_of_Z 0). rewrite E. f_equal. 
  replace (width (info_of img) + Z.abs 0 * height (info_of img)) with (width (info_of img)) in I by lia.
  replace (height (info_of img) + Z.abs 0 * width (info_of img)) with (height (info_of img)) in I by lia.
  assert (I' : info_of out = info_of img) by (rewrite I; destruct (info_of img); reflexivity).
  apply image_ext; auto.
  intros x y Hin. assert (Hin' : inside img x y) by (unfold inside in *; rewrite I' in Hin; exact Hin).
  destruct (S x y Hin') as [_ Sx]. rewrite <- Sx. f_equal; unfold shear_x, shear_y; cbn; lia.
Qed.

(** Totality is false: a factor just below 1 makes shear panic on a one-row image. *)
Definition below_one : f32 := f32_sub f32_1 (f32_div f32_1 (f32_of_Z 16777216)).
Definition ex_shear : image f32 := Image (Info 4 1 1 false) (map f32_of_Z [1; 2; 3; 4]).
Theorem C25_total_refuted p : wfb ex_shear = true /\ f32_ltb below_one f32_1 = true /\ f32_ltb f32_0 below_one = true
  /\ shear p ex_shear below_one f32_0 = Panic.
Proof. destruct p; conj; vm_compute; reflexivity. Qed.
Example C25_example : wfb ex_rot = true /\ 2 * -1 <> 1
  /\ match shear Debug ex_rot (f32_of_Z 1) (f32_of_Z 0) with
     | Ret out => map (f32_to_int I32) (data out) = [0; 0; 0; 1; 2; 0; 0; 3; 4; 0; 0; 5; 6; 0; 0] | _ => False end.
Proof. conj; try lia; vm_compute; reflexivity. Qed.
