(** Arithmetic of the 8-bit HSV conversions. *)
From Verif.Model Require Import Colorspace.
From Verif.Spec Require Export HsvS.
From Verif.Proofs Require Export ToneL.
Open Scope Z_scope.

Lemma quot_bound n d m : 0 < d -> Z.abs n <= m * d -> - m <= Z.quot n d <= m.
Proof.
  intros Hd Hn. destruct (Z_le_dec 0 n).
  - rewrite Z.quot_div_nonneg by lia. split.
    + assert (0 <= n / d) by (apply Z.div_pos; lia). assert (0 <= m) by nia. lia.
    + apply Z.div_le_upper_bound; lia.
  - replace n with (- - n) by lia. rewrite Z.quot_opp_l by lia. rewrite Z.quot_div_nonneg by lia.
    assert (0 <= - n / d) by (apply Z.div_pos; lia).
    assert (- n / d <= m) by (apply Z.div_le_upper_bound; lia). lia.
Qed.

Lemma idiv_quot t a b : b <> 0 -> lo t <= Z.quot a b <= hi t -> idiv t a b = Ret (Z.quot a b).
Proof.
  intros Hb Hr. unfold idiv. replace (b =? 0) with false by lia.
  unfold in_ity. replace ((lo t <=? a ÷ b) && (a ÷ b <=? hi t)) with true by lia. reflexivity.
Qed.

Section Px.
  Context (p : profile) (r g b : Z) (Hr : is_u8 r) (Hg : is_u8 g) (Hb : is_u8 b).
  Notation M := (max3 r g b).
  Notation m := (min3 r g b).

  Lemma mm : 0 <= m /\ m <= M /\ M <= 255 /\ m <= r <= M /\ m <= g <= M /\ m <= b <= M.
  Proof. unfold is_u8, max3, min3 in *. lia. Qed.

  Lemma sat_range : 0 <= hsv_saturation r g b <= 255.
  Proof.
    pose proof mm. unfold hsv_saturation. destruct (Z.eqb_spec M 0) as [E|E]; [lia|]. split.
    - apply Z.div_pos; lia.
    - apply Z.div_le_upper_bound; lia.
  Qed.

  Lemma hue_cases : M - m <> 0 ->
    - 43 <= Z.quot (43 * (g - b)) (M - m) <= 43 /\ - 43 <= Z.quot (43 * (b - r)) (M - m) <= 43
    /\ - 43 <= Z.quot (43 * (r - g)) (M - m) <= 43.
  Proof. intros Hd. pose proof mm. split; [|split]; apply (quot_bound _ _ 43); lia. Qed.

  Lemma hue_range : 0 <= hsv_hue r g b <= 254.
  Proof.
    pose proof mm. unfold hsv_hue. cbv zeta. destruct (Z.eqb_spec (M - m) 0) as [E|E]; [lia|].
    destruct (hue_cases E) as [H1 [H2 H3]].
    destruct (M =? r); [|destruct (M =? g)]; match goal with |- context [if ?c then _ else _] => destruct c eqn:Ec end; lia.
  Qed.

  Lemma rgb_to_hsv_px_ok : rgb_to_hsv_px p [r; g; b] = Ret (hsv_of [r; g; b]).
  Proof.
    pose proof mm as Hmm. pose proof sat_range as HS. pose proof hue_range as HH. pose proof hue_cases as HC.
    unfold rgb_to_hsv_px.
    change (vget [r; g; b] 0) with (Ret r). change (vget [r; g; b] 1) with (Ret g). change (vget [r; g; b] 2) with (Ret b).
    rewrite !bind_Ret. cbv zeta. change (Z.max (Z.max r g) b) with M. change (Z.min (Z.min r g) b) with m.
    unfold hsv_of, hsv_value. unfold hsv_saturation, hsv_hue in *. cbv zeta in *.
    remember M as mx. remember m as mn. clear Heqmx Heqmn.
    rewrite isub_ok by ity_lia. rewrite bind_Ret.
    assert (Es : (if negb (mx =? 0) then let! t := imul p I32 255 (mx - mn) in idiv I32 t mx else Ret 0)
                 = Ret (if mx =? 0 then 0 else 255 * (mx - mn) / mx)).
    { destruct (Z.eqb_spec mx 0) as [E|E]; [reflexivity|]. cbn [negb]. rewrite imul_ok by ity_lia. rewrite bind_Ret.
      apply idiv_ok; ity_lia. }
    rewrite Es, bind_Ret. clear Es.
    set (S := if mx =? 0 then 0 else 255 * (mx - mn) / mx) in *. clearbody S.
    destruct (Z.eqb_spec (mx - mn) 0) as [E|E].
    - replace (negb true) with false by reflexivity. rewrite bind_Ret. cbn [negb]. 
      change (0 <? 0) with false. change (255 <? 0) with false. cbv iota. rewrite bind_Ret.
      rewrite !cast_id by ity_lia. reflexivity.
    - replace (negb false) with true by reflexivity. cbv iota. destruct (HC E) as [H1 [H2 H3]]. clear HC.
      destruct (Z.eqb_spec mx r) as [Er|Er]; [|destruct (Z.eqb_spec mx g) as [Eg|Eg]].
      + rewrite isub_ok by ity_lia. rewrite bind_Ret. rewrite imul_ok by ity_lia. rewrite bind_Ret.
        rewrite idiv_quot by ity_lia. rewrite bind_Ret.
        set (q := Z.quot (43 * (g - b)) (mx - mn)) in *. clearbody q.
        destruct (Z.ltb_spec q 0) as [Hq|Hq].
        * rewrite iadd_ok by ity_lia. rewrite bind_Ret. rewrite !cast_id by ity_lia. reflexivity.
        * replace (255 <? q) with false by lia. rewrite bind_Ret. rewrite !cast_id by ity_lia. reflexivity.
      + rewrite isub_ok by ity_lia. rewrite bind_Ret. rewrite imul_ok by ity_lia. rewrite bind_Ret.
        rewrite idiv_quot by ity_lia. rewrite bind_Ret. rewrite iadd_ok by ity_lia. rewrite bind_Ret.
        set (q := Z.quot (43 * (b - r)) (mx - mn)) in *. clearbody q.
        replace (85 + q <? 0) with false in * by lia. replace (255 <? 85 + q) with false by lia.
        rewrite bind_Ret. rewrite !cast_id by ity_lia. reflexivity.
      + rewrite isub_ok by ity_lia. rewrite bind_Ret. rewrite imul_ok by ity_lia. rewrite bind_Ret.
        rewrite idiv_quot by ity_lia. rewrite bind_Ret. rewrite iadd_ok by ity_lia. rewrite bind_Ret.
        set (q := Z.quot (43 * (r - g)) (mx - mn)) in *. clearbody q.
        replace (170 + q <? 0) with false in * by lia. replace (255 <? 170 + q) with false by lia.
        rewrite bind_Ret. rewrite !cast_id by ity_lia. reflexivity.
  Qed.
End Px.

Lemma prod_range a b : 0 <= a <= 255 -> 0 <= b <= 255 -> 0 <= a * b <= 65025.
Proof. nia. Qed.
Lemma level_range v x : is_u8 v -> 0 <= x <= 255 -> 0 <= level v x <= v.
Proof.
  unfold is_u8, level. intros. split.
  - apply Z.div_pos; nia.
  - apply Z.div_le_upper_bound; nia.
Qed.
Lemma level_anti v x y : is_u8 v -> x <= y -> level v y <= level v x.
Proof. unfold is_u8, level. intros. apply Z.div_le_mono; nia. Qed.

Section Back.
  Context (p : profile) (h s v : Z) (Hh : is_u8 h) (Hs : is_u8 s) (Hv : is_u8 v).
  Notation f := (6 * (h mod 43)).

  Lemma f_range : 0 <= f <= 252 /\ 0 <= h / 43 <= 5.
  Proof.
    unfold is_u8 in *. pose proof (Z.mod_pos_bound h 43). split; [lia|].
    split; [apply Z.div_pos; lia|]. assert (h / 43 < 6); [|lia]. apply Z.div_lt_upper_bound; lia.
  Qed.
  Lemma sf_range x : 0 <= x <= 255 -> 0 <= s * x / 255 <= s.
  Proof.
    unfold is_u8 in *. intros. split; [apply Z.div_pos; nia|]. apply Z.div_le_upper_bound; nia.
  Qed.

  Lemma hsv_to_rgb_px_ok : hsv_to_rgb_px p [h; s; v] = Ret (rgb_of [h; s; v]).
  Proof.
    pose proof f_range as [Hf Hk]. unfold hsv_to_rgb_px, rgb_of. cbv zeta.
    change (vget [h; s; v] 0) with (Ret h). change (vget [h; s; v] 1) with (Ret s). change (vget [h; s; v] 2) with (Ret v).
    rewrite !bind_Ret. destruct (Z.eqb_spec s 0) as [E|E]; [reflexivity|].
    unfold is_u8 in *.
    assert (Hl : forall x, 0 <= x <= 255 ->
      (let! d := isub p I32 255 x in let! m := imul p I32 v d in let! q := idiv I32 m 255 in Ret (cast U8 q))
      = Ret (level v x)).
    { intros x Hx. rewrite isub_ok by ity_lia. rewrite bind_Ret. pose proof (prod_range v (255 - x) Hv ltac:(lia)) as Hpr.
      rewrite imul_ok by ity_lia. rewrite bind_Ret.
      pose proof (level_range v x Hv Hx) as Hr. unfold level in *. rewrite idiv_ok by ity_lia. rewrite bind_Ret.
      rewrite cast_id by ity_lia. reflexivity. }
    rewrite idiv_ok by ity_lia. rewrite bind_Ret. rewrite imul_ok by ity_lia. rewrite bind_Ret.
    rewrite isub_ok by (cbn; pose proof (Z.div_mod h 43); lia). rewrite bind_Ret.
    replace (h - h / 43 * 43) with (h mod 43) by (pose proof (Z.div_mod h 43); lia).
    rewrite imul_ok by ity_lia. rewrite bind_Ret. replace (h mod 43 * 6) with f by lia.
    rewrite Hl by lia. rewrite bind_Ret.
    pose proof (prod_range s f Hs ltac:(lia)). pose proof (prod_range s (255 - f) Hs ltac:(lia)).
    rewrite imul_ok by ity_lia. rewrite bind_Ret. rewrite idiv_ok by ity_lia. rewrite bind_Ret.
    rewrite Hl by (pose proof (sf_range f); lia). rewrite bind_Ret.
    rewrite isub_ok by ity_lia. rewrite bind_Ret.
    rewrite imul_ok by ity_lia. rewrite bind_Ret. rewrite idiv_ok by ity_lia. rewrite bind_Ret.
    rewrite Hl by (pose proof (sf_range (255 - f)); lia). rewrite bind_Ret.
    rewrite cast_id by ity_lia. f_equal.
    assert (Hc : h / 43 = 0 \/ h / 43 = 1 \/ h / 43 = 2 \/ h / 43 = 3 \/ h / 43 = 4 \/ h / 43 = 5) by lia.
    destruct Hc as [->|[->|[->|[->|[->| ->]]]]]; reflexivity.
  Qed.

  (** maximum v, minimum v(255-s)/255 *)
  Lemma rgb_of_max : exists r g b, rgb_of [h; s; v] = [r; g; b] /\ is_u8 r /\ is_u8 g /\ is_u8 b
    /\ max3 r g b = v /\ min3 r g b = level v s.
  Proof.
    pose proof f_range as [Hf Hk]. unfold rgb_of. cbv zeta.
    assert (Hp := level_range v s Hv Hs).
    pose proof (sf_range f ltac:(lia)) as Hq. pose proof (sf_range (255 - f) ltac:(lia)) as Ht.
    unfold is_u8 in Hs, Hv.
    assert (Hq1 := level_range v (s * f / 255) Hv ltac:(lia)).
    assert (Ht1 := level_range v (s * (255 - f) / 255) Hv ltac:(lia)).
    assert (Hq2 := level_anti v (s * f / 255) s Hv ltac:(lia)).
    assert (Ht2 := level_anti v (s * (255 - f) / 255) s Hv ltac:(lia)).
    destruct (Z.eqb_spec s 0) as [E|E].
    - exists v, v, v. split; [reflexivity|].
      assert (El : level v s = v) by (rewrite E; unfold level; rewrite Z.sub_0_r; apply Z.div_mul; lia).
      rewrite El. unfold is_u8, max3, min3. lia.
    - assert (Hc : h / 43 = 0 \/ h / 43 = 1 \/ h / 43 = 2 \/ h / 43 = 3 \/ h / 43 = 4 \/ h / 43 = 5) by lia.
      set (q := level v (s * f / 255)) in *. set (t := level v (s * (255 - f) / 255)) in *. set (pp := level v s) in *.
      destruct Hc as [->|[->|[->|[->|[->| ->]]]]]; (do 3 eexists; split; [reflexivity|]); unfold is_u8, max3, min3; lia.
  Qed.
End Back.

(** ** Round trip *)
Section Round.
  Context (M m : Z) (Hm : 0 <= m) (HMm : m < M) (HM : M <= 255).
  Notation R := (M - m).
  Notation S := (255 * (M - m) / M).

  Lemma S_bounds : S * M <= 255 * R < (S + 1) * M /\ 1 <= S <= 255.
  Proof.
    pose proof (Z.div_mod (255 * R) M) as Hd. pose proof (Z.mod_pos_bound (255 * R) M) as Hb.
    split; [nia|]. split; [apply Z.div_le_lower_bound; nia|apply Z.div_le_upper_bound; nia].
  Qed.
  Lemma level_S : level M S = m.
  Proof.
    pose proof S_bounds as [H1 H2]. unfold level. symmetry. apply (Z.div_unique_pos _ _ _ (M * (255 - S) - 255 * m)); nia.
  Qed.
  (** the third channel, scaled by 255 *)
  Lemma level_mid f : 0 <= f <= 255 ->
    255 * m + R * f - 255 < 255 * level M (S * (255 - f) / 255)
    /\ 255 * (255 * level M (S * (255 - f) / 255)) <= 255 * (255 * m + R * f) + M * (255 - f) + 254 * M.
  Proof.
    intros Hf. pose proof S_bounds as [H1 H2].
    set (s := S) in *. clearbody s.
    pose proof (Z.div_mod (s * (255 - f)) 255) as Ha. pose proof (Z.mod_pos_bound (s * (255 - f)) 255) as Hab.
    set (a := s * (255 - f) / 255) in *. clearbody a.
    unfold level. pose proof (Z.div_mod (M * (255 - a)) 255) as Hl. pose proof (Z.mod_pos_bound (M * (255 - a)) 255) as Hlb.
    set (t := M * (255 - a) / 255) in *. clearbody t.
    set (ra := (s * (255 - f)) mod 255) in *. clearbody ra. set (rt := (M * (255 - a)) mod 255) in *. clearbody rt.
    assert (E1 : 255 * (255 * t) = 255 * 255 * M - M * (s * (255 - f)) + M * ra - 255 * rt) by nia.
    assert (E2 : (255 * R - M) * (255 - f) <= M * (s * (255 - f)) <= 255 * R * (255 - f)).
    { replace (M * (s * (255 - f))) with (s * M * (255 - f)) by ring. nia. }
    assert (E3 : 0 <= M * ra <= 254 * M) by nia.
    assert (E4 : M * (255 - f) <= 255 * 255) by nia.
    assert (E5 : 255 * R * (255 - f) = 255 * 255 * R - 255 * (R * f)) by ring.
    split; nia.
  Qed.
End Round.

Lemma rgb_of_sector h s v k : s <> 0 -> 43 * k <= h < 43 * k + 43 ->
  rgb_of [h; s; v] =
    let f := 6 * (h - 43 * k) in
    let p := level v s in let q := level v (s * f / 255) in let t := level v (s * (255 - f) / 255) in
    match k with 0 => [v; t; p] | 1 => [q; v; p] | 2 => [p; v; t] | 3 => [p; q; v] | 4 => [t; p; v] | _ => [v; p; q] end.
Proof.
  intros Hs Hk. unfold rgb_of. replace (s =? 0) with false by lia.
  replace (h / 43) with k by (apply (Z.div_unique_pos _ _ _ (h - 43 * k)); lia).
  replace (h mod 43) with (h - 43 * k) by (apply (Z.mod_unique_pos _ _ k); lia). reflexivity.
Qed.

Definition close (b : Z) (x y : list Z) : Prop := Forall2 (fun u v => Z.abs (u - v) <= b) x y.

Section Trip.
  Context (M m : Z) (Hm : 0 <= m) (HMm : m < M) (HM : M <= 255).
  Notation R := (M - m).
  Notation S := (255 * (M - m) / M).
  Context (d q : Z) (Hd : 0 <= d <= R) (Hq : q = 43 * d / R).

  Lemma q_bounds : q * R <= 43 * d < (q + 1) * R /\ 0 <= q <= 43 /\ (d < R -> q <= 42).
  Proof.
    pose proof (Z.div_mod (43 * d) R) as H1. pose proof (Z.mod_pos_bound (43 * d) R) as H2. rewrite <- Hq in H1.
    split; [nia|]. split; [nia|]. nia.
  Qed.
End Trip.
Definition T M m f := level M (255 * (M - m) / M * (255 - f) / 255).

Lemma T_bounds M m f : 0 <= m -> m < M -> M <= 255 -> 0 <= f <= 255 ->
  255 * m + (M - m) * f - 255 < 255 * T M m f
  /\ 255 * (255 * T M m f) <= 255 * (255 * m + (M - m) * f) + M * (255 - f) + 254 * M.
Proof. intros. unfold T. apply level_mid; assumption. Qed.

Definition near18 (r g b : Z) (px : list Z) : Prop :=
  exists r' g' b', px = [r'; g'; b'] /\ Z.abs (r' - r) <= 18 /\ Z.abs (g' - g) <= 18 /\ Z.abs (b' - b) <= 18.
Lemma near18_intro r g b r' g' b' : Z.abs (r' - r) <= 18 -> Z.abs (g' - g) <= 18 -> Z.abs (b' - b) <= 18 ->
  near18 r g b [r'; g'; b'].
Proof. intros. exists r', g', b'. auto. Qed.

Lemma level_T_t M m f : level M (255 * (M - m) / M * (255 - f) / 255) = T M m f.
Proof. reflexivity. Qed.
Lemma level_T_q M m f : level M (255 * (M - m) / M * f / 255) = T M m (255 - f).
Proof. unfold T. do 3 f_equal. lia. Qed.

Lemma quot_pos a b : 0 <= a -> 0 < b -> Z.quot a b = a / b.
Proof. intros. apply Z.quot_div_nonneg; lia. Qed.
Lemma quot_neg a b : a <= 0 -> 0 < b -> Z.quot a b = - (- a / b).
Proof. intros. replace a with (- - a) at 1 by lia. rewrite Z.quot_opp_l by lia. rewrite quot_pos by lia. reflexivity. Qed.

(** distance of the third channel: T(6q + k) against m + d *)
Lemma mid_close M m d q k : 0 <= m -> m < M -> M <= 255 -> 0 <= d <= M - m ->
  q * (M - m) <= 43 * d < (q + 1) * (M - m) -> 0 <= 6 * q + k <= 255 -> -12 <= k <= 15 -> 0 <= q ->
  Z.abs (T M m (6 * q + k) - (m + d)) <= 18.
Proof.
  intros H1 H2 H3 H4 H5 H6 H7 H8.
  destruct (T_bounds M m (6 * q + k) H1 H2 H3 H6) as [L U].
  set (t := T M m (6 * q + k)) in *. clearbody t.
  assert (HR : 1 <= M - m <= 255) by lia. set (R := M - m) in *.
  replace (R * (6 * q + k)) with (6 * (q * R) + k * R) in L, U by ring.
  assert (HkR1 : -12 * R <= k * R <= 15 * R) by nia.
  assert (t - (m + d) > -19).
  { nia. }
  assert (t - (m + d) < 19); [|lia].
  assert (HMR : M * (255 - (6 * q + k)) <= 255 * (255 - (6 * q + k))) by nia.
  nia.
Qed.

Lemma mid_close_c M m c d q k : c = m + d -> 0 <= m -> m < M -> M <= 255 -> 0 <= d <= M - m ->
  q * (M - m) <= 43 * d < (q + 1) * (M - m) -> 0 <= 6 * q + k <= 255 -> -12 <= k <= 15 -> 0 <= q ->
  Z.abs (T M m (6 * q + k) - c) <= 18.
Proof. intros ->. apply mid_close. Qed.

(** T(f) for large f against M *)
Lemma top_close M m f : 0 <= m -> m < M -> M <= 255 -> 240 <= f <= 255 -> Z.abs (T M m f - M) <= 18.
Proof.
  intros H1 H2 H3 H4. destruct (T_bounds M m f H1 H2 H3 ltac:(lia)) as [L U].
  set (t := T M m f) in *. clearbody t.
  assert (240 * (M - m) <= (M - m) * f <= 255 * (M - m)) by nia. assert (M * (255 - f) <= 15 * 255) by nia. lia.
Qed.
Lemma bottom_close M m f : 0 <= m -> m < M -> M <= 255 -> 0 <= f <= 15 -> Z.abs (T M m f - m) <= 18.
Proof.
  intros H1 H2 H3 H4. destruct (T_bounds M m f H1 H2 H3 ltac:(lia)) as [L U].
  set (t := T M m f) in *. clearbody t.
  assert (0 <= (M - m) * f <= 15 * (M - m)) by nia. assert (M * (255 - f) <= 255 * 255) by nia. lia.
Qed.

Section Trip3.
  Context (r g b : Z) (Hr : is_u8 r) (Hg : is_u8 g) (Hb : is_u8 b).

  Lemma trip_nongray : min3 r g b < max3 r g b ->
    near18 r g b (rgb_of [hsv_hue r g b; 255 * (max3 r g b - min3 r g b) / max3 r g b; max3 r g b]).
  Proof.
    intros Hlt. pose proof (mm r g b Hr Hg Hb) as Hmm. unfold is_u8 in *.
    assert (Hdef : max3 r g b = r \/ max3 r g b = g \/ max3 r g b = b) by (unfold max3; lia).
    assert (Hmin : min3 r g b = r \/ min3 r g b = g \/ min3 r g b = b) by (unfold min3; lia).
    unfold hsv_hue. cbv zeta. set (M := max3 r g b) in *. set (m := min3 r g b) in *. clearbody M m.
    replace (M - m =? 0) with false by lia.
    destruct (S_bounds M m) as [_ HS]; try lia. pose proof (level_S M m ltac:(lia) ltac:(lia) ltac:(lia)) as HpS.
    assert (HSn : 255 * (M - m) / M <> 0) by lia.
    assert (HB : forall d, 0 <= d <= M - m -> let q := 43 * d / (M - m) in
        q * (M - m) <= 43 * d < (q + 1) * (M - m) /\ 0 <= q <= 43 /\ (d < M - m -> q <= 42)).
    { intros d Hd q. apply (q_bounds M m); [lia..|reflexivity]. }
    destruct (Z.eqb_spec M r) as [Er|Er]; [|destruct (Z.eqb_spec M g) as [Eg|Eg]].
    - destruct (Z_le_gt_dec b g) as [Hgb|Hgb].
      + rewrite quot_pos by lia. destruct (HB (g - b)) as [B1 [B2 B3]]; [lia|].
        set (q := 43 * (g - b) / (M - m)) in *. clearbody q. replace (q <? 0) with false by lia.
        assert (Emb : m = b) by lia.
        destruct (Z_lt_le_dec q 43) as [Hq|Hq].
        * rewrite (rgb_of_sector _ _ _ 0) by lia. cbv zeta. rewrite level_T_t, HpS.
          replace (6 * (q - 43 * 0)) with (6 * q + 0) by lia. apply near18_intro; try lia.
          apply (mid_close_c M m g (g - b)); lia.
        * assert (q = 43) by lia. subst q. rewrite (rgb_of_sector _ _ _ 1) by lia. cbv zeta. rewrite level_T_q, HpS.
          assert (g = M) by nia.
          apply near18_intro; try lia. rewrite <- Er. apply top_close; lia.
      + rewrite quot_neg by lia. replace (- (43 * (g - b))) with (43 * (b - g)) by lia.
        destruct (HB (b - g)) as [B1 [B2 B3]]; [lia|].
        set (q := 43 * (b - g) / (M - m)) in *. clearbody q. assert (Emg : m = g) by lia.
        destruct (Z.ltb_spec (- q) 0) as [Hq|Hq].
        * destruct (Z_le_gt_dec q 40) as [Hq4|Hq4].
          { rewrite (rgb_of_sector _ _ _ 5) by lia. cbv zeta. rewrite level_T_q, HpS.
            replace (255 - 6 * (- q + 255 - 43 * 5)) with (6 * q + 15) by lia. apply near18_intro; try lia.
            apply (mid_close_c M m b (b - g)); lia. }
          { rewrite (rgb_of_sector _ _ _ 4) by lia. cbv zeta. rewrite level_T_t, HpS.
            apply near18_intro; try lia.
            - rewrite <- Er. apply top_close; lia.
            - nia. }
        * assert (q = 0) by lia. subst q. rewrite (rgb_of_sector _ _ _ 0) by lia. cbv zeta. rewrite level_T_t, HpS.
          apply near18_intro; try lia. replace g with m by lia. apply bottom_close; lia.
    - destruct (Z_le_gt_dec r b) as [Hrb|Hrb].
      + rewrite quot_pos by lia. destruct (HB (b - r)) as [B1 [B2 B3]]; [lia|].
        set (q := 43 * (b - r) / (M - m)) in *. clearbody q. replace (85 + q <? 0) with false by lia.
        assert (Emr : m = r) by lia.
        destruct (Z_lt_le_dec q 1) as [Hq|Hq].
        * rewrite (rgb_of_sector _ _ _ 1) by lia. cbv zeta. rewrite level_T_q, HpS.
          apply near18_intro; try lia. rewrite <- Emr. apply bottom_close; lia.
        * rewrite (rgb_of_sector _ _ _ 2) by lia. cbv zeta. rewrite level_T_t, HpS.
          replace (6 * (85 + q - 43 * 2)) with (6 * q + -6) by lia. apply near18_intro; try lia.
          apply (mid_close_c M m b (b - r)); lia.
      + rewrite quot_neg by lia. replace (- (43 * (b - r))) with (43 * (r - b)) by lia.
        destruct (HB (r - b)) as [B1 [B2 B3]]; [lia|].
        set (q := 43 * (r - b) / (M - m)) in *. clearbody q. assert (Emb : m = b) by lia.
        replace (85 + - q <? 0) with false by lia.
        rewrite (rgb_of_sector _ _ _ 1) by lia. cbv zeta. rewrite level_T_q, HpS.
        replace (255 - 6 * (85 + - q - 43 * 1)) with (6 * q + 3) by lia. apply near18_intro; try lia.
        apply (mid_close_c M m r (r - b)); lia.
    - destruct (Z_le_gt_dec g r) as [Hrg|Hrg].
      + rewrite quot_pos by lia. destruct (HB (r - g)) as [B1 [B2 B3]]; [lia|].
        set (q := 43 * (r - g) / (M - m)) in *. clearbody q. replace (170 + q <? 0) with false by lia.
        assert (Emg : m = g) by lia.
        destruct (Z_lt_le_dec q 2) as [Hq|Hq].
        * rewrite (rgb_of_sector _ _ _ 3) by lia. cbv zeta. rewrite level_T_q, HpS.
          apply near18_intro; try lia; [nia|]. rewrite <- Emg. apply bottom_close; lia.
        * rewrite (rgb_of_sector _ _ _ 4) by lia. cbv zeta. rewrite level_T_t, HpS.
          replace (6 * (170 + q - 43 * 4)) with (6 * q + -12) by lia. apply near18_intro; try lia.
          apply (mid_close_c M m r (r - g)); lia.
      + rewrite quot_neg by lia. replace (- (43 * (r - g))) with (43 * (g - r)) by lia.
        destruct (HB (g - r)) as [B1 [B2 B3]]; [lia|].
        set (q := 43 * (g - r) / (M - m)) in *. clearbody q. assert (Emr : m = r) by lia.
        replace (170 + - q <? 0) with false by lia.
        destruct (Z_le_gt_dec q 41) as [Hq4|Hq4].
        * rewrite (rgb_of_sector _ _ _ 3) by lia. cbv zeta. rewrite level_T_q, HpS.
          replace (255 - 6 * (170 + - q - 43 * 3)) with (6 * q + 9) by lia. apply near18_intro; try lia.
          apply (mid_close_c M m g (g - r)); lia.
        * rewrite (rgb_of_sector _ _ _ 2) by lia. cbv zeta. rewrite level_T_t, HpS.
          apply near18_intro; try lia; [nia|].
          replace b with M by lia. apply top_close; lia.
  Qed.
End Trip3.
