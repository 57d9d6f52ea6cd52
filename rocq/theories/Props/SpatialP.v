(** * C31: generate_spatial_mat *)
From Verif.Model Require Import Util.
From Verif.Proofs Require Import BaseL ImageL FloatL FloatL2.
Open Scope Z_scope.

(** ** specification *)
(** distance of a point at integer offset (dx,dy), each step rounded to f32 *)
Definition sq_value (z : Z) : f32 := f32_mul (f32_of_Z z) (f32_of_Z z).
Definition dist_value (dx dy : Z) : f32 := f32_sqrt (f32_add (sq_value dx) (sq_value dy)).
(** 1/(2 pi s^2) * e^(-x^2/(2 s^2)) *)
Definition gaussian_of (lm : libm) (s x : f32) : f32 :=
  f32_mul (f32_div (f32_of_Z 1) (f32_mul (f32_mul (f32_of_Z 2) f32_pi) (f32_mul s s)))
          (powf lm f32_e (f32_div (f32_neg (f32_mul x x)) (f32_mul (f32_of_Z 2) (f32_mul s s)))).
(** entry (y,x) of the n x n matrix: the centre holds 0, every other entry the Gaussian of its distance *)
Definition spatial_entry (lm : libm) (s : f32) (n y x : Z) : f32 :=
  let c := n / 2 in
  if (y =? c) && (x =? c) then f32_0 else gaussian_of lm s (dist_value (x - c) (y - c)).

(** ** the distance is symmetric *)
Lemma sq_isZ (v : f32) z : isZ v z -> Z.abs z <= 16777216 -> f32_mul v v = sq_value z.
Proof.
  intros Hv Hz. destruct (Z.eq_dec z 0) as [->|Hne].
  - destruct v as [s|s| |s m e H]; destruct Hv as [Hf Hr]; try discriminate.
    + destruct s; reflexivity.
    + exfalso. cbn in Hr. unfold F2R in Hr. cbn in Hr. apply Rmult_integral in Hr as [Hr|Hr].
      * destruct s; apply eq_IZR in Hr; discriminate.
      * pose proof (bpow_gt_0 radix2 e) as Hb. rewrite Hr in Hb. apply Rlt_irrefl in Hb. exact Hb.
  - unfold sq_value. rewrite <- (isZ_inj v z Hv Hne Hz). reflexivity.
Qed.
Lemma sq_neg z : Z.abs z <= 16777216 -> sq_value (- z) = sq_value z.
Proof.
  intros Hz. symmetry. destruct (Z.eq_dec z 0) as [->|Hne]; [reflexivity|].
  assert (B : forall a b, Z.abs a <= 16777216 -> b = a * a -> fin (sq_value a) (rnd32 (IZR b))).
  { intros a b Ha ->. unfold sq_value. rewrite mult_IZR. apply mul_fin; try (apply of_Z_isZ; exact Ha).
    rewrite <- mult_IZR. apply bound_Z; [|lia]. assert (2 ^ 48 <= 2 ^ (128 - 1)) by (apply Z.pow_le_mono_r; lia).
    change (2 ^ 48) with (16777216 * 16777216) in *. nia. }
  apply (fin_inj (sq_value z) (sq_value (- z)) (rnd32 (IZR (z * z)))).
  - apply B; auto.
  - apply B; lia.
  - assert (1 <= rnd32 (IZR (z * z)))%R; [|intros E; rewrite E in *; lra].
    apply (rnd_ge_Z _ 1); [apply IZR_le; nia|lia].
Qed.
Lemma sq_abs z : Z.abs z <= 16777216 -> sq_value z = sq_value (Z.abs z).
Proof. intros H. destruct (Z.abs_spec z) as [[_ ->]|[_ ->]]; auto. symmetry. apply sq_neg. exact H. Qed.
Lemma sq_fin z : Z.abs z <= 16777216 -> fin (sq_value z) (rnd32 (IZR (z * z))).
Proof.
  intros Hz. unfold sq_value. rewrite mult_IZR. apply mul_fin; try (apply of_Z_isZ; exact Hz).
  rewrite <- mult_IZR. apply bound_Z; [|lia]. assert (2 ^ 48 <= 2 ^ (128 - 1)) by (apply Z.pow_le_mono_r; lia).
  change (2 ^ 48) with (16777216 * 16777216) in *. nia.
Qed.
Lemma rnd_sq z : Z.abs z <= 65536 -> (0 <= rnd32 (IZR (z * z)) <= IZR (2 ^ 32))%R /\ (z <> 0 -> (1 <= rnd32 (IZR (z * z)))%R).
Proof.
  intros H. conj.
  - apply (rnd_ge_Z _ 0); [apply IZR_le; nia|lia].
  - apply rnd_le_fmt; [apply IZR_le; nia|]. rewrite IZR_pow2 by lia. apply generic_format_bpow. apply Z.leb_le. reflexivity.
  - intros Hz. apply (rnd_ge_Z _ 1); [apply IZR_le; nia|lia].
Qed.
Lemma dist_sym a b a' b' : Z.abs a <= 65536 -> Z.abs b <= 65536 ->
  Z.max (Z.abs a) (Z.abs b) = Z.max (Z.abs a') (Z.abs b') -> Z.min (Z.abs a) (Z.abs b) = Z.min (Z.abs a') (Z.abs b') ->
  dist_value a b = dist_value a' b'.
Proof.
  intros Ha Hb Hmax Hmin. unfold dist_value. f_equal.
  rewrite (sq_abs a), (sq_abs b), (sq_abs a'), (sq_abs b') by lia.
  assert (Hor : (Z.abs a = Z.abs a' /\ Z.abs b = Z.abs b') \/ (Z.abs a = Z.abs b' /\ Z.abs b = Z.abs a')) by lia.
  destruct Hor as [[-> ->]|[-> ->]]; [reflexivity|].
  set (u := Z.abs a') in *. set (v := Z.abs b') in *. assert (0 <= u <= 65536) by lia. assert (0 <= v <= 65536) by lia.
  destruct (rnd_sq u ltac:(lia)) as [[Hu1 Hu2] Hu3]. destruct (rnd_sq v ltac:(lia)) as [[Hv1 Hv2] Hv3].
  destruct (Z.eq_dec u v) as [->|Huv]; [reflexivity|].
  assert (Hbig : (IZR (2 ^ 32) + IZR (2 ^ 32) <= bpow radix2 (128 - 1))%R).
  { rewrite <- plus_IZR, <- IZR_pow2 by lia. apply IZR_le. replace (2 ^ 32 + 2 ^ 32) with (2 ^ 33) by reflexivity. apply Z.pow_le_mono_r; lia. }
  apply (fin_inj (f32_add (sq_value v) (sq_value u)) (f32_add (sq_value u) (sq_value v)) (rnd32 (rnd32 (IZR (v * v)) + rnd32 (IZR (u * u))))).
  - apply add_fin; try (apply sq_fin; lia). apply Rabs_le. lra.
  - rewrite Rplus_comm. apply add_fin; try (apply sq_fin; lia). apply Rabs_le. lra.
  - assert (1 <= rnd32 (rnd32 (IZR (v * v)) + rnd32 (IZR (u * u))))%R; [|intros E; rewrite E in *; lra].
    apply (rnd_ge_Z _ 1); [|lia]. destruct (Z.eq_dec u 0) as [->|Hu].
    + specialize (Hv3 ltac:(lia)). lra.
    + specialize (Hu3 Hu). lra.
Qed.
Lemma distance_value c x y : 0 <= c <= 65536 -> 0 <= x <= 65536 -> 0 <= y <= 65536 ->
  distance c c x y = dist_value (x - c) (y - c).
Proof.
  intros Hc Hx Hy. unfold distance, dist_value. f_equal.
  rewrite (sq_isZ _ (c - x)) by (first [lia | apply sub_isZ; try apply of_Z_isZ; lia]).
  rewrite (sq_isZ _ (c - y)) by (first [lia | apply sub_isZ; try apply of_Z_isZ; lia]).
  replace (x - c) with (- (c - x)) by lia. replace (y - c) with (- (c - y)) by lia. rewrite !sq_neg by lia. reflexivity.
Qed.

(** ** the eight-fold fill *)
Definition key (c y x : Z) : Z * Z :=
  (Z.max (Z.abs (y - c)) (Z.abs (x - c)), Z.min (Z.abs (y - c)) (Z.abs (x - c))).
Definition keyb (c y x y' x' : Z) : bool :=
  (fst (key c y x) =? fst (key c y' x')) && (snd (key c y x) =? snd (key c y' x')).
Lemma keyb_entry lm s n y x y' x' : 0 <= n <= 65536 -> 0 <= x < n -> 0 <= y < n -> 0 <= x' < n -> 0 <= y' < n ->
  keyb (n / 2) y x y' x' = true ->
  gaussian_of lm s (dist_value (x - n / 2) (y - n / 2)) = gaussian_of lm s (dist_value (x' - n / 2) (y' - n / 2)).
Proof.
  intros Hn Hx Hy Hx' Hy' H. f_equal. unfold keyb, key in H. cbn [fst snd] in H.
  assert (0 <= n / 2 <= n) by (split; [apply Z.div_pos; lia|apply Z.div_le_upper_bound; lia]).
  apply andb_prop in H as [H1 H2]. apply Z.eqb_eq in H1, H2. apply dist_sym; lia.
Qed.

(** the matrix [m] holds [G] on the cells selected by [W], 0 elsewhere *)
Definition filled (n : Z) (G : Z -> Z -> f32) (W : Z -> Z -> bool) (m : list f32) : Prop :=
  len m = n * n /\ forall y x, 0 <= y < n -> 0 <= x < n ->
    nth (Z.to_nat (y * n + x)) m f32_0 = if W y x then G y x else f32_0.

Lemma mat_put_ok p n g m a b : 0 < n -> n * n <= 4294967295 -> len m = n * n -> 0 <= a < n -> 0 <= b < n ->
  exists m', mat_put p n g m a b = Ret m' /\ len m' = n * n /\ m' = upd m (Z.to_nat (a * n + b)) g.
Proof.
  intros Hn Hnn Hl Ha Hb. unfold mat_put. destruct (pos_bound n n 0 b a) as [C1 [_ [_ C1']]]; try lia.
  rewrite imul_ok by ity_lia. cbn [bind]. rewrite iadd_ok by ity_lia. cbn [bind]. rewrite vset_ok by lia.
  eexists. split; [reflexivity|]. split; [rewrite len_upd; exact Hl|reflexivity].
Qed.
Lemma nth_put n g m a b y x : len m = n * n -> 0 <= a < n -> 0 <= b < n -> 0 <= y < n -> 0 <= x < n ->
  nth (Z.to_nat (y * n + x)) (upd m (Z.to_nat (a * n + b)) g) f32_0
  = if (y =? a) && (x =? b) then g else nth (Z.to_nat (y * n + x)) m f32_0.
Proof.
  intros Hl Ha Hb Hy Hx.
  destruct (pos_bound n n 0 b a) as [D1 _]; try lia. destruct (pos_bound n n 0 x y) as [D2 _]; try lia.
  rewrite nth_upd by (unfold len in Hl; lia).
  destruct (Nat.eqb_spec (Z.to_nat (y * n + x)) (Z.to_nat (a * n + b))) as [E|E].
  - assert (E' : y * n + x = a * n + b) by lia. destruct (pos_inj n x y b a Hx Hb E') as [-> ->].
    rewrite !Z.eqb_refl. reflexivity.
  - replace ((y =? a) && (x =? b)) with false; [reflexivity|]. symmetry. apply andb_false_iff.
    destruct (Z.eqb_spec y a) as [->|]; auto. destruct (Z.eqb_spec x b) as [->|]; auto. congruence.
Qed.

(** a sequence of writes of the same value *)
Definition puts (p : profile) (n : Z) (g : f32) (l : list (Z * Z)) (m : list f32) : outcome (list f32) :=
  mfold (fun m '(a, b) => mat_put p n g m a b) l m.
Definition mem (l : list (Z * Z)) (y x : Z) : bool := existsb (fun '(a, b) => (y =? a) && (x =? b)) l.
Lemma puts_ok p n g l m : 0 < n -> n * n <= 4294967295 -> len m = n * n ->
  Forall (fun '(a, b) => 0 <= a < n /\ 0 <= b < n) l ->
  exists m', puts p n g l m = Ret m' /\ len m' = n * n /\
    forall y x, 0 <= y < n -> 0 <= x < n ->
      nth (Z.to_nat (y * n + x)) m' f32_0 = if mem l y x then g else nth (Z.to_nat (y * n + x)) m f32_0.
Proof.
  intros Hn Hnn. revert m. induction l as [|[a b] l IH]; intros m Hl Hall.
  - exists m. conj; auto.
  - pose proof (Forall_inv Hall) as [Ha Hb]. pose proof (Forall_inv_tail Hall) as Hall'. unfold puts. cbn [mfold].
    destruct (mat_put_ok p n g m a b Hn Hnn Hl Ha Hb) as [m1 [-> [Hl1 E1]]]. cbn [bind].
    destruct (IH m1 Hl1 Hall') as [m2 [E2 [Hl2 H2]]]. exists m2. conj; [exact E2|exact Hl2|].
    intros y x Hy Hx. rewrite H2 by assumption. unfold mem. cbn [existsb]. fold (mem l y x).
    rewrite E1, nth_put by assumption. destruct (mem l y x), ((y =? a) && (x =? b)); reflexivity.
Qed.

Lemma keyb_iff c y x a b : 0 <= y <= c -> 0 <= x <= c ->
  keyb c y x a b = true <-> (Z.abs (a - c) = c - y /\ Z.abs (b - c) = c - x) \/ (Z.abs (a - c) = c - x /\ Z.abs (b - c) = c - y).
Proof.
  intros Hy Hx. unfold keyb, key. cbn [fst snd]. rewrite andb_true_iff, !Z.eqb_eq.
  replace (Z.abs (y - c)) with (c - y) by lia. replace (Z.abs (x - c)) with (c - x) by lia. lia.
Qed.
Lemma mem_cons u v l a b : mem ((u, v) :: l) a b = true <-> (a = u /\ b = v) \/ mem l a b = true.
Proof. unfold mem. cbn [existsb]. rewrite orb_true_iff, andb_true_iff, !Z.eqb_eq. tauto. Qed.
Lemma mem_nil a b : mem [] a b = true <-> False.
Proof. unfold mem. cbn. split; [discriminate|tauto]. Qed.
Lemma abs_cases u k : 0 <= k -> Z.abs u = k -> u = k \/ u = - k.
Proof. lia. Qed.
Ltac orbit :=
  let H := fresh in
  apply eq_true_iff_eq; rewrite keyb_iff by lia; rewrite !mem_cons, mem_nil; split;
  [ intros H; repeat match type of H with _ \/ _ => destruct H as [H|H] end; try tauto; destruct H as [-> ->]; lia
  | intros [[? ?]|[? ?]];
    repeat match goal with Ha : Z.abs _ = _ |- _ => apply abs_cases in Ha; [destruct Ha as [Ha|Ha]|lia] end;
    repeat first [left; split; lia | right]; lia ].
Lemma orbit4 c y a b : 0 <= y <= c ->
  mem [(y, y); (c + (c - y), y); (y, c + (c - y)); (c + (c - y), c + (c - y))] a b = keyb c y y a b.
Proof. intros. orbit. Qed.
Lemma orbit4' c y a b : 0 <= y <= c -> mem [(y, c); (c, y); (c, c + (c - y)); (c + (c - y), c)] a b = keyb c y c a b.
Proof. intros. orbit. Qed.
Lemma orbit8 c y x a b : 0 <= y <= c -> 0 <= x <= c ->
  mem [(y, x); (x, y); (y, c + (c - x)); (c + (c - x), y); (c + (c - y), x); (x, c + (c - y));
                        (c + (c - y), c + (c - x)); (c + (c - x), c + (c - y))] a b = keyb c y x a b.
Proof. intros. orbit. Qed.

Section Step.
  Context (p : profile) (lm : libm) (n : Z) (s : f32).
  Let c := n / 2.
  (** the body of the inner loop *)
  Let body (mat : list f32) (y x : Z) : outcome (list f32) :=
        let! a := imul p U32 y n in
        let! ix := iadd p U32 a x in
        let! cur := vget mat ix in
        if f32_eqb cur f32_0 && negb ((x =? c) && (y =? c)) then
          let dist := distance c c x y in
          let! g := gaussian_fn lm dist s in
          let! mat := vset mat ix g in
          if x =? y then
            let! delta := isub p U32 c y in
            let! coord := iadd p U32 c delta in
            let! mat := mat_put p n g mat coord x in
            let! mat := mat_put p n g mat x coord in
            mat_put p n g mat coord coord
          else if x =? c then
            let! delta := isub p U32 c y in
            let! xs := imul p U32 x n in
            let! xx := iadd p U32 xs x in
            let! i1 := isub p U32 xx delta in
            let! mat := vset mat i1 g in
            let! i2 := iadd p U32 xx delta in
            let! mat := vset mat i2 g in
            let! xd := iadd p U32 x delta in
            mat_put p n g mat xd x
          else
            let! delta_x := isub p U32 c x in
            let! delta_y := isub p U32 c y in
            let! pos_x := iadd p U32 c delta_x in
            let! pos_y := iadd p U32 c delta_y in
            let! neg_x := isub p U32 c delta_x in
            let! neg_y := isub p U32 c delta_y in
            let! mat := mat_put p n g mat neg_x neg_y in
            let! mat := mat_put p n g mat neg_y pos_x in
            let! mat := mat_put p n g mat pos_x neg_y in
            let! mat := mat_put p n g mat pos_y neg_x in
            let! mat := mat_put p n g mat neg_x pos_y in
            let! mat := mat_put p n g mat pos_y pos_x in
            mat_put p n g mat pos_x pos_y
        else Ret mat.
  Let G y x := gaussian_of lm s (dist_value (x - c) (y - c)).

  Lemma vset_put m a b g : 0 < n -> n * n <= 4294967295 -> len m = n * n -> 0 <= a < n -> 0 <= b < n ->
    vset m (a * n + b) g = mat_put p n g m a b.
  Proof.
    intros Hn Hnn Hl Ha Hb. unfold mat_put. destruct (pos_bound n n 0 b a) as [C1 [_ [_ C1']]]; try lia.
    rewrite imul_ok by ity_lia. cbn [bind]. rewrite iadd_ok by ity_lia. reflexivity.
  Qed.

  Lemma step m W y x : n = 2 * c + 1 -> 0 <= c -> n * n <= 4294967295 -> f32_ltb s f32_0 = false ->
    0 <= y <= c -> 0 <= x <= c ->
    (forall a b a' b', keyb c a b a' b' = true -> W a b = W a' b') -> W c c = false ->
    filled n G W m ->
    exists m', body m y x = Ret m' /\
      filled n G (fun a b => W a b || (keyb c y x a b && negb ((x =? c) && (y =? c)))) m'.
  Proof.
    intros Hnc Hc Hnn Hs Hy Hx HW Hcc [Hl Hf].
    assert (Hn : 0 < n) by lia. assert (Hn16 : n <= 65535) by nia.
    assert (Ec : c = n / 2) by reflexivity. clearbody c.
    unfold body. destruct (pos_bound n n 0 x y) as [C1 [_ [_ C1']]]; try lia.
    rewrite (imul_ok p U32 y n) by ity_lia. cbn [bind]. rewrite iadd_ok by ity_lia. cbn [bind].
    rewrite (vget_ok m _ f32_0) by lia. cbn [bind]. rewrite Hf by lia.
    destruct ((x =? c) && (y =? c)) eqn:Ecen.
    { rewrite andb_false_r. exists m. split; [reflexivity|]. split; [exact Hl|].
      intros a b Ha Hb. rewrite Hf by assumption. cbn [negb]. rewrite andb_false_r, orb_false_r. reflexivity. }
    cbn [negb]. rewrite andb_true_r.
    destruct (f32_eqb (if W y x then G y x else f32_0) f32_0) eqn:Ecur.
    2:{ exists m. split; [reflexivity|]. split; [exact Hl|].
        intros a b Ha Hb. rewrite Hf by assumption. rewrite andb_true_r.
        destruct (W y x) eqn:EW; [|cbn in Ecur; discriminate].
        destruct (keyb c y x a b) eqn:Ek; [|rewrite orb_false_r; reflexivity].
        rewrite <- (HW y x a b Ek), EW. reflexivity. }
    clear Ecur. rewrite distance_value by lia. unfold gaussian_fn.
    unfold check_non_neg. change (n_ltb num_f32 s (n_zero num_f32)) with (f32_ltb s f32_0). rewrite Hs. cbn [bind].
    match goal with |- context [vset m _ ?t] => change t with (G y x) end. set (g := G y x).
    assert (Main : forall l, Forall (fun '(a, b) => 0 <= a < n /\ 0 <= b < n) l ->
       (forall a b, 0 <= a < n -> 0 <= b < n -> mem l a b = keyb c y x a b) ->
       exists m', puts p n g l m = Ret m' /\
         filled n G (fun a b => W a b || (keyb c y x a b && true)) m').
    { intros l Hall Hmem. destruct (puts_ok p n g l m Hn Hnn Hl Hall) as [m' [E [Hl' H']]].
      exists m'. split; [exact E|]. split; [exact Hl'|]. intros a b Ha Hb. rewrite H' by assumption.
      rewrite Hmem by assumption. rewrite andb_true_r, Hf by assumption.
      destruct (keyb c y x a b) eqn:Ek; [|rewrite orb_false_r; reflexivity]. rewrite orb_true_r.
      unfold g, G. rewrite Ec in *. apply (keyb_entry lm s n y x a b); try lia. exact Ek. }
    rewrite vset_put by lia.
    destruct (Z.eqb_spec x y) as [Exy|Exy].
    - rewrite (isub_ok p U32 c y) by ity_lia. cbn [bind]. rewrite (iadd_ok p U32 c) by ity_lia. cbn [bind].
      destruct (Main [(y, x); (c + (c - y), x); (x, c + (c - y)); (c + (c - y), c + (c - y))]) as [m' [E H']].
      + repeat first [apply Forall_nil | apply Forall_cons]; lia.
      + intros a b Ha Hb. subst x. apply orbit4; lia.
      + exists m'. split; [|exact H']. unfold puts in E. cbn [mfold] in E.
        rewrite <- E. destruct (mat_put p n g m y x); cbn [bind]; auto.
        destruct (mat_put p n g _ _ _); cbn [bind]; auto.
        destruct (mat_put p n g _ _ _); cbn [bind]; auto.
        destruct (mat_put p n g _ _ _); cbn [bind]; auto.
    - destruct (Z.eqb_spec x c) as [Exc|Exc].
      + assert (Hyc : y < c) by lia. subst x.
        rewrite (isub_ok p U32 c y) by ity_lia. cbn [bind].
        destruct (pos_bound n n 0 c c) as [D1 [_ [_ D1']]]; try lia.
        destruct (Main [(y, c); (c, y); (c, c + (c - y)); (c + (c - y), c)]) as [m' [E H']].
        * repeat first [apply Forall_nil | apply Forall_cons]; lia.
        * intros a b Ha Hb. apply orbit4'; lia.
        * exists m'. split; [|exact H']. unfold puts in E. cbn [mfold] in E. rewrite <- E. clear E.
          destruct (mat_put_ok p n g m y c Hn Hnn Hl ltac:(lia) ltac:(lia)) as [m1 [-> [Hl1 _]]]. cbn [bind].
          rewrite (imul_ok p U32 c n) by ity_lia. cbn [bind]. rewrite (iadd_ok p U32 (c * n) c) by ity_lia. cbn [bind].
          rewrite isub_ok by ity_lia. cbn [bind]. replace (c * n + c - (c - y)) with (c * n + y) by lia.
          rewrite vset_put by lia.
          destruct (mat_put_ok p n g m1 c y Hn Hnn Hl1 ltac:(lia) ltac:(lia)) as [m2 [-> [Hl2 _]]]. cbn [bind].
          rewrite iadd_ok by ity_lia. cbn [bind]. replace (c * n + c + (c - y)) with (c * n + (c + (c - y))) by lia.
          rewrite vset_put by lia.
          destruct (mat_put_ok p n g m2 c (c + (c - y)) Hn Hnn Hl2 ltac:(lia) ltac:(lia)) as [m3 [-> [Hl3 _]]]. cbn [bind].
          rewrite iadd_ok by ity_lia. cbn [bind].
          destruct (mat_put p n g _ _ _); cbn [bind]; auto.
      + rewrite (isub_ok p U32 c x), (isub_ok p U32 c y) by ity_lia. cbn [bind].
        rewrite (iadd_ok p U32 c (c - x)), (iadd_ok p U32 c (c - y)) by ity_lia. cbn [bind].
        rewrite (isub_ok p U32 c (c - x)), (isub_ok p U32 c (c - y)) by ity_lia. cbn [bind].
        replace (c - (c - x)) with x by lia. replace (c - (c - y)) with y by lia.
        destruct (Main [(y, x); (x, y); (y, c + (c - x)); (c + (c - x), y); (c + (c - y), x); (x, c + (c - y));
                        (c + (c - y), c + (c - x)); (c + (c - x), c + (c - y))]) as [m' [E H']].
        * repeat first [apply Forall_nil | apply Forall_cons]; lia.
        * intros a b Ha Hb. apply orbit8; lia.
        * exists m'. split; [|exact H']. unfold puts in E. cbn [mfold] in E. rewrite <- E. clear E.
          repeat (destruct (mat_put p n g _ _ _); cbn [bind]; auto).
  Qed.
End Step.

Lemma keyb_trans c a b a' b' y x : keyb c a b a' b' = true -> keyb c y x a b = keyb c y x a' b'.
Proof.
  unfold keyb. destruct (key c a b), (key c a' b'). cbn [fst snd]. intros H. apply andb_prop in H as [H1 H2].
  apply Z.eqb_eq in H1, H2. subst. reflexivity.
Qed.
Lemma keyb_cc c y x : keyb c y x c c = true -> x = c /\ y = c.
Proof. unfold keyb, key. cbn [fst snd]. lia. Qed.
Lemma keyb_refl c y x : keyb c y x y x = true.
Proof. unfold keyb. rewrite !Z.eqb_refl. reflexivity. Qed.

Theorem C31_spatial_mat p lm n s : 0 <= n -> n * n <= 4294967295 -> Z.odd n = true -> f32_ltb s f32_0 = false ->
  exists m, generate_spatial_mat p lm n s = Ret m /\ len m = n * n /\
    forall y x, 0 <= y < n -> 0 <= x < n -> nth_error m (Z.to_nat (y * n + x)) = Some (spatial_entry lm s n y x).
Proof.
  intros Hn0 Hnn Hodd Hs. apply Zodd_bool_iff in Hodd. apply Zodd_ex in Hodd as [c Hnc].
  assert (Ec : n / 2 = c) by (rewrite Hnc; replace (2 * c + 1) with (1 + c * 2) by lia; rewrite Z.div_add by lia; reflexivity).
  assert (Hn16 : n <= 65535) by nia. assert (Hc : 0 <= c) by lia.
  unfold generate_spatial_mat. rewrite idiv_ok by ity_lia. cbn [bind]. rewrite imul_ok by ity_lia. cbn [bind].
  rewrite Ec. rewrite iadd_ok by ity_lia. cbn [bind].
  set (G := fun y x => gaussian_of lm s (dist_value (x - c) (y - c))).
  pose proof (step p lm n s) as Step. cbv zeta in Step. rewrite Ec in Step. fold G in Step.
  set (P := fun y x m => exists W, (forall a b a' b', keyb c a b a' b' = true -> W a b = W a' b') /\ W c c = false
     /\ filled n G W m /\ forall a b, 0 <= a <= c -> 0 <= b <= c -> ~ (a = c /\ b = c) -> a < y \/ (a = y /\ b < x) -> W a b = true).
  match goal with |- exists m, mfold ?f _ _ = _ /\ _ => set (outer := f) end.
  destruct (mfold_zrange_inv (fun y m => P y 0 m) outer 0 (c + 1) (repeat f32_0 (Z.to_nat (n * n)))) as [m [E HP]].
  - lia.
  - exists (fun _ _ => false). conj; auto.
    + split; [rewrite len_repeat; lia|]. intros y x Hy Hx. destruct (pos_bound n n 0 x y) as [C1 _]; try lia.
      apply nth_repeat'. lia.
    + intros. lia.
  - intros y m Hy HP. unfold outer.
    match goal with |- exists s', mfold ?f _ _ = _ /\ _ => set (inner := f) end.
    destruct (mfold_zrange_inv (fun x m => P y x m) inner 0 (c + 1) m) as [m' [E HP']]; [lia|exact HP| |].
    + intros x m0 Hx (W & HW & Hcc & Hfil & Hvis).
      destruct (Step m0 W y x Hnc Hc Hnn Hs ltac:(lia) ltac:(lia) HW Hcc Hfil) as [m1 [E1 F1]].
      exists m1. split; [exact E1|]. eexists. conj; [| |exact F1|].
      * intros a b a' b' Hk. cbn beta. rewrite (HW a b a' b' Hk), (keyb_trans c a b a' b' y x Hk). reflexivity.
      * cbn beta. rewrite Hcc. destruct (keyb c y x c c) eqn:Ek; [|reflexivity]. apply keyb_cc in Ek as [-> ->].
        rewrite !Z.eqb_refl. reflexivity.
      * intros a b Ha Hb Hne Hor. cbn beta. destruct (Z.eq_dec a y) as [->|Hay].
        -- destruct (Z.eq_dec b x) as [->|Hbx].
           ++ rewrite keyb_refl. replace ((x =? c) && (y =? c)) with false by lia. apply orb_true_r.
           ++ rewrite Hvis by lia. reflexivity.
        -- rewrite Hvis by lia. reflexivity.
    + exists m'. split; [exact E|]. destruct HP' as (W & HW & Hcc & Hfil & Hvis). exists W. conj; auto.
      intros a b Ha Hb Hne Hor. apply Hvis; auto. lia.
  - exists m. destruct HP as (W & HW & Hcc & [Hl Hfil] & Hvis). conj; [exact E|exact Hl|].
    intros y x Hy Hx. destruct (pos_bound n n 0 x y) as [C1 _]; try lia.
    rewrite (nth_error_nth' m f32_0) by (unfold len in Hl; lia). f_equal. rewrite Hfil by assumption.
    unfold spatial_entry. rewrite Ec. fold (G y x). destruct ((y =? c) && (x =? c)) eqn:Ecen.
    + assert (y = c /\ x = c) as [-> ->] by lia. rewrite Hcc. reflexivity.
    + replace (W y x) with true; [reflexivity|]. symmetry.
      set (y' := Z.min y (2 * c - y)). set (x' := Z.min x (2 * c - x)).
      rewrite (HW y x y' x'); [apply Hvis; unfold y', x'; lia|].
      assert (A1 : Z.abs (y' - c) = Z.abs (y - c)) by (unfold y'; lia).
      assert (A2 : Z.abs (x' - c) = Z.abs (x - c)) by (unfold x'; lia).
      unfold keyb, key. cbn [fst snd]. rewrite A1, A2, !Z.eqb_refl. reflexivity.
Qed.

(** even sizes never work: the first entry is mirrored to row n, which does not exist *)
Theorem C31_even_size p lm n s : 0 <= n -> n * n <= 4294967295 -> Z.odd n = false ->
  generate_spatial_mat p lm n s = Panic \/ (f32_ltb s f32_0 = true /\ generate_spatial_mat p lm n s = Fail InvalidArgError).
Proof.
  intros Hn0 Hnn Hev. assert (He : Z.even n = true) by (rewrite <- Z.negb_odd, Hev; reflexivity).
  apply Z.even_spec in He as [c Hnc].
  assert (Ec : n / 2 = c) by (rewrite Hnc, Z.mul_comm; apply Z.div_mul; lia).
  assert (Hn16 : n <= 65535) by nia. assert (Hc : 0 <= c) by lia.
  unfold generate_spatial_mat. rewrite idiv_ok by ity_lia. cbn [bind]. rewrite imul_ok by ity_lia. cbn [bind].
  rewrite Ec. rewrite iadd_ok by ity_lia. cbn [bind]. rewrite zrange_cons by lia. cbn [mfold].
  rewrite imul_ok by ity_lia. cbn [bind]. rewrite iadd_ok by ity_lia. cbn [bind]. cbn [Z.mul Z.add].
  destruct (Z.eq_dec n 0) as [->|Hne].
  - left. reflexivity.
  - rewrite (vget_ok _ 0 f32_0) by (rewrite len_repeat; nia). cbn [bind]. rewrite nth_repeat' by nia.
    change (f32_eqb f32_0 f32_0) with true. replace ((0 =? c) && (0 =? c)) with false by lia. cbn [andb negb].
    unfold gaussian_fn, check_non_neg. change (n_ltb num_f32 s (n_zero num_f32)) with (f32_ltb s f32_0).
    destruct (f32_ltb s f32_0) eqn:Es; [right; split; reflexivity|left]. cbn [bind].
    rewrite vset_ok by (rewrite len_repeat; nia). cbn [bind].
    rewrite isub_ok by ity_lia. cbn [bind]. rewrite iadd_ok by ity_lia. cbn [bind].
    unfold mat_put at 1. rewrite imul_ok by (cbn [lo hi U32]; nia). cbn [bind]. rewrite iadd_ok by (cbn [lo hi U32]; nia). cbn [bind].
    rewrite vset_panic by (rewrite len_upd, len_repeat; nia). reflexivity.
Qed.
(** a negative sigma is an error (except that a 1 x 1 matrix never looks at sigma) *)
Theorem C31_negative_sigma p lm n s : 2 <= n -> n * n <= 4294967295 -> f32_ltb s f32_0 = true ->
  generate_spatial_mat p lm n s = Fail InvalidArgError.
Proof.
  intros Hn Hnn Hs. assert (Hn16 : n <= 65535) by nia.
  assert (Hc : 1 <= n / 2 <= n) by (split; [apply Z.div_le_lower_bound; lia|apply Z.div_le_upper_bound; lia]).
  unfold generate_spatial_mat. rewrite idiv_ok by ity_lia. cbn [bind]. rewrite imul_ok by ity_lia. cbn [bind].
  rewrite iadd_ok by ity_lia. cbn [bind]. rewrite zrange_cons by lia. cbn [mfold].
  rewrite imul_ok by ity_lia. cbn [bind]. rewrite iadd_ok by ity_lia. cbn [bind]. cbn [Z.mul Z.add].
  rewrite (vget_ok _ 0 f32_0) by (rewrite len_repeat; nia). cbn [bind]. rewrite nth_repeat' by nia.
  change (f32_eqb f32_0 f32_0) with true. replace ((0 =? n / 2) && (0 =? n / 2)) with false by lia. cbn [andb negb].
  unfold gaussian_fn, check_non_neg. change (n_ltb num_f32 s (n_zero num_f32)) with (f32_ltb s f32_0). rewrite Hs. reflexivity.
Qed.
(** the distance is the correctly rounded Euclidean distance while dx^2 + dy^2 <= 2^24 *)
Theorem C31_distance dx dy : dx * dx + dy * dy <= 16777216 ->
  fin (dist_value dx dy) (rnd32 (sqrt (IZR (dx * dx + dy * dy)))).
Proof.
  intros H. assert (Hx : Z.abs dx <= 4096) by nia. assert (Hy : Z.abs dy <= 4096) by nia.
  assert (forall z, Z.abs z <= 4096 -> isZ (sq_value z) (z * z)).
  { intros z Hz. unfold sq_value. apply mul_isZ; try apply of_Z_isZ; nia. }
  unfold dist_value. apply sqrt_fin; [|apply IZR_le; nia].
  apply add_isZ; auto. nia.
Qed.
Example C31_example :
  let lm := Libm (fun _ y => f32_neg y) (fun x => x) (fun x => x) in
  Z.odd 5 = true /\ f32_ltb (f32_of_Z 2) f32_0 = false /\
  match generate_spatial_mat Debug lm 5 (f32_of_Z 2) with
  | Ret m => (length m =? 25)%nat && f32_eqb (nth 0 m f32_0) (nth 24 m f32_0) && f32_eqb (nth 12 m f32_0) f32_0
             && f32_ltb (nth 7 m f32_0) (nth 2 m f32_0) && f32_ltb (nth 2 m f32_0) (nth 3 m f32_0)
  | _ => false end = true
  /\ generate_spatial_mat Debug lm 4 (f32_of_Z 2) = Panic.
Proof. intros lm. conj; vm_compute; reflexivity. Qed.
