(** * C50-C53, C17: src/filter/mod.rs, linear filters, thresholding, residual. *)
From Verif.Proofs Require Import BaseL ImageL FilterL FloatL FloatL2 ToneL.
From Verif.Spec Require Import SumS ColorS.
From Verif.Props Require Import ImageP FloatP.
Open Scope Z_scope.

(** a concrete 3x2 image with two channels, the second one alpha *)
Definition ex_ga : image f32 := Image (Info 3 2 2 true) (map f32_of_Z [10; 255; 20; 128; 30; 255; 40; 0; 50; 255; 60; 7]).
Example ex_ga_wf : wf ex_ga. Proof. apply wfb_wf. reflexivity. Qed.
Example ex_ga_small : small (info_of ex_ga). Proof. split; cbn; lia. Qed.

(** ** C50 *)
Theorem C50_filter_1d p b n (img : image f32) k (is_vert : bool) :
  wf img -> small (info_of img) -> Z.odd (len k) = true -> len k <= 2 ^ 30 -> scheduled b (info_of img) ->
  exists out, filter_1d p b n img k is_vert = Ret out
    /\ correlates (if is_vert then column k else row k) img out.
Proof. apply filter_1d_correlates. Qed.

Theorem C50_separable_filter p b n (img : image f32) vk hk :
  wf img -> small (info_of img) -> Z.odd (len vk) = true -> len hk = len vk -> len vk <= 2 ^ 30 ->
  scheduled b (info_of img) ->
  exists mid out, separable_filter p b n img vk hk = Ret out
    /\ correlates (column vk) img mid /\ correlates (row hk) mid out.
Proof.
  intros Hwf Hs Ho He Hk Hb. unfold separable_filter. pose proof (len_nonneg vk).
  rewrite He. rewrite check_odd_ok by ity_lia. rewrite Ho. cbn [bind].
  unfold check_equal_Z. rewrite Z.eqb_refl. cbn [bind].
  destruct (filter_1d_correlates p b n img vk true Hwf Hs Ho Hk Hb) as [mid [Em Cm]]. rewrite Em. cbn [bind].
  pose proof Cm as [Hi [Hw _]].
  destruct (filter_1d_correlates p b (S n) mid hk false) as [out [Eo Co]]; auto.
  - rewrite Hi. exact Hs.
  - unfold odd_len. rewrite He. exact Ho.
  - lia.
  - rewrite Hi. exact Hb.
  - exists mid, out. auto.
Qed.

Lemma square_side s (k : list f32) : len k = s * s -> 0 <= s -> s * s <= 16777216 ->
  check_square (f32_of_Z (len k)) = Ret tt /\ kernel_side (len k) = s.
Proof.
  intros Hk Hs Hb. rewrite Hk. split.
  - destruct (C61_check_square (s * s) ltac:(nia)) as [H _]. apply H. exists s. reflexivity.
  - assert (Hr : fin (f32_sqrt (f32_of_Z (s * s))) (rnd32 (R_sqrt.sqrt (IZR (s * s))))).
    { apply sqrt_fin; [apply of_Z_isZ; nia|]. apply IZR_le. nia. }
    assert (s <= 4096) by nia.
    rewrite mult_IZR, sqrt_square in Hr by (apply IZR_le; exact Hs).
    unfold rnd32 in Hr. rewrite rnd_Z in Hr by lia.
    unfold kernel_side. apply (to_int_isZ U32 _ s Hr); ity_lia.
Qed.

Theorem C50_unseparable_filter p b n (img : image f32) s k :
  wf img -> small (info_of img) -> len k = s * s -> 0 <= s -> Z.odd s = true -> s * s <= 16777216 ->
  scheduled b (info_of img) ->
  exists out, unseparable_filter p b n img k = Ret out /\ correlates (square s k) img out.
Proof.
  intros Hwf Hsm Hk H0 Ho Hb Hsch. destruct (square_side s k Hk H0 Hb) as [Hsq Hside].
  apply unseparable_correlates; auto.
  - unfold odd_len. rewrite Hk, Z.odd_mul, Ho. reflexivity.
  - nia.
Qed.

(** the kernel lengths that are rejected *)
Theorem C50_rejects p b n (img : image f32) k k' is_vert :
  len k <= 2 ^ 63 -> len k' <= 2 ^ 63 ->
  (Z.odd (len k) = false -> filter_1d p b n img k is_vert = Fail InvalidArgError
     /\ unseparable_filter p b n img k = Fail InvalidArgError
     /\ separable_filter p b n img k k' = Fail InvalidArgError
     /\ separable_filter p b n img k' k = Fail InvalidArgError)
  /\ (len k <> len k' -> separable_filter p b n img k k' = Fail InvalidArgError)
  /\ (len k <= 16777216 -> ~ (exists s, len k = s * s) -> unseparable_filter p b n img k = Fail InvalidArgError).
Proof.
  intros Hk Hk'. pose proof (len_nonneg k). pose proof (len_nonneg k').
  unfold filter_1d, unseparable_filter, separable_filter. rewrite !check_odd_ok by ity_lia.
  split; [|split].
  - intros ->. repeat split. destruct (Z.odd (len k')); reflexivity.
  - intros Hne. unfold check_equal_Z. rewrite (proj2 (Z.eqb_neq _ _) Hne).
    destruct (Z.odd (len k)), (Z.odd (len k')); reflexivity.
  - intros Hb Hnq. destruct (C61_check_square (len k) ltac:(lia)) as [_ Hr]. apply Hr in Hnq.
    unfold rejects in Hnq. rewrite Hnq. destruct (Z.odd (len k)); reflexivity.
Qed.

(** locality: a sample of the output depends only on samples of the same channel at the tap positions *)
Lemma correlates_local (taps : list tap) (img img' out out' : image f32) r x y c :
  correlates taps img out -> correlates taps img' out' -> info_of img = info_of img' ->
  (forall k dx dy, In (k, dx, dy) taps -> Z.abs dx <= r /\ Z.abs dy <= r) -> 0 <= r ->
  inside img x y -> 0 <= c < channels (info_of img) ->
  (forall x' y', inside img x' y' -> Z.abs (x' - x) <= r -> Z.abs (y' - y) <= r -> value img x' y' c = value img' x' y' c) ->
  value out x y c = value out' x y c.
Proof.
  intros [_ [_ H1]] [_ [_ H2]] Hi Hr Hr0 Hin Hc Heq.
  rewrite H1 by assumption. rewrite H2 by (try (unfold inside in *; rewrite <- Hi); assumption).
  unfold correlation. rewrite <- Hi. f_equal. apply map_ext_in. intros [[k dx] dy] Ht.
  destruct (Hr k dx dy Ht) as [Hdx Hdy]. f_equal. pose proof Hin as [Hx Hy]. apply Heq.
  - split; apply padded_range; assumption.
  - unfold padded. destruct (_ && _); lia.
  - unfold padded. destruct (_ && _); lia.
Qed.

Theorem C50_filter_1d_local p b n (img img' out out' : image f32) k is_vert x y c :
  wf img -> wf img' -> info_of img = info_of img' -> small (info_of img) -> scheduled b (info_of img) ->
  Z.odd (len k) = true -> len k <= 2 ^ 30 ->
  filter_1d p b n img k is_vert = Ret out -> filter_1d p b n img' k is_vert = Ret out' ->
  inside img x y -> 0 <= c < channels (info_of img) ->
  (forall x' y', inside img x' y' -> Z.abs (x' - x) <= (if is_vert then 0 else len k / 2) ->
     Z.abs (y' - y) <= (if is_vert then len k / 2 else 0) -> value img x' y' c = value img' x' y' c) ->
  value out x y c = value out' x y c.
Proof.
  intros Hwf Hwf' Hi Hsm Hb Ho Hk E E' Hin Hc Heq.
  destruct (filter_1d_correlates p b n img k is_vert Hwf Hsm Ho Hk Hb) as [o [Eo [_ [_ Co]]]].
  destruct (filter_1d_correlates p b n img' k is_vert Hwf') as [o' [Eo' [_ [_ Co']]]]; try (rewrite <- Hi); auto.
  rewrite E in Eo. injection Eo as <-. rewrite E' in Eo'. injection Eo' as <-.
  rewrite Co by assumption. rewrite Co' by (try (unfold inside in *; rewrite <- Hi); assumption).
  unfold correlation. rewrite <- Hi. f_equal. apply map_ext_in. intros [[w dx] dy] Ht.
  f_equal. pose proof Hin as [Hx Hy]. pose proof (len_nonneg k).
  assert (Hodd : len k = 2 * (len k / 2) + 1).
  { rewrite (Z.div_mod (len k) 2) at 1 by lia. rewrite Zmod_odd, Ho. lia. }
  assert (Z.abs dx <= (if is_vert then 0 else len k / 2) /\ Z.abs dy <= (if is_vert then len k / 2 else 0)) as [Hdx Hdy].
  { destruct is_vert; unfold column, row in Ht; apply in_map_iff in Ht as [i [Ei Hi']]; apply in_zrange in Hi';
    injection Ei as _ <- <-; lia. }
  apply Heq.
  - split; apply padded_range; assumption.
  - unfold padded. destruct (_ && _), is_vert; lia.
  - unfold padded. destruct (_ && _), is_vert; lia.
Qed.

Theorem C50_unseparable_local p b n (img img' out out' : image f32) s k x y c :
  wf img -> wf img' -> info_of img = info_of img' -> small (info_of img) -> scheduled b (info_of img) ->
  len k = s * s -> 0 <= s -> Z.odd s = true -> s * s <= 16777216 ->
  unseparable_filter p b n img k = Ret out -> unseparable_filter p b n img' k = Ret out' ->
  inside img x y -> 0 <= c < channels (info_of img) ->
  (forall x' y', inside img x' y' -> Z.abs (x' - x) <= s / 2 -> Z.abs (y' - y) <= s / 2 ->
     value img x' y' c = value img' x' y' c) ->
  value out x y c = value out' x y c.
Proof.
  intros Hwf Hwf' Hi Hsm Hb Hk H0 Ho Hs E E' Hin Hc Heq.
  destruct (C50_unseparable_filter p b n img s k) as [o [Eo Co]]; auto.
  destruct (C50_unseparable_filter p b n img' s k) as [o' [Eo' Co']]; try (rewrite <- Hi); auto.
  rewrite E in Eo. injection Eo as <-. rewrite E' in Eo'. injection Eo' as <-.
  assert (Hodd : s = 2 * (s / 2) + 1).
  { rewrite (Z.div_mod s 2) at 1 by lia. rewrite Zmod_odd, Ho. lia. }
  apply (correlates_local (square s k) img img' out out' (s / 2) x y c); auto; [|lia].
  intros w dx dy Ht. unfold square in Ht. apply in_map_iff in Ht as [i [Ei Hi']]. apply in_zrange in Hi'.
  injection Ei as _ <- <-.
  pose proof (Z.mod_pos_bound i s ltac:(lia)).
  assert (0 <= i / s < s) by (split; [apply Z.div_pos; lia|apply Z.div_lt_upper_bound; lia]). lia.
Qed.

(** on integer images with an integer kernel the filters compute the exact sum, as long as the sum
    of the absolute values of the products stays within 2^24 *)
Definition Ztaps (taps : list tap) (zs : list (Z * Z * Z)) : Prop :=
  Forall2 (fun t z => holds (fst (fst t)) (fst (fst z)) /\ snd (fst t) = snd (fst z) /\ snd t = snd z) taps zs.
Definition Zcorrelation (f : Z -> Z) (zs : list (Z * Z * Z)) (inf : info) (v : Z -> Z -> Z -> Z) (x y c : Z) : Z :=
  fold_right Z.add 0 (map (fun '(k, dx, dy) =>
    f (k * v (padded (width inf) x dx) (padded (height inf) y dy) c)) zs).

Theorem C50_integers_exact (taps : list tap) zs (img out : image f32) v x y c :
  correlates taps img out -> Ztaps taps zs -> int_image img v ->
  inside img x y -> 0 <= c < channels (info_of img) ->
  Zcorrelation Z.abs zs (info_of img) v x y c <= 16777216 ->
  holds (value out x y c) (Zcorrelation (fun z => z) zs (info_of img) v x y c).
Proof.
  intros [_ [_ HC]] Ht Hv Hin Hc Hb. rewrite HC by assumption.
  unfold correlation, weighted_sum. rewrite fold_left_map. unfold Zcorrelation in *. pose proof Hin as [Hx Hy].
  assert (G : forall acc a, isZ acc a -> Z.abs a + fold_right Z.add 0 (map (fun '(k, dx, dy) => Z.abs
        (k * v (padded (width (info_of img)) x dx) (padded (height (info_of img)) y dy) c)) zs) <= 16777216 ->
    isZ (fold_left (fun acc (t : tap) => f32_add acc (f32_mul (fst (let '(k, dx, dy) := t in
      (k, value img (padded (width (info_of img)) x dx) (padded (height (info_of img)) y dy) c)))
       (snd (let '(k, dx, dy) := t in
      (k, value img (padded (width (info_of img)) x dx) (padded (height (info_of img)) y dy) c))))) taps acc)
     (a + fold_right Z.add 0 (map (fun '(k, dx, dy) => k * v (padded (width (info_of img)) x dx) (padded (height (info_of img)) y dy) c) zs))).
  { clear Hb HC. induction Ht as [|[[k dx] dy] [[z zx] zy] taps zs [Hk [Ex Ey]] _ IH]; intros acc a Ha Hb; cbn [fold_left map fold_right] in *.
    - rewrite Z.add_0_r. exact Ha.
    - cbn [fst snd] in *. subst zx zy.
      set (vv := v (padded (width (info_of img)) x dx) (padded (height (info_of img)) y dy) c) in *.
      set (rest := fold_right Z.add 0 (map (fun '(k, dx, dy) => k * v (padded (width (info_of img)) x dx) (padded (height (info_of img)) y dy) c) zs)) in *.
      set (rabs := fold_right Z.add 0 (map (fun '(k, dx, dy) => Z.abs (k * v (padded (width (info_of img)) x dx) (padded (height (info_of img)) y dy) c)) zs)) in *.
      assert (0 <= rabs).
      { unfold rabs. clear. induction zs as [|[[z dx] dy] zs IH]; cbn; lia. }
      assert (Hs : isZ (value img (padded (width (info_of img)) x dx) (padded (height (info_of img)) y dy) c) vv).
      { destruct (Hv (padded (width (info_of img)) x dx) (padded (height (info_of img)) y dy) c) as [s [Es Hs]]; auto.
        - split; apply padded_range; assumption.
        - unfold value. rewrite (nth_error_nth _ _ _ Es). exact Hs. }
      replace (a + (z * vv + rest)) with (a + z * vv + rest) by lia.
      apply IH.
      + apply add_isZ; [exact Ha|apply mul_isZ; [exact Hk|exact Hs|lia]|lia].
      + lia. }
  apply (G f32_0 0 isZ_0). exact Hb.
Qed.

(** the 3x3 kernels of the crate: sharpen = 5 at the centre, -1 at the four neighbours; Laplacian = 4 and -1 *)
Definition cross (center : Z) : list (Z * Z * Z) :=
  [(0, -1, -1); (-1, 0, -1); (0, 1, -1); (-1, -1, 0); (center, 0, 0); (-1, 1, 0); (0, -1, 1); (-1, 0, 1); (0, 1, 1)].

Lemma cross_exact p b n (img : image f32) v m k center x y c :
  k = map f32_of_Z [0; -1; 0; -1; center; -1; 0; -1; 0] -> 0 <= center <= 5 ->
  wf img -> small (info_of img) -> scheduled b (info_of img) ->
  int_image img v -> (forall x y, inside img x y -> Z.abs (v x y c) <= m) -> m <= 1800000 ->
  inside img x y -> 0 <= c < channels (info_of img) ->
  exists out, unseparable_filter p b n img k = Ret out /\ info_of out = info_of img /\
    let W := width (info_of img) in let H := height (info_of img) in
    holds (value out x y c)
      (center * v x y c - v x (padded H y (-1)) c - v (padded W x (-1)) y c - v (padded W x 1) y c - v x (padded H y 1) c).
Proof.
  intros -> Hcen Hwf Hsm Hb Hv Hm Hm' Hin Hc.
  destruct (C50_unseparable_filter p b n img 3 (map f32_of_Z [0; -1; 0; -1; center; -1; 0; -1; 0])) as [out [E C]]; auto; try reflexivity; try lia.
  exists out. split; [exact E|]. split; [exact (proj1 C)|]. cbv zeta.
  assert (HT : Ztaps (square 3 (map f32_of_Z [0; -1; 0; -1; center; -1; 0; -1; 0])) (cross center)).
  { unfold Ztaps, square, cross. change (zrange 0 (3 * 3)) with [0;1;2;3;4;5;6;7;8]. cbn [map].
    repeat (apply Forall2_cons; [split; [cbn [fst]; match goal with |- holds _ ?z => change (isZ (f32_of_Z z) z) end; apply of_Z_isZ; lia|split; reflexivity]|]). apply Forall2_nil. }
  pose proof (C50_integers_exact _ _ img out v x y c C HT Hv Hin Hc) as HE.
  unfold Zcorrelation, cross in HE. cbn [map fold_right] in HE. rewrite !padded_0 in HE.
  match goal with |- holds _ ?a => match type of HE with _ -> holds _ ?b => replace a with b by lia end end.
  apply HE.
  clear HE. pose proof Hin as [Hx Hy].
  assert (Hp : forall dx dy, Z.abs (v (padded (width (info_of img)) x dx) (padded (height (info_of img)) y dy) c) <= m).
  { intros dx dy. apply Hm. split; apply padded_range; assumption. }
  pose proof (Hm x y Hin). pose proof (Hp 0 (-1)). pose proof (Hp (-1) 0). pose proof (Hp 1 0). pose proof (Hp 0 1).
  rewrite !padded_0 in *.
  assert (Z.abs (center * v x y c) <= 5 * m) by (rewrite Z.abs_mul; clear - Hcen H; nia). lia.
Qed.

Theorem C50_sharpen p b (img : image f32) v m x y c :
  wf img -> small (info_of img) -> scheduled b (info_of img) ->
  int_image img v -> (forall x y, inside img x y -> Z.abs (v x y c) <= m) -> m <= 1800000 ->
  inside img x y -> 0 <= c < channels (info_of img) ->
  exists out, sharpen p b img = Ret out /\ info_of out = info_of img /\
    let W := width (info_of img) in let H := height (info_of img) in
    holds (value out x y c)
      (5 * v x y c - v x (padded H y (-1)) c - v (padded W x (-1)) y c - v (padded W x 1) y c - v x (padded H y 1) c).
Proof. intros. apply (cross_exact p b 0 img v m K_SHARPEN 5); auto; lia. Qed.

Theorem C50_laplacian p b (img : image f32) v m x y c :
  wf img -> small (info_of img) -> scheduled b (info_of img) ->
  int_image img v -> (forall x y, inside img x y -> Z.abs (v x y c) <= m) -> m <= 1800000 ->
  inside img x y -> 0 <= c < channels (info_of img) ->
  exists out, laplacian p b img = Ret out /\ info_of out = info_of img /\
    let W := width (info_of img) in let H := height (info_of img) in
    holds (value out x y c)
      (4 * v x y c - v x (padded H y (-1)) c - v (padded W x (-1)) y c - v (padded W x 1) y c - v x (padded H y 1) c).
Proof. intros. apply (cross_exact p b 0 img v m K_LAPLACIAN 4); auto; lia. Qed.

(** ** C17 for the filters: every schedule gives what the sequential build gives *)
Lemma safe_scan (img : image f32) (scan : Z -> Z -> outcome (list f32)) : wf img ->
  (forall x y, 0 <= x < width (info_of img) -> 0 <= y < height (info_of img) ->
     safe (fun o : list f32 => len o = channels (info_of img)) (scan x y)) ->
  safe (fun out : image f32 => wf out /\ info_of out = info_of img)
    (let! d := mmap (fun i => scan (i mod width (info_of img)) (i / width (info_of img)))
       (zrange 0 (width (info_of img) * height (info_of img))) in Ret (Image (info_of img) (concat d))).
Proof.
  intros Hwf Hs. pose proof (wf_info_ok _ Hwf) as Hok.
  eapply safe_bind.
  - apply (safe_mmap (fun o : list f32 => len o = channels (info_of img))). intros i Hi. apply in_zrange in Hi.
    destruct Hok as [? [? [? [? ?]]]]. assert (0 < width (info_of img)) by nia.
    destruct (pos_surj (width (info_of img)) (height (info_of img)) i) as [Hx [Hy _]]; try lia. apply Hs; assumption.
  - intros d [Hl Hd]. cbn. split; [|reflexivity]. apply concat_wf; auto.
    + rewrite zrange_length in Hl. destruct Hok as [? [? [? [? ?]]]]. unfold len. nia.
    + intros px Hin. rewrite Forall_forall in Hd. apply Hd. exact Hin.
Qed.

Lemma safe_filter_1d p b n (img : image f32) k v :
  wf img -> odd_len k -> len k <= u32_max -> scheduled b (info_of img) ->
  safe (fun out : image f32 => wf out /\ info_of out = info_of img) (filter_1d p b n img k v).
Proof.
  intros Hwf Ho Hk Hb. rewrite filter_1d_eq by assumption. pose proof (wf_c _ Hwf).
  apply (safe_scan img (fun x y => let! s := nb_1d p img k v x y in apply_1d_kernel_par p s k) Hwf).
  intros x y _ _. eapply safe_bind; [apply safe_nb_1d; lia|]. cbv beta. intros s Hs.
  apply (apply_1d_safe p s k (len k)); auto; try lia.
  exists (alpha (info_of img)). rewrite Hs. destruct v; auto.
Qed.

Theorem C17_filter_1d_seq_par p sched n (img : image f32) k is_vert :
  wf img -> len k <= u32_max -> scheduled (Par sched) (info_of img) ->
  filter_1d p (Par sched) n img k is_vert = filter_1d p Seq n img k is_vert.
Proof.
  intros Hwf Hk Hb. destruct (Z.odd (len k)) eqn:Ho.
  - rewrite !filter_1d_eq; auto. exact I.
  - unfold u32_max in *. destruct (C50_rejects p (Par sched) n img k k is_vert ltac:(lia) ltac:(lia)) as [H1 _].
    destruct (C50_rejects p Seq n img k k is_vert ltac:(lia) ltac:(lia)) as [H2 _].
    destruct (H1 Ho) as [-> _]. destruct (H2 Ho) as [-> _]. reflexivity.
Qed.

Theorem C17_separable_filter_seq_par p sched n (img : image f32) vk hk :
  wf img -> len vk <= u32_max -> len hk <= u32_max -> scheduled (Par sched) (info_of img) ->
  separable_filter p (Par sched) n img vk hk = separable_filter p Seq n img vk hk.
Proof.
  intros Hwf Hv Hh Hb. unfold separable_filter. pose proof (len_nonneg vk). unfold u32_max in *.
  rewrite check_odd_ok by ity_lia. destruct (Z.odd (len vk)) eqn:Ho; [|reflexivity].
  apply bind_ext. intros _ _. apply bind_ext. intros _ _. apply bind_ext. intros _ _.
  rewrite C17_filter_1d_seq_par by assumption.
  apply bind_ext. intros mid Em.
  pose proof (safe_filter_1d p Seq n img vk true Hwf Ho ltac:(unfold u32_max; lia) I) as Hsf. rewrite Em in Hsf. cbn in Hsf.
  destruct Hsf as [Hwm Hi]. apply C17_filter_1d_seq_par; auto. rewrite Hi. exact Hb.
Qed.

Theorem C17_unseparable_filter_seq_par p sched n (img : image f32) k :
  wf img -> len k <= 16777216 -> scheduled (Par sched) (info_of img) ->
  unseparable_filter p (Par sched) n img k = unseparable_filter p Seq n img k.
Proof.
  intros Hwf Hk Hb. pose proof (len_nonneg k).
  destruct (Z.odd (len k)) eqn:Ho.
  - destruct (Z_lt_le_dec (Z.sqrt (len k) * Z.sqrt (len k)) (len k)) as [Hlt|Hle].
    + assert (Hn : ~ exists s, len k = s * s).
      { intros [s Es]. pose proof (Z.sqrt_square (Z.abs s) (Z.abs_nonneg s)).
        replace (len k) with (Z.abs s * Z.abs s) in Hlt by lia. rewrite H0 in Hlt. lia. }
      destruct (C50_rejects p (Par sched) n img k k true ltac:(lia) ltac:(lia)) as [_ [_ H1]].
      destruct (C50_rejects p Seq n img k k true ltac:(lia) ltac:(lia)) as [_ [_ H2]].
      rewrite H1, H2 by auto. reflexivity.
    + pose proof (Z.sqrt_spec (len k) ltac:(lia)). pose proof (Z.sqrt_nonneg (len k)).
      cbv zeta in H0. set (s := Z.sqrt (len k)) in *. assert (Es : len k = s * s) by (clear - H0 Hle; lia).
      assert (Hs24 : s * s <= 16777216) by (rewrite <- Es; exact Hk). assert (Hs16 : s <= 65535) by (clear - Hs24 H1; nia).
      destruct (square_side s k Es H1 Hs24) as [Hsq Hside].
      rewrite (unseparable_eq p (Par sched) n img k s) by auto.
      rewrite (unseparable_eq p Seq n img k s) by (auto; exact I). reflexivity.
  - destruct (C50_rejects p (Par sched) n img k k true ltac:(lia) ltac:(lia)) as [H1 _].
    destruct (C50_rejects p Seq n img k k true ltac:(lia) ltac:(lia)) as [H2 _].
    destruct (H1 Ho) as [_ [-> _]]. destruct (H2 Ho) as [_ [-> _]]. reflexivity.
Qed.

(** the remaining public filters are built from these *)
Theorem C17_derived_filters_seq_par p lm sched (img : image f32) sz weight :
  wf img -> scheduled (Par sched) (info_of img) -> 0 <= sz <= u32_max ->
  box_filter p (Par sched) img sz = box_filter p Seq img sz
  /\ (sz <= 4096 -> weighted_avg_filter p (Par sched) img sz weight = weighted_avg_filter p Seq img sz weight)
  /\ sharpen p (Par sched) img = sharpen p Seq img
  /\ unsharp_masking p (Par sched) img = unsharp_masking p Seq img
  /\ laplacian p (Par sched) img = laplacian p Seq img
  /\ prewitt p (Par sched) lm img = prewitt p Seq lm img
  /\ sobel p (Par sched) lm img = sobel p Seq lm img
  /\ sobel_weighted p (Par sched) lm img weight = sobel_weighted p Seq lm img weight.
Proof.
  intros Hwf Hb Hsz.
  assert (HD : forall vk hk, len vk <= u32_max -> len hk <= u32_max ->
     derivative_mask p (Par sched) lm img vk hk = derivative_mask p Seq lm img vk hk).
  { intros vk hk Hv Hh. unfold derivative_mask. rewrite !C17_separable_filter_seq_par by assumption. reflexivity. }
  unfold sharpen, unsharp_masking, laplacian, prewitt, sobel, sobel_weighted.
  rewrite !C17_unseparable_filter_seq_par by (auto; cbn; lia).
  rewrite !HD by (cbn; unfold u32_max; lia).
  split; [|split; [|conj; reflexivity]].
  - unfold box_filter. apply bind_ext. intros _ _. apply bind_ext. intros sq Esq.
    assert (0 <= sq <= u32_max).
    { unfold imul in Esq. pose proof (safe_arith_range p U32 (sz * sz) ltac:(ity_lia)) as Hs. rewrite Esq in Hs. exact Hs. }
    apply C17_separable_filter_seq_par; auto; unfold len; rewrite repeat_length; lia.
  - intros Hs. unfold weighted_avg_filter. apply bind_ext. intros _ _.
    rewrite imul_ok by (cbn; nia). cbn [bind].
    do 5 (apply bind_ext; intros ? _). apply bind_ext. intros k Ek.
    apply C17_unseparable_filter_seq_par; auto.
    unfold vset in Ek. destruct (_ && _); [|discriminate]. injection Ek as <-.
    rewrite len_upd. unfold len. rewrite repeat_length. nia.
Qed.

Theorem C17_linear_filter_seq_par p lm svd sched (img : image f32) k sz sigma :
  wf img -> scheduled (Par sched) (info_of img) -> len k <= 16777216 -> 0 <= sz <= 4096 ->
  linear_filter p (Par sched) svd img k = linear_filter p Seq svd img k
  /\ gaussian_blur p (Par sched) lm svd img sz sigma = gaussian_blur p Seq lm svd img sz sigma
  /\ laplacian_of_gaussian p (Par sched) lm img sz sigma = laplacian_of_gaussian p Seq lm img sz sigma.
Proof.
  intros Hwf Hb Hk Hsz.
  assert (HL : forall k, len k <= 16777216 -> linear_filter p (Par sched) svd img k = linear_filter p Seq svd img k).
  { intros k0 Hk0. unfold linear_filter. apply bind_ext. intros _ _. apply bind_ext. intros _ _.
    apply bind_ext. intros [[vk hk]|] E.
    - unfold separate_kernel in E. cbv zeta in E. destruct (negb _) eqn:En in E; [discriminate|].
      apply bind_inv in E as [[[s u] v] [_ E]]. apply bind_inv in E as [s0 [_ E]].
      destruct (f32_neb s0 f32_0); [|discriminate]. apply bind_inv in E as [sep [_ E]]. destruct sep; [|discriminate].
      apply bind_inv in E as [vk' [Ev E]]. apply bind_inv in E as [hk' [Eh E]]. injection E as <- <-.
      apply mmap_length in Ev. apply mmap_length in Eh. rewrite zrange_length in *.
      assert (f32_to_int USIZE (f32_sqrt (f32_of_Z (len k0))) <= len k0).
      { apply negb_false_iff, Z.eqb_eq in En. pose proof (len_nonneg k0). nia. }
      apply C17_separable_filter_seq_par; auto; unfold len, u32_max; lia.
    - apply C17_unseparable_filter_seq_par; assumption. }
  split; [apply HL; exact Hk|].
  assert (HK : forall num kk, kernel_fill p num sz = Ret kk -> len kk <= 16777216).
  { intros num kk E. unfold kernel_fill in E. rewrite imul_ok in E by (cbn; nia). cbn [bind] in E.
    apply bind_inv in E as [s1 [_ E]]. apply bind_inv in E as [k0 [_ E]].
    match type of E with mfold ?f ?l ?s = _ => pose proof (safe_mfold (fun v => length v = Z.to_nat (sz * sz)) f l s) as HS end.
    rewrite E in HS. cbn [safe] in HS. unfold len. rewrite HS.
    - nia.
    - apply repeat_length.
    - intros s i Hs _. apply safe_mfold; [exact Hs|]. intros s2 j Hs2 _. destruct (i <=? j); [|exact Hs2].
      do 5 (eapply safe_bind; [apply safe_arith|]; intros ? _).
      do 2 (eapply safe_bind; [apply safe_arith|]; intros ? _).
      eapply safe_bind; [apply safe_vset|]. intros s3 Hs3. destruct (negb (i =? j)).
      + do 2 (eapply safe_bind; [apply safe_arith|]; intros ? _). eapply safe_weaken; [apply safe_vset|]. cbv beta. intros. congruence.
      + cbn. congruence. }
  split.
  - unfold gaussian_blur. apply bind_ext. intros kk E. apply HL.
    unfold generate_gaussian_kernel in E. apply bind_inv in E as [_ [_ E]]. eapply HK; eauto.
  - unfold laplacian_of_gaussian. apply bind_ext. intros kk E. apply C17_unseparable_filter_seq_par; auto.
    unfold generate_log_kernel in E. apply bind_inv in E as [_ [_ E]]. eapply HK; eauto.
Qed.

(** the bound on the kernel length is needed: a kernel of 16785407 = 4097^2 - 2 weights passes the
    (f32) squareness check; then the sequential build reports an error and the parallel one panics *)
Theorem C17_long_kernel_differs p (k : list f32) : len k = 16785407 ->
  unseparable_filter p Seq 0 (Image (Info 1 1 1 false) [f32_1]) k = Fail InvalidArgError
  /\ unseparable_filter p (Par (fun _ => [0])) 0 (Image (Info 1 1 1 false) [f32_1]) k = Panic.
Proof.
  intros Hl.
  assert (Hs : check_square (f32_of_Z (len k)) = Ret tt) by (rewrite Hl; vm_compute; reflexivity).
  assert (Hk : kernel_side (len k) = 4097) by (rewrite Hl; vm_compute; reflexivity).
  assert (Hwf : wf (Image (Info 1 1 1 false) [f32_1])) by (apply wfb_wf; reflexivity).
  assert (Hin : inside (Image (Info 1 1 1 false) [f32_1]) 0 0) by (split; cbn; lia).
  assert (Hw : width (info_of (Image (Info 1 1 1 false) [f32_1])) <= 2 ^ 30) by (cbn; lia).
  assert (Hh : height (info_of (Image (Info 1 1 1 false) [f32_1])) <= 2 ^ 30) by (cbn; lia).
  pose proof (nb_2d_ok p _ Hwf Hw Hh 0 0 4097 Hin ltac:(lia)) as Hnb.
  set (img := Image (Info 1 1 1 false) [f32_1]) in *.
  assert (Hap : forall s : subimage f32, width (sub_info s) = 4097 -> apply_2d_kernel_par p s k = Fail InvalidArgError).
  { intros s Es. unfold apply_2d_kernel_par. rewrite Es. rewrite check_odd_ok by (rewrite ?Hl; ity_lia).
    rewrite Hl. cbn [Z.odd bind]. rewrite imul_ok by ity_lia. reflexivity. }
  unfold unseparable_filter. rewrite check_odd_ok by (rewrite ?Hl; ity_lia).
  replace (Z.odd (len k)) with true by (rewrite Hl; reflexivity). cbn [bind]. rewrite Hs, Hk. cbn [bind].
  change (info_of img) with (Info 1 1 1 false). cbn [width height channels alpha].
  change (zrange 0 1) with [0]. split.
  - replace (blank p num_f32 (Info 1 1 1 false)) with (Ret (Image (Info 1 1 1 false) [n_zero num_f32]))
      by (destruct p; reflexivity). rewrite bind_Ret. cbn [mfold]. rewrite Hnb, bind_Ret.
    rewrite apply_2d_seq_par, Hap by reflexivity. reflexivity.
  - replace (size p (Info 1 1 1 false)) with (Ret 1) by (destruct p; reflexivity). rewrite bind_Ret.
    unfold par_collect. cbn [mfold]. rewrite get_2d_coords_ok by (unfold u32_max; lia). rewrite bind_Ret.
    change (0 mod 1) with 0. change (0 / 1) with 0. cbv beta iota. rewrite Hnb, bind_Ret.
    rewrite Hap by reflexivity. reflexivity.
Qed.
Example C17_long_kernel_exists : exists k : list f32, len k = 16785407.
Proof. exists (repeat f32_1 (Z.to_nat 16785407)). unfold len. rewrite repeat_length. apply Z2Nat.id. lia. Qed.
Example C17_filter_example : wf ex_ga /\ scheduled (Par (fun _ => [5; 3; 1; 0; 2; 4])) (info_of ex_ga)
  /\ len K_SHARPEN <= 16777216.
Proof.
  conj; [apply ex_ga_wf| |cbn; lia]. intros n. cbn [info_of ex_ga width height].
  change (zrange 0 (3 * 2)) with [0;1;2;3;4;5].
  apply NoDup_Permutation; [repeat (constructor; [cbn; lia|]); constructor|repeat (constructor; [cbn; lia|]); constructor|].
  intros z. cbn. lia.
Qed.
