(** * C50, C51: linear_filter, gaussian_blur, weighted_avg_filter, box_filter. *)
From Verif.Proofs Require Import BaseL ImageL FilterL FloatL FloatL2 DyadL ToneL.
From Verif.Spec Require Import SumS ColorS.
From Verif.Props Require Import ImageP FloatP MatP FilterP FilterP2.
From Coq Require Import Reals.
Open Scope Z_scope.

(** the singular values (on the diagonal of s) say "rank one": the first is not 0, the others are *)
Definition rank_one (sz : Z) (s : list f32) : Prop :=
  f32_eqb (weight s 0) f32_0 = false /\ forall i, 1 <= i < sz -> f32_eqb (weight s (i * sz + i)) f32_0 = true.

Lemma sep_loop (s : list f32) sz l ok : (forall i, In i l -> 0 <= i * sz + i < len s) ->
  mfold (fun (ok : bool) i => if ok then let! d := vget s (i * sz + i) in Ret (negb (f32_neb d f32_0)) else Ret false) l ok
  = Ret (ok && forallb (fun i => f32_eqb (weight s (i * sz + i)) f32_0) l).
Proof.
  revert ok. induction l as [|i l IH]; intros ok Hl; cbn [mfold forallb]; [rewrite andb_true_r; reflexivity|].
  destruct ok; cbn [bind andb].
  - rewrite (vget_ok s _ f32_0) by (apply Hl; left; reflexivity). cbn [bind].
    rewrite IH by (intros; apply Hl; right; assumption). f_equal. f_equal. unfold f32_neb. rewrite negb_involutive. reflexivity.
  - rewrite IH by (intros; apply Hl; right; assumption). reflexivity.
Qed.

Lemma separate_ok svd (k : list f32) sz s u v :
  len k = sz * sz -> 0 < sz -> sz * sz <= 16777216 -> svd sz k = Ret (s, u, v) ->
  len s = sz * sz -> len u = sz * sz -> len v = sz * sz ->
  (rank_one sz s /\ separate_kernel svd k = Ret (Some
      (map (fun i => f32_mul (weight u (i * sz)) (f32_sqrt (weight s 0))) (zrange 0 sz),
       map (fun i => f32_mul (weight v (i * sz)) (f32_sqrt (weight s 0))) (zrange 0 sz))))
  \/ (~ rank_one sz s /\ separate_kernel svd k = Ret None).
Proof.
  intros Hk H0 Hb Hsvd Hs Hu Hv. unfold separate_kernel.
  assert (Hside : f32_to_int USIZE (f32_sqrt (f32_of_Z (len k))) = sz).
  { rewrite Hk. assert (Hr : fin (f32_sqrt (f32_of_Z (sz * sz))) (rnd32 (R_sqrt.sqrt (IZR (sz * sz))))).
    { apply sqrt_fin; [apply of_Z_isZ; nia|]. apply IZR_le. nia. }
    assert (sz <= 4096) by nia.
    rewrite mult_IZR, sqrt_square in Hr by (apply IZR_le; lia).
    unfold rnd32 in Hr. rewrite rnd_Z in Hr by lia. apply (to_int_isZ USIZE _ sz Hr); ity_lia. }
  rewrite Hside. cbv zeta. rewrite (proj2 (Z.eqb_eq (len k) (sz * sz)) Hk). cbn [negb]. rewrite Hsvd. cbn [unwrap bind].
  rewrite (vget_ok s 0 f32_0) by nia. cbn [bind]. change (nth (Z.to_nat 0) s f32_0) with (weight s 0).
  replace (f32_neb (weight s 0) f32_0) with (negb (f32_eqb (weight s 0) f32_0)) by reflexivity.
  destruct (f32_eqb (weight s 0) f32_0) eqn:E0; cbn [negb].
  - right. split; [|reflexivity]. intros [H _]. congruence.
  - rewrite sep_loop by (intros i Hi; apply in_zrange in Hi; nia). cbn [bind andb].
    destruct (forallb _ (zrange 1 sz)) eqn:Ef.
    + left. rewrite forallb_forall in Ef. split.
      * split; [exact E0|]. intros i Hi. apply Ef. apply in_zrange. lia.
      * rewrite (mmap_Ret _ (fun i => f32_mul (weight u (i * sz)) (f32_sqrt (weight s 0)))).
        2: { intros i Hi. apply in_zrange in Hi. rewrite (vget_ok u _ f32_0) by nia. reflexivity. }
        cbn [bind]. rewrite (mmap_Ret _ (fun i => f32_mul (weight v (i * sz)) (f32_sqrt (weight s 0)))).
        2: { intros i Hi. apply in_zrange in Hi. rewrite (vget_ok v _ f32_0) by nia. reflexivity. }
        reflexivity.
    + right. split; [|reflexivity]. intros [_ H].
      assert (forallb (fun i => f32_eqb (weight s (i * sz + i)) f32_0) (zrange 1 sz) = true); [|congruence].
      apply forallb_forall. intros i Hi. apply in_zrange in Hi. apply H. lia.
Qed.

(** linear_filter, for every singular value decomposition (s, u, v) of the right shape that the
    library may return: the kernel itself, unless the decomposition has rank one; then the two
    one-dimensional filters made of the first singular vectors *)
Definition filtered_by_svd (sz : Z) (k s u v : list f32) (img out : image f32) : Prop :=
  (~ rank_one sz s -> correlates (square sz k) img out)
  /\ (rank_one sz s -> exists vk hk mid, len vk = sz /\ len hk = sz
       /\ (forall i, 0 <= i < sz -> weight vk i = f32_mul (weight u (i * sz)) (f32_sqrt (weight s 0)))
       /\ (forall i, 0 <= i < sz -> weight hk i = f32_mul (weight v (i * sz)) (f32_sqrt (weight s 0)))
       /\ correlates (column vk) img mid /\ correlates (row hk) mid out).

Theorem C50_linear_filter p b svd (img : image f32) sz k s u v :
  wf img -> small (info_of img) -> scheduled b (info_of img) ->
  len k = sz * sz -> 0 < sz -> Z.odd sz = true -> sz * sz <= 16777216 ->
  svd sz k = Ret (s, u, v) -> len s = sz * sz -> len u = sz * sz -> len v = sz * sz ->
  exists out, linear_filter p b svd img k = Ret out /\ filtered_by_svd sz k s u v img out.
Proof.
  intros Hwf Hsm Hb Hk H0 Ho Hmax Hsvd Hs Hu Hv. unfold linear_filter.
  destruct (square_side sz k Hk ltac:(lia) Hmax) as [Hsq _].
  rewrite check_odd_ok by (cbn; nia). assert (Hok : Z.odd (len k) = true) by (rewrite Hk, Z.odd_mul, Ho; reflexivity). rewrite Hok. cbn [bind]. rewrite Hsq. cbn [bind].
  destruct (separate_ok svd k sz s u v Hk H0 Hmax Hsvd Hs Hu Hv) as [[Hr E]|[Hr E]]; rewrite E; cbn [bind].
  - match goal with |- exists out, separable_filter _ _ _ _ ?a ?c = _ /\ _ => set (vk := a); set (hk := c) end.
    assert (Lv : len vk = sz) by (unfold vk; rewrite len_map, len_zrange; lia).
    assert (Lh : len hk = sz) by (unfold hk; rewrite len_map, len_zrange; lia).
    destruct (C50_separable_filter p b 0 img vk hk) as [mid [out [Eo [C1 C2]]]]; auto; try congruence; [rewrite Lv; nia|].
    exists out. split; [exact Eo|]. split; [intros Hn; contradiction|]. intros _. exists vk, hk, mid. conj; auto.
    + intros i Hi. unfold weight at 1, vk. rewrite nth_map_zrange by lia. reflexivity.
    + intros i Hi. unfold weight at 1, hk. rewrite nth_map_zrange by lia. reflexivity.
  - destruct (C50_unseparable_filter p b 0 img sz k) as [out [Eo C]]; auto; [lia|].
    exists out. split; [exact Eo|]. split; [auto|]. intros Hn; contradiction.
Qed.

(** gaussian_blur and laplacian_of_gaussian: the same with the radial kernels of C30 *)
Theorem C50_gaussian_blur p b lm svd (img : image f32) sz sigma :
  wf img -> small (info_of img) -> scheduled b (info_of img) -> 0 <= sz -> sz * sz <= 16777216 ->
  (Z.odd sz = false -> gaussian_blur p b lm svd img sz sigma = Fail InvalidArgError
                    /\ laplacian_of_gaussian p b lm img sz sigma = Fail InvalidArgError)
  /\ (Z.odd sz = true ->
      (exists k, radial_kernel sz (gaussian_value lm sigma) k /\
         forall s u v, svd sz k = Ret (s, u, v) -> len s = sz * sz -> len u = sz * sz -> len v = sz * sz ->
         exists out, gaussian_blur p b lm svd img sz sigma = Ret out /\ filtered_by_svd sz k s u v img out)
      /\ exists k out, radial_kernel sz (log_value lm sigma) k
         /\ laplacian_of_gaussian p b lm img sz sigma = Ret out /\ correlates (square sz k) img out).
Proof.
  intros Hwf Hsm Hb H0 Hmax. unfold gaussian_blur, laplacian_of_gaussian.
  destruct (C30_gaussian_kernel p lm sz sigma H0 ltac:(lia)) as [HG1 HG2].
  destruct (C30_log_kernel p lm sz sigma H0 ltac:(lia)) as [HL1 HL2]. split; intros Ho.
  - rewrite HG2, HL2 by exact Ho. split; reflexivity.
  - assert (0 < sz) by (destruct (Z.eq_dec sz 0) as [->|]; [discriminate|lia]).
    destruct (HG1 Ho) as [k [-> Hk]]. destruct (HL1 Ho) as [k' [-> Hk']]. cbn [bind]. split.
    + exists k. split; [exact Hk|]. intros s u v Hsvd Hs Hu Hv. apply (C50_linear_filter p b svd img sz k s u v); auto. apply Hk.
    + destruct (C50_unseparable_filter p b 0 img sz k') as [out [Eo C]]; auto; [apply Hk'|]. exists k', out. auto.
Qed.

(** weighted_avg_filter: a square kernel, weight/sum in the centre and 1/sum elsewhere, sum = size^2 - 1 + weight *)
Theorem C50_weighted_avg_filter p b (img : image f32) sz w :
  wf img -> small (info_of img) -> scheduled b (info_of img) -> 0 <= sz -> sz * sz <= 16777216 ->
  0 <= w -> sz * sz - 1 + w <= u32_max ->
  (Z.odd sz = false -> weighted_avg_filter p b img sz w = Fail InvalidArgError)
  /\ (Z.odd sz = true -> exists k out, weighted_avg_filter p b img sz w = Ret out
      /\ len k = sz * sz /\ correlates (square sz k) img out
      /\ let sum := f32_of_Z (sz * sz - 1 + w) in
         forall i j, 0 <= i < sz -> 0 <= j < sz -> weight k (i * sz + j)
           = if (i =? sz / 2) && (j =? sz / 2) then f32_div (f32_of_Z w) sum else f32_div f32_1 sum).
Proof.
  intros Hwf Hsm Hb H0 Hmax Hw Hsum. unfold weighted_avg_filter. unfold u32_max in *.
  rewrite check_odd_ok by (cbn; nia). split; intros Ho; rewrite Ho; [reflexivity|]. cbn [bind].
  assert (Hpos : 0 < sz) by (destruct (Z.eq_dec sz 0) as [->|]; [discriminate|lia]).
  assert (1 <= sz * sz) by nia.
  rewrite imul_ok by ity_lia. cbn [bind]. rewrite isub_ok by ity_lia. cbn [bind]. rewrite iadd_ok by ity_lia. cbn [bind].
  rewrite idiv_ok by ity_lia. cbn [bind].
  assert (Hodd : sz = 2 * (sz / 2) + 1).
  { rewrite (Z.div_mod sz 2) at 1 by lia. rewrite Zmod_odd, Ho. lia. }
  set (h := sz / 2) in *. assert (Hh : 0 <= h < sz) by lia. assert (0 <= h * sz /\ h * sz + h < sz * sz) by nia.
  rewrite imul_ok by ity_lia. cbn [bind]. rewrite iadd_ok by ity_lia. cbn [bind].
  set (sum := f32_of_Z (sz * sz - 1 + w)).
  assert (Hl : len (repeat (f32_div f32_1 sum) (Z.to_nat (sz * sz))) = sz * sz) by (unfold len; rewrite repeat_length; lia).
  rewrite vset_ok by lia. cbn [bind].
  match goal with |- context [unseparable_filter p b 0 img ?k] => set (kk := k) end.
  assert (Hk : len kk = sz * sz) by (unfold kk; rewrite len_upd; exact Hl).
  destruct (C50_unseparable_filter p b 0 img sz kk) as [out [E C]]; auto.
  exists kk, out. conj; auto. cbv zeta. intros i j Hi Hj.
  assert (0 <= i * sz + j < sz * sz) by nia.
  unfold weight, kk. rewrite nth_upd by (unfold len in Hl; lia).
  destruct ((i =? h) && (j =? h)) eqn:Ec.
  - replace i with h by lia. replace j with h by lia. rewrite Nat.eqb_refl. reflexivity.
  - destruct (Nat.eqb_spec (Z.to_nat (i * sz + j)) (Z.to_nat (h * sz + h))) as [En|_].
    + exfalso. assert (Eij : i * sz + j = h * sz + h) by lia.
      destruct (pos_inj sz j i h h) as [-> ->]; try lia.
    + apply nth_repeat'. lia.
Qed.
Example C50_weighted_example : exists k out, weighted_avg_filter Debug Seq ex_ga 3 2 = Ret out
   /\ correlates (square 3 k) ex_ga out.
Proof.
  destruct (C50_weighted_avg_filter Debug Seq ex_ga 3 2) as [_ H]; try lia; try apply ex_ga_wf; try apply ex_ga_small; try exact I.
  destruct (H eq_refl) as [k [out [E [_ [C _]]]]]. eauto.
Qed.

(** ** C51: box_filter *)
(** what it computes: a column and then a row of size^2 (not size) equal weights 1/size^2 *)
Theorem C51_box_filter p b (img : image f32) sz :
  wf img -> small (info_of img) -> scheduled b (info_of img) -> 0 <= sz -> sz * sz <= 2 ^ 30 ->
  (Z.odd sz = false -> box_filter p b img sz = Fail InvalidArgError)
  /\ (Z.odd sz = true -> exists k mid out, box_filter p b img sz = Ret out
      /\ len k = sz * sz /\ (forall i, 0 <= i < sz * sz -> weight k i = f32_div f32_1 (f32_of_Z (sz * sz)))
      /\ correlates (column k) img mid /\ correlates (row k) mid out).
Proof.
  intros Hwf Hsm Hb H0 Hmax. unfold box_filter. rewrite check_odd_ok by (cbn; nia).
  split; intros Ho; rewrite Ho; [reflexivity|]. cbn [bind]. rewrite imul_ok by (cbn; nia). cbn [bind].
  set (k := repeat _ _). assert (Hk : len k = sz * sz) by (unfold k, len; rewrite repeat_length; nia).
  destruct (C50_separable_filter p b 0 img k k) as [mid [out [E [C1 C2]]]]; auto.
  - rewrite Hk, Z.odd_mul, Ho. reflexivity.
  - lia.
  - exists k, mid, out. conj; auto. intros i Hi. unfold weight, k. apply nth_repeat'. lia.
Qed.

(** the result at (x, y) depends only on the window of side size^2 *)
Theorem C51_box_filter_window p b (img img' out out' : image f32) sz x y c :
  wf img -> wf img' -> info_of img = info_of img' -> small (info_of img) -> scheduled b (info_of img) ->
  0 <= sz -> sz * sz <= 2 ^ 30 ->
  box_filter p b img sz = Ret out -> box_filter p b img' sz = Ret out' ->
  inside img x y -> 0 <= c < channels (info_of img) ->
  (forall x' y', inside img x' y' -> Z.abs (x' - x) <= (sz * sz) / 2 -> Z.abs (y' - y) <= (sz * sz) / 2 ->
     value img x' y' c = value img' x' y' c) ->
  value out x y c = value out' x y c.
Proof.
  intros Hwf Hwf' Hi Hsm Hb H0 Hmax E E' Hin Hc Heq.
  destruct (C51_box_filter p b img sz) as [Hf Ht]; auto.
  destruct (C51_box_filter p b img' sz) as [Hf' Ht']; try (rewrite <- Hi); auto.
  destruct (Z.odd sz) eqn:Ho; [|rewrite (Hf eq_refl) in E; discriminate].
  destruct (Ht eq_refl) as [k [mid [o [Eo [Lk [Wk [C1 C2]]]]]]].
  destruct (Ht' eq_refl) as [k' [mid' [o' [Eo' [Lk' [Wk' [C1' C2']]]]]]].
  rewrite E in Eo. injection Eo as <-. rewrite E' in Eo'. injection Eo' as <-.
  assert (k' = k) as ->.
  { apply (list_ext _ _ f32_0); [unfold len in *; lia|]. intros i Hlt. unfold len in *.
    specialize (Wk (Z.of_nat i) ltac:(lia)). specialize (Wk' (Z.of_nat i) ltac:(lia)). unfold weight in *.
    rewrite Nat2Z.id in *. congruence. }
  assert (Hsq : sz * sz = 2 * ((sz * sz) / 2) + 1).
  { rewrite (Z.div_mod (sz * sz) 2) at 1 by lia. rewrite Zmod_odd, Z.odd_mul, Ho. cbn [andb]. lia. }
  pose proof Hin as [Hx Hy]. pose proof (proj1 C1) as Im. pose proof (proj1 C1') as Im'.
  destruct C2 as [_ [_ V2]]. destruct C2' as [_ [_ V2']].
  rewrite V2 by (unfold inside; rewrite Im; auto). rewrite V2' by (unfold inside; rewrite Im', <- Hi; auto).
  unfold correlation. rewrite Im, Im', <- Hi. f_equal. apply map_ext_in. intros [[w dx] dy] Ht1. f_equal.
  unfold row in Ht1. apply in_map_iff in Ht1 as [i [Ei Hi']]. apply in_zrange in Hi'. injection Ei as _ <- <-.
  rewrite padded_0. set (x' := padded (width (info_of img)) x (i - len k / 2)).
  assert (Hx' : 0 <= x' < width (info_of img)) by (apply padded_range; exact Hx).
  assert (Hdx : Z.abs (x' - x) <= sz * sz / 2) by (unfold x', padded; rewrite Lk in *; destruct (_ && _); lia).
  destruct C1 as [_ [_ V1]]. destruct C1' as [_ [_ V1']].
  rewrite V1 by (auto; split; auto). rewrite V1' by (unfold inside; rewrite <- ?Hi; auto).
  unfold correlation. rewrite <- Hi. f_equal. apply map_ext_in. intros [[w' dx'] dy'] Ht2. f_equal.
  unfold column in Ht2. apply in_map_iff in Ht2 as [i' [Ei Hi2]]. apply in_zrange in Hi2. injection Ei as _ <- <-.
  rewrite padded_0. set (y' := padded (height (info_of img)) y (i' - len k / 2)).
  assert (Hy' : 0 <= y' < height (info_of img)) by (apply padded_range; exact Hy).
  apply Heq; [split; assumption|exact Hdx|].
  unfold y', padded; rewrite Lk in *; destruct (_ && _); lia.
Qed.

(** the documented size x size window is refuted: with size 3, two rows of nine samples that differ only in
    the first one (distance 4 > 1 from the middle) get different middle samples *)
Definition box_a : image f32 := Image (Info 9 1 1 false) (map f32_of_Z [0;0;0;0;0;0;0;0;0]).
Definition box_b : image f32 := Image (Info 9 1 1 false) (map f32_of_Z [81;0;0;0;0;0;0;0;0]).
Theorem C51_box_window_refuted p :
  wf box_a /\ wf box_b /\ inside box_a 4 0
  /\ (forall x y, inside box_a x y -> Z.abs (x - 4) <= 1 -> Z.abs (y - 0) <= 1 -> pixel_at box_a x y = pixel_at box_b x y)
  /\ exists out out', box_filter p Seq box_a 3 = Ret out /\ box_filter p Seq box_b 3 = Ret out'
     /\ f32_eqb (value out 4 0 0) (value out' 4 0 0) = false.
Proof.
  split; [apply wfb_wf; reflexivity|]. split; [apply wfb_wf; reflexivity|]. split; [split; cbn; lia|]. split.
  - intros x y [_ Hy] Hx _. cbn in Hy. assert (y = 0) as -> by lia.
    assert (x = 3 \/ x = 4 \/ x = 5) as [->|[->| ->]] by lia; reflexivity.
  - assert (Ha : match box_filter p Seq box_a 3, box_filter p Seq box_b 3 with
      | Ret o, Ret o' => f32_eqb (value o 4 0 0) (value o' 4 0 0) = false | _, _ => False end) by (destruct p; vm_compute; reflexivity).
    revert Ha. generalize (box_filter p Seq box_a 3) (box_filter p Seq box_b 3).
    intros [o| | |] [o'| | |] Ha; try (exfalso; exact Ha). exists o, o'. exact (conj eq_refl (conj eq_refl Ha)).
Qed.
(** size * size is computed in 32 bits: a debug build panics, a release build filters with the wrapped length *)
Theorem C51_box_overflow_debug b (img : image f32) sz : 65536 < sz <= u32_max -> Z.odd sz = true ->
  box_filter Debug b img sz = Panic.
Proof.
  intros Hs Ho. unfold u32_max in *. unfold box_filter. rewrite check_odd_ok by ity_lia. rewrite Ho. cbn [bind].
  unfold imul, arith. replace (in_ity U32 (sz * sz)) with false; [reflexivity|]. symmetry. unfold in_ity. cbn. nia.
Qed.
