(** * Which filters can return an error, exactly: lemmas for C102 *)
From Verif.Proofs Require Import BaseL ErrL FilterL.
From Verif.Model Require Import Base Float Image MathM Util Par Filter.
Open Scope Z_scope.

(** as [only_bind], remembering where the value came from *)
Lemma only_bind_eq w {A B} (a : outcome A) (f : A -> outcome B) : only w a -> (forall x, a = Ret x -> only w (f x)) -> only w (bind a f).
Proof. intros H K. destruct a; cbn [bind]; [apply K; reflexivity|exact H|exact I|exact I]. Qed.

Lemma nb1_size p {T} (img : image T) x y sz v s : 0 <= sz <= u32_max -> get_neighborhood_1d p img x y sz v = Ret s -> size p (sub_info s) = Ret sz.
Proof.
  intros Hs E. unfold get_neighborhood_1d in E. apply bind_inv in E. destruct E as (t & _ & E).
  assert (K : in_ity U32 sz = true) by (unfold in_ity, u32_max in *; cbn; lia).
  destruct v; apply bind_inv in E; destruct E as (d & _ & E); injection E as <-; cbn [sub_info]; unfold size, imul, arith; cbn [width height].
  - rewrite Z.mul_1_l, K. reflexivity.
  - rewrite Z.mul_1_r, K. reflexivity.
Qed.
Lemma nb2_width p {T} (img : image T) x y sz s : get_neighborhood_2d p img x y sz = Ret s -> width (sub_info s) = sz.
Proof. intros E. unfold get_neighborhood_2d in E. apply bind_inv in E. destruct E as (t & _ & E). apply bind_inv in E. destruct E as (d & _ & E). injection E as <-. reflexivity. Qed.

Lemma check_odd_usize p n : 0 <= n <= u32_max -> check_odd p (num_int USIZE) n = if Z.odd n then Ret tt else Fail InvalidArgError.
Proof. intros H. apply check_odd_ok; unfold u32_max in *; cbn; lia. Qed.

Section F.
  Context (u : bool) (p : profile) (b : build).
  Lemma k1s_odd s o k : len k <= u32_max -> Z.odd (len k) = true -> size p (sub_info s) = Ret (len k) -> only u (apply_1d_kernel_seq p s o k).
  Proof.
    intros H1 H2 E. unfold apply_1d_kernel_seq. rewrite E. cbn [bind]. rewrite check_odd_usize by (unfold len in *; lia). rewrite H2. cbn [bind].
    unfold check_equal_Z. rewrite Z.eqb_refl. cbn [bind]. only_tac.
  Qed.
  Lemma filter_1d_odd n i k v : len k <= u32_max -> Z.odd (len k) = true -> only u (filter_1d p b n i k v).
  Proof.
    intros H1 H2. unfold filter_1d. rewrite check_odd_usize by (unfold len in *; lia). rewrite H2. cbn [bind]. cbv zeta.
    assert (C : cast U32 (len k) = len k) by (unfold cast, in_ity, u32_max in *; assert (0 <= len k) by (unfold len; lia); cbn; rewrite Z.mod_small; lia).
    rewrite C. destruct b as [|sched]; [|only_tac].
    apply only_bind; [only_tac|]. intros out. apply only_bind; [|intros [o1 o2]; exact I].
    apply only_mfold. intros [o1 o2] y. apply only_mfold. intros [o3 o4] x.
    apply only_bind_eq; [only_tac|]. intros s Es. apply nb1_size in Es; [|unfold len, u32_max in *; lia].
    apply only_bind; [apply k1s_odd; assumption|]. only_tac.
  Qed.
  Lemma sep_odd n i k l : len k <= u32_max -> Z.odd (len k) = true -> len l = len k -> only u (separable_filter p b n i k l).
  Proof.
    intros H1 H2 E. unfold separable_filter. rewrite E, check_odd_usize by (unfold len in *; lia). rewrite H2. cbn [bind].
    unfold check_equal_Z. rewrite Z.eqb_refl. cbn [bind]. apply only_bind; [apply filter_1d_odd; assumption|]. intros v. apply filter_1d_odd; rewrite E; assumption.
  Qed.
  Lemma unsep_odd n i k sz : len k <= u32_max -> Z.odd (len k) = true -> check_square (f32_of_Z (len k)) = Ret tt -> kernel_side (len k) = sz -> sz * sz = len k -> only u (unseparable_filter p b n i k).
  Proof.
    intros H1 H2 Hq Hk Es. unfold unseparable_filter. rewrite check_odd_usize by (unfold len in *; lia). rewrite H2. cbn [bind]. rewrite Hq, Hk. cbn [bind]. cbv zeta.
    destruct b as [|sched]; [|only_tac].
    apply only_bind; [only_tac|]. intros out. apply only_bind; [|intros [o1 o2]; exact I].
    apply only_mfold. intros [o1 o2] y. apply only_mfold. intros [o3 o4] x.
    apply only_bind_eq; [only_tac|]. intros s E. apply nb2_width in E.
    apply only_bind; [|only_tac]. unfold apply_2d_kernel_seq. rewrite E, check_odd_usize by (unfold len in *; lia). rewrite H2. cbn [bind].
    assert (K : in_ity USIZE (sz * sz) = true) by (rewrite Es; unfold in_ity, len, u32_max in *; cbn; lia).
    unfold imul, arith. rewrite K. cbn [bind]. rewrite Es. unfold check_equal_Z. rewrite Z.eqb_refl. cbn [bind]. only_tac.
  Qed.
End F.

Lemma side9 : check_square (f32_of_Z 9) = Ret tt /\ kernel_side 9 = 3. Proof. split; vm_compute; reflexivity. Qed.
Lemma side25 : check_square (f32_of_Z 25) = Ret tt /\ kernel_side 25 = 5. Proof. split; vm_compute; reflexivity. Qed.
Section G.
  Context (u : bool) (p : profile) (b : build) (lm : libm).
  Lemma sharpen_only i : only u (sharpen p b i).
  Proof. destruct side9 as [S K]. apply (unsep_odd u p b 0 i K_SHARPEN 3); [unfold u32_max; cbn; lia|reflexivity|exact S|exact K|reflexivity]. Qed.
  Lemma laplacian_only i : only u (laplacian p b i).
  Proof. destruct side9 as [S K]. apply (unsep_odd u p b 0 i K_LAPLACIAN 3); [unfold u32_max; cbn; lia|reflexivity|exact S|exact K|reflexivity]. Qed.
  Lemma unsharp_only i : only u (unsharp_masking p b i).
  Proof. destruct side25 as [S K]. apply (unsep_odd u p b 0 i K_UNSHARP_MASKING 5); [unfold u32_max; cbn; lia|reflexivity|exact S|exact K|reflexivity]. Qed.
  Lemma deriv_only i k l : len k <= u32_max -> Z.odd (len k) = true -> len l = len k -> check_grayscale i = Ret tt -> only u (derivative_mask p b lm i k l).
  Proof.
    intros H1 H2 E G. unfold derivative_mask. rewrite G. cbn [bind].
    apply only_bind; [apply sep_odd; assumption|]. intros gx. apply only_bind; [apply sep_odd; rewrite ?E; congruence|]. only_tac.
  Qed.
End G.
