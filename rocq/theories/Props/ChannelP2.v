(** * C92: overlay and the linear filters treat the channels separately *)
From Verif.Model Require Import Base Float Image MathM Par Transform Filter.
From Verif.Spec Require Import ImageS ChannelS.
From Verif.Proofs Require Import BaseL ImageL ImageProps Safe TransformL ChannelL FilterL.
From Verif.Props Require Import ChannelP.
Open Scope Z_scope.

(** pasting some channels of a picture over the same channels of another *)
Theorem C92_overlay p {T} ks (back back' front front' : image T) x y out : 0 <= x -> 0 <= y ->
  selection ks back back' -> selection ks front front' -> overlay p back front x y = Ret out ->
  exists out', overlay p back' front' x y = Ret out' /\ selection ks out out' /\ alpha (info_of out') = alpha (info_of back').
Proof.
  intros Hx0 Hy0 H H2 E. unfold overlay in *.
  apply bind_inv in E as ([] & Ec & E).
  assert (Ec' : check_equal_Z (channels (info_of back')) (channels (info_of front')) = Ret tt).
  { rewrite (sl_c _ _ _ H), (sl_c _ _ _ H2). unfold check_equal_Z. rewrite Z.eqb_refl. reflexivity. }
  rewrite Ec'. cbn [bind]. rewrite (sl_w _ _ _ H), (sl_h _ _ _ H), (sl_w _ _ _ H2), (sl_h _ _ _ H2).
  apply bind_inv in E as (xf & Ex & E). rewrite Ex. cbn [bind]. apply bind_inv in E as (yf & Ey & E). rewrite Ey. cbn [bind]. cbv zeta in *.
  match type of E with ?m = _ => match goal with |- exists o, ?m' = Ret o /\ _ =>
    assert (S : osim (selection ks) m m'); [|assert (K : returns (fun o => info_of o = info_of back') m')] end end.
  - apply osim_mfold; [|exact H]. intros j s s' Hj Ss. apply osim_mfold; [|exact Ss].
    intros i t t' Hi St. apply osim_same. intros ix Eix. apply osim_same. intros jy Ejy. u32s.
    apply (osim_bind (picks ks)); [apply get_pixel_sim; auto; lia|]. intros px px' _ _ Hp. apply set_pixel_sim; auto; lia.
  - assert (Ib : info_of back' = info_of back') by reflexivity. revert Ib. generalize (info_of back') at 2 3. intros i0 Ib. keeps.
  - destruct (S out E) as (out' & Eo & So). exists out'. conj; auto. rewrite (K out' Eo). reflexivity.
Qed.

(** ** linear filters *)
(** the same neighbourhood in both runs *)
Definition ssim {T} (ks : list nat) (c : Z) (s s' : subimage T) : Prop :=
  width (sub_info s') = width (sub_info s) /\ height (sub_info s') = height (sub_info s) /\
  channels (sub_info s) = c /\ channels (sub_info s') = len ks /\
  Forall2 (fun px px' => len px = c /\ picks ks px px') (sub_data s) (sub_data s').

Lemma nb_coord_nonneg p c sz i bound : returns (fun v => 0 <= v) (nb_coord p c sz i bound).
Proof.
  unfold nb_coord. apply returns_bind. intros half _. apply returns_bind. intros start _. apply returns_bind. intros cur _.
  apply returns_ret. pose proof (cast_range U32 (if (cur <? 0) || (cast I32 bound <=? cur) then cast I32 c else cur) ltac:(cbn; lia)) as R. cbn in R. lia.
Qed.

Section Kernel.
  Context (p : profile) (ks : list nat) (img img' : image f32) (H : selection ks img img').
  Notation C := (channels (info_of img)).

  Lemma pixel_sim2 x y : 0 <= x -> 0 <= y -> osim (fun px px' => len px = C /\ picks ks px px') (get_pixel p img x y) (get_pixel p img' x y).
  Proof using H.
    intros Hx Hy px E. destruct (get_pixel_sim p ks img img' x y H Hx Hy px E) as (px' & E' & P'). exists px'. conj; auto.
    pose proof (ch_range ks img img' H). pose proof (safe_get_pixel p img x y ltac:(lia) ltac:(lia)) as S. rewrite E in S. exact S.
  Qed.
  Lemma nb1_sim x y sz vert : 0 <= x -> 0 <= y -> osim (ssim ks C) (get_neighborhood_1d p img x y sz vert) (get_neighborhood_1d p img' x y sz vert).
  Proof using H.
    intros Hx Hy. unfold get_neighborhood_1d. cbv zeta. rewrite (sl_w _ _ _ H), (sl_h _ _ _ H). apply osim_same. intros [] _.
    destruct vert; (eapply osim_bind; [apply osim_mmap; intros k _; apply osim_same; intros v Ev; apply pixel_sim2; auto; exact (nb_coord_nonneg _ _ _ _ _ v Ev)|]);
      intros d d' _ _ Hd; apply osim_ret; unfold ssim; cbn [sub_info sub_data width height channels]; conj; auto; apply (sl_c _ _ _ H).
  Qed.
  Lemma Forall2_concat {A B} (R : A -> B -> Prop) l l' : Forall2 (Forall2 R) l l' -> Forall2 R (concat l) (concat l').
  Proof using. induction 1; cbn [concat]; [constructor|]. apply Forall2_app; assumption. Qed.
  Lemma nb2_sim x y sz : 0 <= x -> 0 <= y -> osim (ssim ks C) (get_neighborhood_2d p img x y sz) (get_neighborhood_2d p img' x y sz).
  Proof using H.
    intros Hx Hy. unfold get_neighborhood_2d. cbv zeta. rewrite (sl_w _ _ _ H), (sl_h _ _ _ H). apply osim_same. intros [] _.
    eapply osim_bind; [apply osim_mmap; intros i _; apply osim_mmap; intros j _; apply osim_same; intros u Eu; apply osim_same; intros v Ev; apply pixel_sim2;
      [exact (nb_coord_nonneg _ _ _ _ _ u Eu)|exact (nb_coord_nonneg _ _ _ _ _ v Ev)]|].
    intros d d' _ _ Hd. apply osim_ret. unfold ssim. cbn [sub_info sub_data width height channels]. conj; auto; [apply (sl_c _ _ _ H)|].
    apply Forall2_concat. exact Hd.
  Qed.

  Lemma tap_unroll s k i (out : list f32) : 0 < len out ->
    kernel_tap s k i out = (let! kv := vget k i in let! px := sub_index s i in
      mfold (fun o j => let! v := vget px j in let! u := vget o j in vset o j (f32_add u (f32_mul kv v))) (zrange 0 (len out)) out).
  Proof using.
    intros L. unfold kernel_tap. destruct (vget k i) as [kv| | |] eqn:Ek; cbn [bind].
    - destruct (sub_index s i) as [px| | |] eqn:Es; cbn [bind]; [reflexivity|..]; rewrite zrange_cons by exact L; reflexivity.
    - rewrite zrange_cons by exact L; reflexivity.
    - rewrite zrange_cons by exact L; reflexivity.
    - rewrite zrange_cons by exact L; reflexivity.
  Qed.
  Lemma sub_index_sim (s s' : subimage f32) i : ssim ks C s s' -> osim (fun px px' => len px = C /\ picks ks px px') (sub_index s i) (sub_index s' i).
  Proof using.
    intros (_ & _ & _ & _ & HD) px E. unfold sub_index, vget in *. unfold len in *. rewrite <- (Forall2_len _ _ _ HD).
    destruct (_ && _); [|discriminate].
    revert E. generalize (Z.to_nat i). induction HD as [|u v l l' Huv HD IH]; intros [|n] E; cbn [nth_error] in *; try discriminate.
    - injection E as <-. eauto.
    - apply IH. exact E.
  Qed.
  Lemma tap_sim s s' k i out out' : ssim ks C s s' -> len out = C -> picks ks out out' ->
    osim (fun o o' => len o = C /\ picks ks o o') (kernel_tap s k i out) (kernel_tap s' k i out').
  Proof using H.
    intros Hs Lo Po. pose proof (sl_le _ _ _ H) as Hle. pose proof (picks_len ks out out' Po) as Lo'.
    rewrite !tap_unroll by lia. apply osim_same. intros kv _. eapply osim_bind; [apply sub_index_sim; exact Hs|]. cbv beta. intros px px' _ _ [Lp Pp].
    rewrite Lo, Lo'. apply (each_sample_sim ks C (fun v u => f32_add u (f32_mul kv v)) _ _ _ _ f32_0); auto. apply (sl_ks _ _ _ H).
  Qed.
  Lemma zeros_sim : len (repeat f32_0 (Z.to_nat C)) = C /\ picks ks (repeat f32_0 (Z.to_nat C)) (repeat f32_0 (Z.to_nat (len ks))).
  Proof using H.
    pose proof (ch_range ks img img' H). rewrite len_repeat. split; [lia|]. unfold len. rewrite Nat2Z.id. apply picks_repeat.
    eapply Forall_impl; [|apply (sl_ks _ _ _ H)]. cbv beta. intros; lia.
  Qed.
  Lemma apply1_sim s s' k : ssim ks C s s' -> osim (fun o o' => len o = C /\ picks ks o o') (apply_1d_kernel_par p s k) (apply_1d_kernel_par p s' k).
  Proof using H.
    intros Hs. pose proof Hs as (Ew & Eh & Ec & Ec' & _). unfold apply_1d_kernel_par, size. rewrite Ew, Eh, Ec, Ec'.
    apply osim_same. intros sz _. apply osim_same. intros [] _. apply osim_same. intros [] _. cbv zeta.
    apply osim_mfold; [|exact zeros_sim]. intros i o o' _ [Lo Po]. apply tap_sim; assumption.
  Qed.
  Lemma apply2_sim s s' k : ssim ks C s s' -> osim (fun o o' => len o = C /\ picks ks o o') (apply_2d_kernel_par p s k) (apply_2d_kernel_par p s' k).
  Proof using H.
    intros Hs. pose proof Hs as (Ew & Eh & Ec & Ec' & _). unfold apply_2d_kernel_par, apply_2d_loop. rewrite Ew, Ec, Ec'. cbv zeta.
    apply osim_same. intros [] _. apply osim_same. intros sq _. apply osim_same. intros [] _.
    apply osim_mfold; [|exact zeros_sim]. intros i o o' _ Ho. apply osim_mfold; [|exact Ho]. intros j q q' _ [Lq Pq].
    apply osim_same. intros a _. apply osim_same. intros ix _. apply tap_sim; assumption.
  Qed.
End Kernel.

Lemma osim_unwrap {A B} (R : A -> B -> Prop) m m' : osim R m m' -> osim R (unwrap m) (unwrap m').
Proof.
  intros H a E. destruct m as [x| | |] eqn:Em; try discriminate. cbn in E. injection E as ->.
  destruct (H a eq_refl) as (b & -> & Hb). exists b. split; [reflexivity|exact Hb].
Qed.
Lemma osim_weaken {A B} (R Q : A -> B -> Prop) m m' : (forall a b, R a b -> Q a b) -> osim R m m' -> osim Q m m'.
Proof. intros W H a E. destruct (H a E) as (b & Eb & Hb). exists b. auto. Qed.

(** the shape shared by the two filters: the value of every pixel by [f], written in a loop or collected *)
Lemma filter_fill p ks (img img' out : image f32) (g g' : Z -> Z -> outcome (subimage f32)) (f : subimage f32 -> list f32 -> outcome (list f32)) :
  selection ks img img' ->
  (forall x y, 0 <= x -> 0 <= y -> osim (ssim ks (channels (info_of img))) (g x y) (g' x y)) ->
  (forall s s' q q', ssim ks (channels (info_of img)) s s' -> osim (picks ks) (f s q) (f s' q')) ->
  (let! output := blank p num_f32 (info_of img) in
   let! '(output, _) := mfold (fun '(output, p_out) y => mfold (fun '(output, p_out) x =>
       let! s := g x y in let! p_out := f s p_out in let! output := set_pixel p output x y p_out in Ret (output, p_out))
     (zrange 0 (width (info_of img))) (output, p_out)) (zrange 0 (height (info_of img))) (output, []) in Ret output) = Ret out ->
  exists out', (let! output := blank p num_f32 (info_of img') in
   let! '(output, _) := mfold (fun '(output, p_out) y => mfold (fun '(output, p_out) x =>
       let! s := g' x y in let! p_out := f s p_out in let! output := set_pixel p output x y p_out in Ret (output, p_out))
     (zrange 0 (width (info_of img'))) (output, p_out)) (zrange 0 (height (info_of img'))) (output, []) in Ret output) = Ret out'
    /\ selection ks out out' /\ alpha (info_of out') = alpha (info_of img').
Proof.
  intros H G L E. rewrite (sl_w _ _ _ H), (sl_h _ _ _ H).
  refine (fill_sim p num_f32 ks img img' out (info_of img) (info_of img') _ _ H (sl_w _ _ _ H) (sl_h _ _ _ H) eq_refl eq_refl eq_refl _ _ E (wf_info_ok _ (sl_wf _ _ _ H))).
  - intros b Ib. apply returns_bind. intros [o q] Eo. apply returns_ret.
    refine (returns_mfold (fun s : image f32 * list f32 => info_of (fst s) = info_of img') _ _ _ (b, []) Ib (o, q) Eo).
    intros [s sq] j _ Js. apply (returns_mfold (fun s : image f32 * list f32 => info_of (fst s) = info_of img')); [|exact Js].
    intros [t tq] i _ Jt. apply returns_bind. intros s0 _. apply returns_bind. intros po _. apply returns_bind. intros o2 E2. apply returns_ret. cbn [fst] in *.
    exact (returns_set p t i j po _ Jt o2 E2).
  - intros b b' Ib Ib' Sb. apply (osim_bind (fun s s' : image f32 * list f32 => selection ks (fst s) (fst s'))).
    + apply osim_mfold; [|exact Sb]. intros j [s sq] [s' sq'] Hj Ss. apply osim_mfold; [|exact Ss].
      intros i [t tq] [t' tq'] Hi St. u32s. cbn [fst] in St.
      eapply osim_bind; [apply G; lia|]. intros n n' _ _ Hn.
      apply (osim_bind (picks ks)); [apply L; exact Hn|]. intros po po' _ _ Pp.
      apply (osim_bind (selection ks)); [apply set_pixel_sim; auto; lia|]. intros o o' _ _ So. apply osim_ret. exact So.
    + intros [s sq] [s' sq'] _ _ Ss. apply osim_ret. exact Ss.
Qed.
Lemma filter_collect p sched ks (img img' out : image f32) (f f' : Z -> Z -> outcome (list f32)) :
  selection ks img img' ->
  (forall x y, 0 <= x -> 0 <= y -> osim (fun o o' => len o = channels (info_of img) /\ picks ks o o') (f x y) (f' x y)) ->
  (let! sz := size p (info_of img) in
   let! d := par_collect sched sz (fun i => let! '(x, y) := get_2d_coords p i (width (info_of img)) in f x y) in
   from_vec_of_vec p (width (info_of img)) (height (info_of img)) (channels (info_of img)) (alpha (info_of img)) d) = Ret out ->
  exists out', (let! sz := size p (info_of img') in
   let! d := par_collect sched sz (fun i => let! '(x, y) := get_2d_coords p i (width (info_of img')) in f' x y) in
   from_vec_of_vec p (width (info_of img')) (height (info_of img')) (channels (info_of img')) (alpha (info_of img')) d) = Ret out'
    /\ selection ks out out' /\ alpha (info_of out') = alpha (info_of img').
Proof.
  intros H L E. unfold size in *. pose proof (wf_info_ok _ (sl_wf _ _ _ H)) as Hok. pose proof Hok as (O1 & O2 & O3 & O4 & O5).
  pose proof (sl_le _ _ _ H) as Hle. unfold u32_max in *.
  refine (collect_sim p sched ks img img' out (info_of img) (info_of img') _ _ H (sl_w _ _ _ H) (sl_h _ _ _ H) eq_refl eq_refl eq_refl _ _ E Hok).
  - intros k Hk px Epx. assert (width (info_of img) <> 0) by (intros Z0; rewrite Z0, Z.mul_0_l in Hk; lia).
    assert (k <= 4294967295) by nia. rewrite get_2d_coords_ok in Epx by (unfold u32_max; lia). cbn [bind] in Epx.
    destruct (L (k mod width (info_of img)) (k / width (info_of img))) with (a := px) as (px' & _ & Lp & _);
      [apply Z.mod_pos_bound; lia|apply Z.div_pos; lia|exact Epx|exact Lp].
  - intros k Hk. rewrite (sl_w _ _ _ H). apply coords_sim; try (unfold u32_max; lia).
    intros x y Hx Hy. eapply osim_weaken; [|apply L; assumption]. cbv beta. tauto.
Qed.

(** what an operation makes of an image with as many samples *)
Definition keeps_channels {T} (op : image T -> outcome (image T)) : Prop :=
  forall ks img img' out, selection ks img img' -> op img = Ret out ->
    exists out', op img' = Ret out' /\ selection ks out out' /\ alpha (info_of out') = alpha (info_of img').
Lemma keeps_channelwise {T} (op : image T -> outcome (image T)) : keeps_channels op -> channelwise op.
Proof. intros H ks img img' out Hs E _. exact (H ks img img' out Hs E). Qed.

Lemma keeps_1d p b n kernel (vert : bool) : keeps_channels (fun img => filter_1d p b n img kernel vert).
Proof.
  intros ks img img' out H E. cbv beta in *. unfold filter_1d in *. apply bind_inv in E as ([] & Eo & E). rewrite Eo. cbn [bind]. cbv zeta in *.
  destruct b as [|sched].
  - revert E. apply (filter_fill p ks img img' out (fun x y => get_neighborhood_1d p img x y (cast U32 (len kernel)) vert)
      (fun x y => get_neighborhood_1d p img' x y (cast U32 (len kernel)) vert) (fun s q => apply_1d_kernel_seq p s q kernel)); auto.
    + intros x y Hx Hy. apply nb1_sim; auto.
    + intros s s' q q' Hs. rewrite !apply_1d_seq_par. eapply osim_weaken; [|apply (apply1_sim p ks img img' H); exact Hs]. cbv beta. tauto.
  - revert E. apply (filter_collect p (sched n) ks img img' out (fun x y => let! s := get_neighborhood_1d p img x y (cast U32 (len kernel)) vert in unwrap (apply_1d_kernel_par p s kernel))
      (fun x y => let! s := get_neighborhood_1d p img' x y (cast U32 (len kernel)) vert in unwrap (apply_1d_kernel_par p s kernel))); auto.
    intros x y Hx Hy. apply (osim_bind (ssim ks (channels (info_of img)))); [apply nb1_sim; auto|]. intros s s' _ _ Hs. apply osim_unwrap. apply (apply1_sim p ks img img' H). exact Hs.
Qed.
Lemma keeps_unseparable p b n kernel : keeps_channels (fun img => unseparable_filter p b n img kernel).
Proof.
  intros ks img img' out H E. cbv beta in *. unfold unseparable_filter in *. apply bind_inv in E as ([] & Eo & E). rewrite Eo. cbn [bind].
  apply bind_inv in E as ([] & Es & E). rewrite Es. cbn [bind]. cbv zeta in *.
  destruct b as [|sched].
  - revert E. apply (filter_fill p ks img img' out (fun x y => get_neighborhood_2d p img x y (kernel_side (len kernel)))
      (fun x y => get_neighborhood_2d p img' x y (kernel_side (len kernel))) (fun s q => apply_2d_kernel_seq p s q kernel)); auto.
    + intros x y Hx Hy. apply nb2_sim; auto.
    + intros s s' q q' Hs. rewrite !apply_2d_seq_par. eapply osim_weaken; [|apply (apply2_sim p ks img img' H); exact Hs]. cbv beta. tauto.
  - revert E. apply (filter_collect p (sched n) ks img img' out (fun x y => let! s := get_neighborhood_2d p img x y (kernel_side (len kernel)) in unwrap (apply_2d_kernel_par p s kernel))
      (fun x y => let! s := get_neighborhood_2d p img' x y (kernel_side (len kernel)) in unwrap (apply_2d_kernel_par p s kernel))); auto.
    intros x y Hx Hy. apply (osim_bind (ssim ks (channels (info_of img)))); [apply nb2_sim; auto|]. intros s s' _ _ Hs. apply osim_unwrap. apply (apply2_sim p ks img img' H). exact Hs.
Qed.
Lemma keeps_separable p b n kv kh : keeps_channels (fun img => separable_filter p b n img kv kh).
Proof.
  intros ks img img' out H E. cbv beta in *. unfold separable_filter in *.
  apply bind_inv in E as ([] & E1 & E). apply bind_inv in E as ([] & E2 & E). apply bind_inv in E as ([] & E3 & E). rewrite E1, E2, E3. cbn [bind].
  apply bind_inv in E as (mid & Em & E). destruct (keeps_1d p b n kv true ks img img' mid H Em) as (mid' & Em' & Sm & Am). cbv beta in Em'. rewrite Em'. cbn [bind].
  destruct (keeps_1d p b (S n) kh false ks mid mid' out Sm E) as (out' & Eo & So & Ao). exists out'. conj; auto. congruence.
Qed.
Lemma keeps_linear p b svd kernel : keeps_channels (fun img => linear_filter p b svd img kernel).
Proof.
  intros ks img img' out H E. cbv beta in *. unfold linear_filter in *.
  apply bind_inv in E as ([] & E1 & E). apply bind_inv in E as ([] & E2 & E). apply bind_inv in E as (sep & E3 & E). rewrite E1, E2, E3. cbn [bind].
  destruct sep as [[v h]|].
  - exact (keeps_separable p b 0 v h ks img img' out H E).
  - exact (keeps_unseparable p b 0 kernel ks img img' out H E).
Qed.

Theorem C92_filter_1d p b n kernel (vert : bool) : channelwise (fun img => filter_1d p b n img kernel vert).
Proof. apply keeps_channelwise, keeps_1d. Qed.
Theorem C92_separable_filter p b kv kh : channelwise (fun img => separable_filter p b 0 img kv kh).
Proof. apply keeps_channelwise, keeps_separable. Qed.
Theorem C92_unseparable_filter p b kernel : channelwise (fun img => unseparable_filter p b 0 img kernel).
Proof. apply keeps_channelwise, keeps_unseparable. Qed.
Theorem C92_linear_filter p b svd kernel : channelwise (fun img => linear_filter p b svd img kernel).
Proof. apply keeps_channelwise, keeps_linear. Qed.
Theorem C92_box_filter p b sz : channelwise (fun img => box_filter p b img sz).
Proof.
  apply keeps_channelwise. intros ks img img' out H E. cbv beta in *. unfold box_filter in *.
  apply bind_inv in E as ([] & E1 & E). apply bind_inv in E as (sq & E2 & E). rewrite E1, E2. cbn [bind]. cbv zeta in *. exact (keeps_separable p b 0 _ _ ks img img' out H E).
Qed.
Theorem C92_weighted_avg_filter p b sz weight : channelwise (fun img => weighted_avg_filter p b img sz weight).
Proof.
  apply keeps_channelwise. intros ks img img' out H E. cbv beta in *. unfold weighted_avg_filter in *.
  apply bind_inv in E as ([] & E1 & E). do 7 (apply bind_inv in E as (? & ?Ea & E)). cbv zeta in *.
  rewrite E1. cbn [bind]. repeat (match goal with HE : ?m = Ret _ |- exists o, bind ?m _ = _ /\ _ => rewrite HE; cbn [bind] end).
  exact (keeps_unseparable p b 0 _ ks img img' out H E).
Qed.
Theorem C92_gaussian_blur p b lm svd sz sigma : channelwise (fun img => gaussian_blur p b lm svd img sz sigma).
Proof.
  apply keeps_channelwise. intros ks img img' out H E. cbv beta in *. unfold gaussian_blur in *.
  apply bind_inv in E as (k & E1 & E). rewrite E1. cbn [bind]. exact (keeps_linear p b svd k ks img img' out H E).
Qed.
Theorem C92_sharpen p b : channelwise (fun img => sharpen p b img).
Proof. apply keeps_channelwise. exact (keeps_unseparable p b 0 K_SHARPEN). Qed.
Theorem C92_unsharp_masking p b : channelwise (fun img => unsharp_masking p b img).
Proof. apply keeps_channelwise. exact (keeps_unseparable p b 0 K_UNSHARP_MASKING). Qed.
Theorem C92_laplacian p b : channelwise (fun img => laplacian p b img).
Proof. apply keeps_channelwise. exact (keeps_unseparable p b 0 K_LAPLACIAN). Qed.
Theorem C92_laplacian_of_gaussian p b lm sz sigma : channelwise (fun img => laplacian_of_gaussian p b lm img sz sigma).
Proof.
  apply keeps_channelwise. intros ks img img' out H E. cbv beta in *. unfold laplacian_of_gaussian in *.
  apply bind_inv in E as (k & E1 & E). rewrite E1. cbn [bind]. exact (keeps_unseparable p b 0 k ks img img' out H E).
Qed.
