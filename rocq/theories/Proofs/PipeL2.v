(** * What a debug build returns: the library's functions (for C101) *)
From Verif.Proofs Require Import BaseL ImageL TransformL PipeL.
From Verif.Model Require Import Base Float Image MathM Util Par Convert Simd Colorspace Filter Transform Tone Morph Bilateral Median Trimmed.
From Verif.Spec Require Import ImageS.
Open Scope Z_scope.

Notation Fl := (fun _ : f32 => True).
Ltac skip := apply e_bind_any; intros ?.
Ltac fst_weak := eapply e_fst.
Ltac keep_like := eapply e_like; [eassumption|].

(** ** loops over two coordinates *)
Section Loop2.
  Context {T : Type} (P : T -> Prop).
  Lemma e_write2 (f : image T -> Z -> Z -> outcome (image T)) l1 l2 img : W P img -> (forall o j i, W P o -> ens (fun o' => W P o' /\ like o o') (f o j i)) ->
    ens (fun o => W P o /\ like img o) (mfold (fun o j => mfold (fun o i => f o j i) l2 o) l1 img).
  Proof using Type.
    intros H Hf. apply e_write; [exact H|]. intros o j H1 H2. keep_like. apply e_write; [exact H1|]. intros o' i K1 K2. keep_like. apply Hf. exact K1.
  Qed.
End Loop2.

(** ** transform.rs *)
Section Transform.
  Context {T : Type} (P : T -> Prop) (N : number T) (Hz : P (n_zero N)).
  Lemma e_crop_seq (img : image T) x y w h : W P img -> 0 <= w <= u32_max -> 0 <= h <= u32_max -> ens (W P) (crop_seq Debug N img x y w h).
  Proof using Hz.
    intros H Hw Hh. unfold crop_seq. skip. eapply e_bind; [apply (e_blank P); [exact Hz|exact Hw|exact Hh|eapply W_c; exact H]|]. intros o [Ho _].
    fst_weak. apply e_write2; [exact Ho|]. intros o' j i Ho'. skip. skip. eapply e_bind; [apply e_get_pixel; exact H|]. intros px [K _]. apply e_set_pixel; assumption.
  Qed.
  Lemma e_crop_par s (img : image T) x y w h : W P img -> 0 <= w <= u32_max -> 0 <= h <= u32_max -> ens (W P) (crop_par Debug s img x y w h).
  Proof using Type.
    intros H Hw Hh. unfold crop_par. skip. eapply e_bind; [apply e_imul|]. intros sz [-> Hs]. cbn [lo U32] in Hs.
    eapply e_bind; [apply (e_par (px_ok P (channels (info_of img)))); [lia|]|].
    - intros k. skip. destruct a0 as [a0 b0]. skip. skip. apply e_get_pixel. exact H.
    - intros d [K1 K2]. apply e_from_vec_of_slice; try assumption. eapply W_c; exact H.
  Qed.
  Lemma e_overlay (back front : image T) x y : W P back -> W P front -> ens (W P) (overlay Debug back front x y).
  Proof using Type.
    intros H K. unfold overlay. do 3 skip. fst_weak. apply e_write2; [exact H|]. intros o j i Ho. do 2 skip. eapply e_bind; [apply e_get_pixel; exact K|]. intros px [Hp _]. apply e_set_pixel; assumption.
  Qed.
  Lemma e_translate (img : image T) x y : W P img -> ens (W P) (translate Debug N img x y).
  Proof using Hz.
    intros H. unfold translate. eapply e_bind; [apply (e_blank_like P P); [exact Hz|exact H]|]. intros o [Ho _]. fst_weak. apply e_write2; [exact Ho|].
    intros o' j i Ho'. do 2 skip. eapply e_bind; [apply e_get_pixel; exact H|]. intros px [Hp _]. apply e_set_pixel; assumption.
  Qed.
  Lemma e_reflect (img : image T) r : W P img -> ens (W P) (reflect_image Debug N img r).
  Proof using Hz.
    intros H. unfold reflect_image. eapply e_bind; [apply (e_blank_like P P); [exact Hz|exact H]|]. intros o [Ho _]. cbv zeta. destruct r; (fst_weak; apply e_write2; [exact Ho|];
    intros o' j i Ho'; do 2 skip; (eapply e_bind; [apply e_get_pixel; exact H|]); intros px [Hp _]; apply e_set_pixel; assumption).
  Qed.
  Lemma e_residual (a b : image T) : (forall x y, P x -> P y -> ens P (n_sub N Debug x y)) -> W P a -> W P b -> ens (W P) (residual Debug N a b).
  Proof using Type.
    intros Hs H K. unfold residual. eapply e_bind with (R := fun _ => info_of a = info_of b).
    { unfold check_equal_info. destruct (info_eqb _ _) eqn:E; [|apply e_Fail]. apply e_Ret. apply info_eqb_eq. exact E. }
    intros _ E. cbv zeta.
    set (c := channels (info_of a)). assert (Hc : 0 <= c <= 255) by (eapply W_c; exact H).
    set (w := width (info_of a)). set (h := height (info_of a)).
    assert (Hw : 0 <= w) by (destruct H as [[] _]; lia). assert (Hh : 0 <= h) by (destruct H as [[] _]; lia).
    set (row := fun (d : list T) (y : Z) => mfold (fun d x => _) _ d).
    assert (Hpx : forall d x y, Forall P d -> ens (fun d' => Forall P d' /\ len d' = len d + c)
       (let! p1 := get_pixel Debug a x y in let! p2 := get_pixel Debug b x y in
        mfold (fun d c => let! u := vget p1 c in let! v := vget p2 c in let! r := n_sub N Debug u v in Ret (d ++ [r])) (zrange 0 c) d)).
    { intros d x y Hd. eapply e_bind; [apply e_get_pixel; exact H|]. intros p1 [H1 _]. eapply e_bind; [apply e_get_pixel; exact K|]. intros p2 [H2 _].
      replace (len d + c) with (len d + len (zrange 0 c)) by (rewrite len_zrange; lia). generalize (zrange 0 c). intros l. revert d Hd.
      induction l as [|k l IH]; intros d Hd; cbn [mfold]; [apply e_Ret; split; [exact Hd|unfold len; cbn [length]; lia]|].
      eapply e_bind with (R := fun d' => Forall P d' /\ len d' = len d + 1).
      - eapply e_bind; [apply e_vget; exact H1|]. intros u Hu. eapply e_bind; [apply e_vget; exact H2|]. intros v Hv. eapply e_bind; [apply Hs; assumption|]. intros r Hr.
        apply e_Ret. split; [apply Forall_app; auto|]. rewrite len_app. reflexivity.
      - intros d' [Hd' Hl]. eapply e_weak; [apply IH; exact Hd'|]. intros d2 [K1 K2]. split; [exact K1|]. unfold len in *. cbn [length]. lia. }
    assert (Hrow : forall d y, Forall P d -> ens (fun d' => Forall P d' /\ len d' = len d + w * c) (row d y)).
    { intros d y Hd. unfold row. replace (w * c) with (len (zrange 0 w) * c) by (rewrite len_zrange; lia). generalize (zrange 0 w). intros l. revert d Hd.
      induction l as [|k l IH]; intros d Hd; cbn [mfold]; [apply e_Ret; split; [exact Hd|unfold len; cbn [length]; lia]|].
      eapply e_bind; [apply Hpx; exact Hd|]. intros d' [Hd' Hl]. eapply e_weak; [apply IH; exact Hd'|]. intros d2 [K1 K2]. split; [exact K1|]. unfold len in *. cbn [length]. lia. }
    eapply e_bind with (R := fun d' => Forall P d' /\ len d' = h * (w * c)).
    - replace (h * (w * c)) with (len (@nil T) + len (zrange 0 h) * (w * c)) by (rewrite len_zrange by lia; unfold len; cbn [length]; lia). assert (Hn : Forall P []) by constructor. revert Hn.
      generalize (zrange 0 h) (@nil T). intros l. induction l as [|k l IH]; intros d Hd; cbn [mfold]; [apply e_Ret; split; [exact Hd|unfold len; cbn [length]; lia]|].
      eapply e_bind; [apply Hrow; exact Hd|]. intros d' [Hd' Hl]. eapply e_weak; [apply IH; exact Hd'|]. intros d2 [K1 K2]. split; [exact K1|]. unfold len in *. cbn [length]. lia.
    - intros d [K1 K2]. apply e_Ret. unfold from_slice, w, h, c in *. replace (Info _ _ _ _) with (info_of a) by (destruct (info_of a); reflexivity). eapply W_data; [exact H| |exact K1].
      destruct H as [[] _]. rewrite K2. lia.
  Qed.
End Transform.

Lemma e_superimpose (back front : image f32) x y al : W Fl back -> W Fl front -> ens (W Fl) (superimpose Debug back front x y al).
Proof.
  intros H K. unfold superimpose. do 4 skip. fst_weak. apply e_write2 with (f := fun o j i => _); [exact H|]. intros o j i Ho. do 5 skip. apply e_set_pixel; [exact Ho|apply Forall_True].
Qed.

(** interpolation: a pixel of as many samples as the image has channels *)
Lemma e_len_mmap {B} (f : Z -> outcome B) n : 0 <= n -> ens (fun l => len l = n) (mmap f (zrange 0 n)).
Proof. intros Hn. eapply e_weak; [apply (e_mmap (fun _ => True)); intros; apply e_any|]. intros l [_ E]. rewrite E, len_zrange; lia. Qed.
Lemma e_vset_len {A} (v : list A) i x : ens (fun w => len w = len v) (vset v i x).
Proof. eapply e_weak; [apply (e_vset (fun _ => True)); [apply Forall_True|exact I]|]. intros w [_ E]. exact E. Qed.
Lemma e_mfold_len {A B} (f : list B -> A -> outcome (list B)) l v n : len v = n -> (forall w a, len w = n -> ens (fun u => len u = n) (f w a)) -> ens (fun u => len u = n) (mfold f l v).
Proof. intros Hv Hf. apply e_mfold; assumption. Qed.
Lemma e_resample (img : image f32) rng x y wt : 0 <= channels (info_of img) -> ens (fun px => len px = channels (info_of img)) (resample Debug img rng x y wt).
Proof.
  intros Hc. unfold resample. cbv zeta. apply e_mfold_len; [rewrite len_repeat; lia|]. intros v m Hv. skip. cbv zeta. apply e_mfold_len; [exact Hv|]. intros v' n Hv'. do 2 skip. cbv zeta.
  apply e_mfold_len; [exact Hv'|]. intros u c Hu. do 2 skip. rewrite <- Hu. apply e_vset_len.
Qed.
Section Interp.
  Context (lm : libm) (img : image f32) (H : W Fl img).
  Lemma e_lanczos a b z x y : ens (fun px => len px = channels (info_of img)) (interpolate_lanczos Debug lm img a b z x y).
  Proof using H. unfold interpolate_lanczos. cbv zeta. do 2 skip. apply e_resample. pose proof (W_c _ _ H). lia. Qed.
  Lemma e_interp m a b x y : ens (fun px => len px = channels (info_of img)) (scale_interp Debug lm m img a b x y).
  Proof using H.
    pose proof (W_c _ _ H) as Hc. destruct m; cbn [scale_interp].
    - unfold interpolate_nearest_neighbor. skip. cbv zeta. skip. cbv zeta. eapply e_weak; [apply (e_get_pixel Fl); exact H|]. intros px [_ E]. exact E.
    - unfold interpolate_bilinear. cbv zeta. do 6 skip. apply e_len_mmap. lia.
    - unfold interpolate_bicubic. cbv zeta. apply e_resample. lia.
    - apply e_lanczos.
  Qed.
  Lemma scale_info_ok a b : 0 <= width (scale_info img a b) <= u32_max /\ 0 <= height (scale_info img a b) <= u32_max /\ 0 <= channels (scale_info img a b) <= 255.
  Proof using H. unfold scale_info. cbn [width height channels]. repeat split; try (apply f32_to_int_u32); apply (W_c _ _ H). Qed.
  Lemma e_scale_loop_seq interp o : W Fl o -> ens (W Fl) (scale_loop_seq Debug interp o).
  Proof using Type. intros Ho. unfold scale_loop_seq. fst_weak. apply e_write2 with (f := fun o j i => _); [exact Ho|]. intros o' j i Ho'. skip. apply e_set_pixel; [exact Ho'|apply Forall_True]. Qed.
  Lemma e_scale_loop_par s interp i : 0 <= width i <= u32_max -> 0 <= height i <= u32_max -> 0 <= channels i <= 255 -> (forall x y, ens (fun px : list f32 => len px = channels i) (interp x y)) ->
    ens (W Fl) (scale_loop_par Debug s interp i).
  Proof using Type.
    intros Hw Hh Hc Hi. unfold scale_loop_par. eapply e_bind; [apply e_size|]. intros sz (-> & Hs). eapply e_bind; [apply (e_par (px_ok Fl (channels i))); [lia|]|].
    - intros k. skip. destruct a as [x y]. eapply e_weak; [apply Hi|]. intros px E. split; [apply Forall_True|exact E].
    - intros d [K1 K2]. apply e_from_vec_of_vec; assumption.
  Qed.
  Lemma e_scale_seq a b m : ens (W Fl) (scale_seq Debug lm img a b m).
  Proof using H.
    unfold scale_seq. do 2 skip. destruct (scale_info_ok a b) as (H1 & H2 & H3). destruct (scale_info img a b) as [w h c al]. eapply e_bind; [apply (e_blank Fl); [exact I|exact H1|exact H2|exact H3]|].
    intros o [Ho _]. apply e_scale_loop_seq. exact Ho.
  Qed.
  Lemma e_scale_par s a b m : ens (W Fl) (scale_par Debug lm s img a b m).
  Proof using H. unfold scale_par. do 2 skip. destruct (scale_info_ok a b) as (H1 & H2 & H3). apply e_scale_loop_par; try assumption. intros x y. apply e_interp. Qed.
  Lemma e_scale_lanczos_seq a b z : ens (W Fl) (scale_lanczos_seq Debug lm img a b z).
  Proof using H.
    unfold scale_lanczos_seq. do 3 skip. destruct (scale_info_ok a b) as (H1 & H2 & H3). destruct (scale_info img a b) as [w h c al]. eapply e_bind; [apply (e_blank Fl); [exact I|exact H1|exact H2|exact H3]|].
    intros o [Ho _]. apply e_scale_loop_seq. exact Ho.
  Qed.
  Lemma e_scale_lanczos_par s a b z : ens (W Fl) (scale_lanczos_par Debug lm s img a b z).
  Proof using H. unfold scale_lanczos_par. do 3 skip. destruct (scale_info_ok a b) as (H1 & H2 & H3). apply e_scale_loop_par; try assumption. intros x y. apply e_lanczos. Qed.
  Lemma e_rotate d : ens (W Fl) (rotate Debug lm img d).
  Proof using H.
    unfold rotate, rotate_by. cbv zeta. do 13 skip. eapply e_bind; [apply (e_blank Fl); [exact I|apply f32_to_int_u32|apply f32_to_int_u32|apply (W_c _ _ H)]|]. intros o [Ho _].
    fst_weak. apply e_write2 with (f := fun o j i => _); [exact Ho|]. intros o' j i Ho'. do 4 skip. eapply e_bind; [apply e_set_pixel; [exact Ho'|apply Forall_True]|]. intros o2 [K1 K2].
    destruct (f32_geb _ _); [|apply e_Ret; auto]. skip. keep_like. apply e_set_pixel; [exact K1|apply Forall_True].
  Qed.
  Lemma e_shear a b : ens (W Fl) (shear Debug img a b).
  Proof using H.
    unfold shear. cbv zeta. eapply e_bind; [apply e_iadd|]. intros w [_ Hw]. eapply e_bind; [apply e_iadd|]. intros h [_ Hh].
    eapply e_bind; [apply (e_blank Fl); [exact I|exact Hw|exact Hh|apply (W_c _ _ H)]|]. intros o [Ho _].
    fst_weak. apply e_write2 with (f := fun o j i => _); [exact Ho|]. intros o' j i Ho'. do 4 skip. apply e_set_pixel; [exact Ho'|apply Forall_True].
  Qed.
End Interp.

(** ** filters *)
Section Filters.
  Context (b : build).
  Lemma e_nb1 (img : image f32) x y z v : ens (fun s => channels (sub_info s) = channels (info_of img)) (get_neighborhood_1d Debug img x y z v).
  Proof using Type. unfold get_neighborhood_1d. cbv zeta. skip. destruct v; skip; apply e_Ret; reflexivity. Qed.
  Lemma e_nb2 (img : image f32) x y z : ens (fun s => channels (sub_info s) = channels (info_of img)) (get_neighborhood_2d Debug img x y z).
  Proof using Type. unfold get_neighborhood_2d. cbv zeta. do 2 skip. apply e_Ret. reflexivity. Qed.
  Lemma e_tap s k i v n : len v = n -> ens (fun u => len u = n) (kernel_tap s k i v).
  Proof using Type. intros Hv. unfold kernel_tap. apply e_mfold_len; [exact Hv|]. intros w j Hw. do 4 skip. rewrite <- Hw. apply e_vset_len. Qed.
  Lemma e_ap1 s k : 0 <= channels (sub_info s) -> ens (fun u => len u = channels (sub_info s)) (apply_1d_kernel_par Debug s k).
  Proof using Type. intros Hc. unfold apply_1d_kernel_par. do 3 skip. cbv zeta. apply e_mfold_len; [rewrite len_repeat; lia|]. intros w j Hw. apply e_tap. exact Hw. Qed.
  Lemma e_ap2 s k : 0 <= channels (sub_info s) -> ens (fun u => len u = channels (sub_info s)) (apply_2d_kernel_par Debug s k).
  Proof using Type.
    intros Hc. unfold apply_2d_kernel_par, apply_2d_loop. cbv zeta. do 3 skip. apply e_mfold_len; [rewrite len_repeat; lia|]. intros w j Hw. apply e_mfold_len; [exact Hw|]. intros w' i Hw'. do 2 skip. apply e_tap. exact Hw'.
  Qed.
  Lemma e_write2p (f : image f32 -> list f32 -> Z -> Z -> outcome (image f32 * list f32)) l1 l2 img v : W Fl img -> (forall o v j i, W Fl o -> ens (fun q => W Fl (fst q)) (f o v j i)) ->
    ens (W Fl) (let! '(o, _) := mfold (fun '(o, v) j => mfold (fun '(o, v) i => f o v j i) l2 (o, v)) l1 (img, v) in Ret o).
  Proof using Type.
    intros H Hf. apply e_bind with (R := fun q : image f32 * list f32 => W Fl (fst q)).
    - apply e_mfold; [exact H|]. intros [o u] j Ho. apply e_mfold; [exact Ho|]. intros [o' u'] i Ho'. apply Hf. exact Ho'.
    - intros [o u] Ho. apply e_Ret. exact Ho.
  Qed.
  Lemma e_par_img (img : image f32) s (f : Z -> outcome (list f32)) sz : W Fl img -> 0 <= sz -> sz = width (info_of img) * height (info_of img) -> (forall k, ens (fun px => len px = channels (info_of img)) (f k)) ->
    ens (W Fl) (let! d := par_collect s sz f in from_vec_of_vec Debug (width (info_of img)) (height (info_of img)) (channels (info_of img)) (alpha (info_of img)) d).
  Proof using Type.
    intros H Hs E Hf. eapply e_bind; [apply (e_par (px_ok Fl (channels (info_of img)))); [exact Hs|]|].
    - intros k. eapply e_weak; [apply Hf|]. intros px K. split; [apply Forall_True|exact K].
    - intros d [K1 K2]. destruct H as [[] _]. apply e_from_vec_of_vec; try assumption. congruence.
  Qed.
  Lemma e_filter_1d n img k v : W Fl img -> ens (W Fl) (filter_1d Debug b n img k v).
  Proof using Type.
    intros H. pose proof (W_c _ _ H) as Hc. unfold filter_1d. skip. cbv zeta. destruct b as [|s].
    - eapply e_bind; [apply (e_blank_like Fl Fl); [exact I|exact H]|]. intros o [Ho _]. apply e_write2p; [exact Ho|]. intros o' u j i Ho'. do 2 skip.
      eapply e_bind; [apply e_set_pixel; [exact Ho'|apply Forall_True]|]. intros o2 [K _]. apply e_Ret. exact K.
    - eapply e_bind; [apply e_size|]. intros sz (-> & Hs). apply e_par_img; [exact H|lia|reflexivity|]. intros i. skip. destruct a0 as [x y].
      eapply e_bind; [apply e_nb1|]. intros sb Hsb. apply e_unwrap. cbv beta in Hsb. rewrite <- Hsb. apply e_ap1. lia.
  Qed.
  Lemma e_unseparable n img k : W Fl img -> ens (W Fl) (unseparable_filter Debug b n img k).
  Proof using Type.
    intros H. pose proof (W_c _ _ H) as Hc. unfold unseparable_filter. do 2 skip. cbv zeta. destruct b as [|s].
    - eapply e_bind; [apply (e_blank_like Fl Fl); [exact I|exact H]|]. intros o [Ho _]. apply e_write2p; [exact Ho|]. intros o' u j i Ho'. do 2 skip.
      eapply e_bind; [apply e_set_pixel; [exact Ho'|apply Forall_True]|]. intros o2 [K _]. apply e_Ret. exact K.
    - eapply e_bind; [apply e_size|]. intros sz (-> & Hs). apply e_par_img; [exact H|lia|reflexivity|]. intros i. skip. destruct a1 as [x y].
      eapply e_bind; [apply e_nb2|]. intros sb Hsb. apply e_unwrap. cbv beta in Hsb. rewrite <- Hsb. apply e_ap2. lia.
  Qed.
  Lemma e_separable n img k l : W Fl img -> ens (W Fl) (separable_filter Debug b n img k l).
  Proof using Type. intros H. unfold separable_filter. do 3 skip. eapply e_bind; [apply e_filter_1d; exact H|]. intros v Hv. apply e_filter_1d. exact Hv. Qed.
  Lemma e_linear svd img k : W Fl img -> ens (W Fl) (linear_filter Debug b svd img k).
  Proof using Type. intros H. unfold linear_filter. do 3 skip. destruct a1 as [[u v]|]; [apply e_separable|apply e_unseparable]; exact H. Qed.
  Lemma e_box img z : W Fl img -> ens (W Fl) (box_filter Debug b img z).
  Proof using Type. intros H. unfold box_filter. do 2 skip. apply e_separable. exact H. Qed.
  Lemma e_wavg img z w : W Fl img -> ens (W Fl) (weighted_avg_filter Debug b img z w).
  Proof using Type. intros H. unfold weighted_avg_filter. do 7 skip. cbv zeta. skip. apply e_unseparable. exact H. Qed.
  Lemma e_blur lm svd img z s : W Fl img -> ens (W Fl) (gaussian_blur Debug b lm svd img z s).
  Proof using Type. intros H. unfold gaussian_blur. skip. apply e_linear. exact H. Qed.
  Lemma e_threshold img t x m : W Fl img -> ens (W Fl) (threshold Debug img t x m).
  Proof using Type. intros H. unfold threshold. skip. fst_weak. apply (e_map_channels_if_alpha Fl Fl); [exact H| |]; intros v _; apply e_Ret; exact I. Qed.
  Lemma e_deriv lm img k l : W Fl img -> ens (W Fl) (derivative_mask Debug b lm img k l).
  Proof using Type.
    intros H. unfold derivative_mask. do 3 skip. eapply e_bind; [apply (e_blank_like Fl Fl); [exact I|exact H]|]. intros o [Ho _]. skip. apply e_mfold; [exact Ho|].
    intros o' i Ho'. do 4 skip. fst_weak. apply e_set_pixel_indexed; [exact Ho'|apply Forall_True].
  Qed.
  Lemma e_log lm img z s : W Fl img -> ens (W Fl) (laplacian_of_gaussian Debug b lm img z s).
  Proof using Type. intros H. unfold laplacian_of_gaussian. skip. apply e_unseparable. exact H. Qed.
  Lemma e_normlap img : W Fl img -> ens (W is_u8) (normalize_laplacian Debug img).
  Proof using Type.
    intros H. unfold normalize_laplacian. do 3 skip. eapply e_bind; [unfold scale_channels; apply (e_map_channels Fl Fl); [exact H|]; intros v _; apply e_Ret; exact I|].
    intros s [Hs _]. fst_weak. unfold from_f32_u8. apply (e_map_channels Fl is_u8); [exact Hs|]. intros v _. apply e_Ret. apply f32_to_int_u8.
  Qed.
End Filters.

(** ** colour spaces *)
Ltac all3 := repeat (first [apply Forall_nil | apply Forall_cons; [first [assumption|apply cast_u8|apply f32_to_int_u8]|]]).
Lemma e_vget_at {A} (v : list A) i : ens (fun _ => 0 <= i < len v) (vget v i).
Proof. intros x E. apply vget_inv in E as [E _]. exact E. Qed.

Section Colours.
  Lemma e_gray img : W is_u8 img -> ens (W is_u8) (rgb_to_grayscale Debug false img).
  Proof using Type.
    intros H. unfold rgb_to_grayscale, rgb_to_grayscale_norm. fst_weak; apply (e_map_pixels_if_alpha is_u8 is_u8) with (k := 1); [exact H| |intros v Hv; apply e_Ret; exact Hv].
    intros cs n [Hp Hl] En. unfold gray_norm_px. skip. eapply e_bind with (R := fun _ => 1 <= n).
    - unfold idiv. destruct (_ || _) eqn:E; [apply e_Panic|]. apply e_Ret. apply orb_false_elim in E as [E _]. subst n. unfold len in *. destruct cs as [|c cs]; [exfalso; cbn in E; lia|]. cbn [length]. lia.
    - intros m Hm. apply e_Ret. split; [split; [all3|reflexivity]|exact Hm].
  Qed.
  Lemma e_gray_f32 img : W Fl img -> 0 < channels (info_of img) - (if alpha (info_of img) then 1 else 0) -> ens (W Fl) (rgb_to_grayscale_f32 Debug img).
  Proof using Type.
    intros H Hc. unfold rgb_to_grayscale_f32. fst_weak; apply (e_map_pixels_if_alpha Fl Fl) with (k := 1); [exact H| |intros v Hv; apply e_Ret; exact I].
    intros cs n [Hp Hl] En. unfold gray_f32_px. skip. apply e_Ret. split; [split; [apply Forall_True|reflexivity]|lia].
  Qed.
  Lemma e_hsv img : W is_u8 img -> ens (W is_u8) (rgb_to_hsv Debug img).
  Proof using Type.
    intros H. unfold rgb_to_hsv. fst_weak; apply (e_map_pixels_if_alpha is_u8 is_u8) with (k := 3); [exact H| |intros v Hv; apply e_Ret; exact Hv].
    intros cs n [Hp Hl] _. unfold rgb_to_hsv_px. do 2 skip. eapply e_bind; [apply e_vget_at|]. intros c2 Hi. cbv zeta. do 4 skip. apply e_Ret. cbv beta in *. split; [|lia]. split; [|reflexivity]. all3.
  Qed.
  Lemma e_hsv_inv img : W is_u8 img -> ens (W is_u8) (hsv_to_rgb Debug img).
  Proof using Type.
    intros H. unfold hsv_to_rgb. fst_weak; apply (e_map_pixels_if_alpha is_u8 is_u8) with (k := 3); [exact H| |intros v Hv; apply e_Ret; exact Hv].
    intros cs n [Hp Hl] _. unfold hsv_to_rgb_px. skip. destruct (_ =? 0).
    - intros out E. apply bind_inv in E as (v & E1 & E2). injection E2 as <-. pose proof (e_vget is_u8 _ _ Hp v E1). apply vget_inv in E1 as [E1 _]. split; [split; [all3|reflexivity]|lia].
    - skip. cbv zeta. apply e_bind with (R := fun _ => 3 <= n); [eapply e_weak; [apply e_vget_at|intros; cbv beta in *; lia]|]. intros v Hv. cbv beta in Hv. do 4 skip.
      assert (L : forall x, ens is_u8 (let! d := isub Debug I32 255 x in let! m := imul Debug I32 v d in let! q := idiv I32 m 255 in Ret (cast U8 q))).
      { intros x. do 3 skip. apply e_Ret. apply cast_u8. }
      eapply e_bind; [apply L|]. intros pp Hpp. do 2 skip. eapply e_bind; [apply L|]. intros q Hq. do 3 skip. eapply e_bind; [apply L|]. intros t Ht. apply e_Ret. split; [|exact Hv].
      pose proof (cast_u8 v) as Hv8. split; repeat match goal with |- context[if ?x then _ else _] => destruct x end; try reflexivity; all3.
  Qed.
  Lemma e_hsv_f32 img : W is_u8 img -> ens (W Fl) (rgb_to_hsv_f32 Debug img).
  Proof using Type.
    intros H. unfold rgb_to_hsv_f32. fst_weak; apply (e_map_pixels_if_alpha is_u8 Fl) with (k := 3); [exact H| |intros v Hv; apply e_Ret; exact I].
    intros cs n [Hp Hl] _. unfold rgb_to_hsv_f32_px. do 2 skip. eapply e_bind; [apply e_vget_at|]. intros c2 Hi. cbv zeta. skip. apply e_Ret. cbv beta in *. split; [|lia]. split; [apply Forall_True|reflexivity].
  Qed.
  Lemma e_hsv_f32_inv img : W Fl img -> ens (W is_u8) (hsv_to_rgb_f32 Debug img).
  Proof using Type.
    intros H. unfold hsv_to_rgb_f32. fst_weak; apply (e_map_pixels_if_alpha Fl is_u8) with (k := 3); [exact H| |intros v Hv; apply e_Ret; apply f32_to_int_u8].
    intros cs n [Hp Hl] _. unfold hsv_to_rgb_f32_px. skip. cbv zeta. destruct (f32_eqb _ _).
    - eapply e_bind; [apply e_vget_at|]. intros c2 Hi. apply e_Ret. cbv beta in *. split; [|lia]. split; [|reflexivity]. all3.
    - skip. eapply e_bind; [apply e_vget_at|]. intros c2 Hi. apply e_Ret. cbv beta in *. split; [|lia].
      split; repeat match goal with |- context[if ?x then _ else _] => destruct x end; try reflexivity; all3.
  Qed.
  Lemma e_len_loop mat v rows out n : len out = n -> ens (fun u => len u = n) (vector_mul_loop Debug num_f32 mat v rows out).
  Proof using Type.
    intros Ho. unfold vector_mul_loop. apply e_mfold_len; [exact Ho|]. intros w i Hw. apply e_mfold_len; [exact Hw|]. intros w' j Hw'. do 7 skip. rewrite <- Hw'. apply e_vset_len.
  Qed.
  Lemma e_vmm mat (cs : list f32) n : len mat = 9 -> len cs = n -> ens (fun u => len u = n /\ n = 3) (vector_mul_mut Debug num_f32 mat cs []).
  Proof using Type.
    intros Hm Hl. unfold vector_mul_mut. cbv zeta. rewrite Hm, Hl. eapply e_bind with (R := fun c => c = Z.quot 9 n /\ n <> 0).
    { unfold idiv. destruct (_ || _) eqn:E; [apply e_Panic|]. apply e_Ret. split; [reflexivity|]. apply orb_false_elim in E as [E _]. lia. }
    intros c [-> Hn0]. eapply e_bind with (R := fun _ => n = 3).
    { unfold check_equal_Z. destruct (_ =? n) eqn:E; [|apply e_Fail]. apply e_Ret. apply Z.eqb_eq in E. assert (0 < n) by (unfold len in Hl; lia). rewrite Z.quot_div_nonneg in E by lia.
      assert (n * n <= 9 < n * n + n). { pose proof (Z.div_mod 9 n ltac:(lia)). pose proof (Z.mod_pos_bound 9 n ltac:(lia)). nia. } nia. }
    intros _ Hn. eapply e_bind with (R := fun o => len o = n); [|intros o Ho; eapply e_weak; [apply e_len_loop; exact Ho|]; intros u Hu; split; assumption].
    assert (G : forall l (v : list f32), ens (fun o => len o = len v + len l) (mfold (fun out (_ : Z) => Ret (out ++ [n_zero num_f32])) l v)).
    { induction l as [|k l IH]; intros v; cbn [mfold]; [apply e_Ret; unfold len; cbn [length]; lia|]. rewrite bind_Ret. eapply e_weak; [apply IH|]. intros o E. cbv beta in E. rewrite E, len_app. unfold len. cbn [length]. lia. }
    eapply e_weak; [apply G|]. intros o E. cbv beta in E. rewrite E, len_zrange by lia. unfold len. cbn [length]. lia.
  Qed.
  Definition like3 {T S} (img : image T) (o : image S) : Prop := info_of o = info_of img /\ channels (info_of img) = 3 + (if alpha (info_of img) then 1 else 0).
  Lemma e_mat mat img : len mat = 9 -> W Fl img -> ens (fun o => W Fl o /\ like3 img o) (map_pixels_if_alpha Debug (fun cs => unwrap (vector_mul_mut Debug num_f32 mat cs [])) (fun a => Ret a) img).
  Proof using Type.
    intros Hm H. set (n := channels (info_of img) - (if alpha (info_of img) then 1 else 0)).
    destruct (Z.eq_dec n 3) as [E3|E3].
    - eapply e_weak; [apply (e_map_pixels_if_alpha Fl Fl) with (k := 3); [exact H| |intros v Hv; apply e_Ret; exact I]|].
      + intros cs m [Hp Hl] En. apply e_unwrap. eapply e_weak; [apply e_vmm; [exact Hm|exact Hl]|]. intros out [E _]. subst n. split; [split; [apply Forall_True|lia]|lia].
      + intros o [Ho Hi]. subst n. assert (Hc : channels (info_of img) = 3 + (if alpha (info_of img) then 1 else 0)) by lia. split; [exact Ho|]. split; [|exact Hc]. rewrite Hi, <- Hc. destruct (info_of img); reflexivity.
    - (* the closure never returns; an image without pixels panics *)
      intros o E. exfalso. assert (G : ens (fun o => info_of o = Info (width (info_of img)) (height (info_of img)) (n - 300 + (if alpha (info_of img) then 1 else 0)) (alpha (info_of img)) /\ W Fl o)
        (map_pixels_if_alpha Debug (fun cs => unwrap (vector_mul_mut Debug num_f32 mat cs [])) (fun a => Ret a) img)).
      { eapply e_weak; [apply (e_map_pixels_if_alpha Fl Fl) with (k := n - 300); [exact H| |intros v Hv; apply e_Ret; exact I]|intros o' [K1 K2]; split; assumption].
        intros cs m [Hp Hl] En. apply e_unwrap. eapply e_weak; [apply e_vmm; [exact Hm|exact Hl]|]. intros out [_ Em]. subst n. lia. }
      destruct (G o E) as [G1 G2]. apply W_c in G2. rewrite G1 in G2. cbn [channels] in G2. pose proof (W_c _ _ H). subst n. destruct (alpha (info_of img)); lia.
  Qed.
  Lemma e_lin_xyz img : W Fl img -> ens (fun o => W Fl o /\ like3 img o) (srgb_lin_to_xyz_f32 Debug img). Proof using Type. apply e_mat. reflexivity. Qed.
  Lemma e_xyz_lin img : W Fl img -> ens (fun o => W Fl o /\ like3 img o) (xyz_to_srgb_lin_f32 Debug img). Proof using Type. apply e_mat. reflexivity. Qed.
  Context (lm : libm).
  Lemma e_lut {T} (P : T -> Prop) z n (f : Z -> outcome T) : P z -> (forall i, ens P (f i)) -> ens (Forall P) (generate_lookup_table (repeat z n) f).
  Proof using Type.
    intros Hz Hf. unfold generate_lookup_table. apply e_mfold; [apply Forall_rep; exact Hz|]. intros t i Ht. eapply e_bind; [apply Hf|]. intros v Hv. fst_weak. apply (e_vset P); assumption.
  Qed.
  Lemma e_linearize img : W is_u8 img -> ens (fun o => W Fl o /\ like img o) (linearize_srgb_f32 Debug lm img).
  Proof using Type. intros H. unfold linearize_srgb_f32. skip. apply (e_map_channels_if_alpha is_u8 Fl); [exact H| |]; intros v Hv; eapply e_weak; try apply e_any; auto. Qed.
  Lemma e_unlinearize img : W Fl img -> ens (W is_u8) (unlinearize_srgb_f32 Debug lm img).
  Proof using Type.
    intros H. unfold unlinearize_srgb_f32. fst_weak. apply (e_map_channels_if_alpha Fl is_u8); [exact H| |]; intros v _; apply e_Ret; [unfold unlinearize; destruct (f32_leb _ _)|]; apply f32_to_int_u8.
  Qed.
  Lemma e_xyz_lab img w : W Fl img -> ens (fun o => W Fl o /\ info_of o = Info (width (info_of img)) (height (info_of img)) (3 + (if alpha (info_of img) then 1 else 0)) (alpha (info_of img))) (xyz_to_lab_f32 Debug lm img w).
  Proof using Type.
    intros H. unfold xyz_to_lab_f32. apply (e_map_pixels_if_alpha Fl Fl) with (k := 3); [exact H| |intros v Hv; apply e_Ret; exact I].
    intros cs n [Hp Hl] _. unfold xyz_to_lab_px. destruct (xyz_tristimulus_vals w) as [[xn yn] zn]. do 2 skip. eapply e_bind; [apply e_vget_at|]. intros c2 Hi. cbv zeta. apply e_Ret. cbv beta in *. split; [|lia]. split; [apply Forall_True|reflexivity].
  Qed.
  Lemma e_lab_xyz img w : W Fl img -> ens (W Fl) (lab_to_xyz_f32 Debug lm img w).
  Proof using Type.
    intros H. unfold lab_to_xyz_f32. fst_weak; apply (e_map_pixels_if_alpha Fl Fl) with (k := 3); [exact H| |intros v Hv; apply e_Ret; exact I].
    intros cs n [Hp Hl] _. unfold lab_to_xyz_px. destruct (xyz_tristimulus_vals w) as [[xn yn] zn]. skip. cbv zeta. skip. eapply e_bind; [apply e_vget_at|]. intros c2 Hi. apply e_Ret. cbv beta in *. split; [|lia]. split; [apply Forall_True|reflexivity].
  Qed.
  Lemma e_srgb_xyz img : W is_u8 img -> ens (fun o => W Fl o /\ like3 img o) (srgb_to_xyz_f32 Debug lm img).
  Proof using Type.
    intros H. unfold srgb_to_xyz_f32. eapply e_bind; [apply e_linearize; exact H|]. intros l [Hl Hi]. eapply e_weak; [apply e_lin_xyz; exact Hl|]. intros o [K1 [K2 K3]]. split; [exact K1|]. unfold like3, like in *. rewrite <- Hi. auto.
  Qed.
  Lemma e_xyz_srgb img : W Fl img -> ens (W is_u8) (xyz_to_srgb_f32 Debug lm img).
  Proof using Type. intros H. unfold xyz_to_srgb_f32. eapply e_bind; [apply e_xyz_lin; exact H|]. intros l [Hl _]. apply e_unlinearize. exact Hl. Qed.
  Lemma e_srgb_lab img w : W is_u8 img -> ens (fun o => W Fl o /\ like img o) (srgb_to_lab_f32 Debug lm img w).
  Proof using Type.
    intros H. unfold srgb_to_lab_f32. eapply e_bind; [apply e_srgb_xyz; exact H|]. intros l [Hl [Hi Hc]]. eapply e_weak; [apply e_xyz_lab; exact Hl|]. intros o [K1 K2]. split; [exact K1|].
    unfold like. rewrite K2, Hi, <- Hc. destruct (info_of img); reflexivity.
  Qed.
  Lemma e_lab_srgb img w : W Fl img -> ens (W is_u8) (lab_to_srgb_f32 Debug lm img w).
  Proof using Type. intros H. unfold lab_to_srgb_f32. eapply e_bind; [apply e_lab_xyz; exact H|]. intros l Hl. apply e_xyz_srgb. exact Hl. Qed.

  (** ** tone.rs *)
  Lemma e_add_clamped v x : ens is_u8 (add_clamped Debug v x).
  Proof using Type. unfold add_clamped. do 2 skip. apply e_Ret. apply cast_u8. Qed.
  Lemma e_table img f : W is_u8 img -> (forall i, ens is_u8 (f i)) ->
    ens (W is_u8) (let! t := generate_lookup_table (repeat 0 256) f in map_channels_if_alpha Debug (fun c => vget t c) (fun a => Ret a) img).
  Proof using Type.
    intros H Hf. eapply e_bind; [apply (e_lut is_u8); [unfold is_u8; lia|exact Hf]|]. intros t Ht. fst_weak. apply (e_map_channels_if_alpha is_u8 is_u8); [exact H| |]; intros v Hv; [apply e_vget; exact Ht|apply e_Ret; exact Hv].
  Qed.
  Lemma e_brightness img b : W is_u8 img -> ens (W is_u8) (brightness Debug false img b).
  Proof using Type. intros H. unfold brightness, brightness_rgb_norm. do 2 skip. apply e_table; [exact H|]. intros i. apply e_add_clamped. Qed.
  Lemma e_contrast img g : W is_u8 img -> ens (W is_u8) (contrast Debug img g).
  Proof using Type. intros H. unfold contrast. do 2 skip. apply e_table; [exact H|]. intros i. unfold contrast_fn. skip. apply e_Ret. apply f32_to_int_u8. Qed.
  Lemma e_saturation img s : W is_u8 img -> ens (W is_u8) (saturation Debug false img s).
  Proof using Type.
    intros H. unfold saturation, saturation_norm. skip. eapply e_bind; [apply e_hsv; exact H|]. intros h Hh. eapply e_bind; [apply (e_edit_channel is_u8); [exact Hh|]; intros v _; apply e_add_clamped|].
    intros h' Hh'. apply e_hsv_inv. exact Hh'.
  Qed.
  Lemma e_brightness_lab img b : W is_u8 img -> ens (W is_u8) (brightness_lab Debug lm img b).
  Proof using Type.
    intros H. unfold brightness_lab. do 2 skip. eapply e_bind; [apply e_srgb_lab; exact H|]. intros l [Hl _]. cbv zeta. eapply e_bind; [apply (e_edit_channel Fl); [exact Hl|]; intros v _; apply e_any|]. intros l' Hl'. apply e_lab_srgb. exact Hl'.
  Qed.
  Lemma e_contrast_lab img g : W is_u8 img -> ens (W is_u8) (contrast_lab Debug lm img g).
  Proof using Type.
    intros H. unfold contrast_lab. do 2 skip. eapply e_bind; [apply e_srgb_lab; exact H|]. intros l [Hl _]. cbv zeta. eapply e_bind; [apply (e_edit_channel Fl); [exact Hl|]; intros v _; apply e_any|]. intros l' Hl'. apply e_lab_srgb. exact Hl'.
  Qed.
  Lemma e_gamma img g m : W is_u8 img -> ens (W is_u8) (gamma Debug lm img g m).
  Proof using Type. intros H. unfold gamma. skip. fst_weak. apply (e_map_channels_if_alpha is_u8 is_u8); [exact H| |]; intros v Hv; apply e_Ret; [apply f32_to_int_u8|exact Hv]. Qed.
  Lemma e_histeq img al w pr : W is_u8 img -> ens (W is_u8) (histogram_equalization Debug lm img al w pr).
  Proof using Type.
    intros H. unfold histogram_equalization. do 2 skip. eapply e_bind; [apply e_srgb_lab; exact H|]. intros l [Hl _]. skip. eapply e_bind; [apply (e_edit_channel Fl); [exact Hl|]; intros v _; apply e_any|]. intros l' Hl'. apply e_lab_srgb. exact Hl'.
  Qed.

  (** ** bilateral.rs *)
  Lemma e_bilateral b n img r s : W is_u8 img -> ens (W is_u8) (bilateral_filter Debug lm b n img r s).
  Proof using Type.
    intros H. unfold bilateral_filter. do 2 skip. cbv zeta. skip. eapply e_bind; [apply e_srgb_lab; exact H|]. intros l [Hl Hi].
    eapply e_bind with (R := W Fl); [|intros o Ho; apply e_lab_srgb; exact Ho]. unfold like in Hi. destruct b as [|sc].
    - eapply e_bind; [apply (e_blank_like Fl Fl); [exact I|exact Hl]|]. intros o [Ho _]. fst_weak. apply e_write2 with (f := fun o j i => _); [exact Ho|]. intros o' j i Ho'. skip. apply e_set_pixel; [exact Ho'|apply Forall_True].
    - rewrite <- Hi. eapply e_bind; [apply e_size|]. intros sz (-> & Hs). apply e_par_img; [exact Hl|lia|reflexivity|]. intros k. skip. destruct a2 as [x y].
      unfold bilateral_direct_pixel. skip. eapply e_bind; [apply (e_get_pixel Fl); exact Hl|]. intros px [_ Hp]. rewrite <- Hp. apply e_len_mmap. unfold len. lia.
  Qed.
End Colours.

(** ** util, morphology.rs *)
Lemma e_sat img : W Fl img -> ens (W Fl) (generate_summed_area_table Debug img).
Proof.
  intros H. unfold generate_summed_area_table. cbv zeta. eapply e_bind; [apply (e_blank_like Fl Fl); [exact I|exact H]|]. intros o [Ho _]. fst_weak. apply e_write2 with (f := fun o j i => _); [exact Ho|].
  intros o' j i Ho'. do 5 skip. apply e_set_pixel; [exact Ho'|apply Forall_True].
Qed.
Lemma e_scan q img r : W is_u8 img -> ens (W is_u8) (morph_scan Debug q img r).
Proof.
  intros H. unfold morph_scan. cbv zeta. do 2 skip. eapply e_bind; [apply (e_blank_like is_u8 is_u8); [cbn; unfold is_u8; lia|exact H]|]. intros o [Ho _]. fst_weak. apply e_write2 with (f := fun o j i => _); [exact Ho|].
  intros o' j i Ho'. skip. destruct a1 as [[[x0 y0] x1] y1]. do 2 skip. destruct (q _); [|apply e_Ret; split; [exact Ho'|reflexivity]]. apply e_set_pixel; [exact Ho'|]. repeat apply Forall_cons; [unfold is_u8; lia|apply Forall_nil].
Qed.
Lemma e_erode img r : W is_u8 img -> ens (W is_u8) (erode Debug img r). Proof. intros H. unfold erode. do 2 skip. apply e_scan. exact H. Qed.
Lemma e_dilate img r : W is_u8 img -> ens (W is_u8) (dilate Debug img r). Proof. intros H. unfold dilate. skip. apply e_scan. exact H. Qed.
Lemma e_majority img r : W is_u8 img -> ens (W is_u8) (majority Debug img r). Proof. intros H. unfold majority. skip. apply e_scan. exact H. Qed.
Lemma e_gradient img r : W is_u8 img -> ens (W is_u8) (gradient Debug img r). Proof. intros H. unfold gradient. do 2 skip. apply e_scan. exact H. Qed.
Lemma e_open img r : W is_u8 img -> ens (W is_u8) (morph_open Debug img r). Proof. intros H. unfold morph_open. eapply e_bind; [apply e_erode; exact H|]. intros e He. apply e_dilate. exact He. Qed.
Lemma e_close img r : W is_u8 img -> ens (W is_u8) (morph_close Debug img r). Proof. intros H. unfold morph_close. eapply e_bind; [apply e_dilate; exact H|]. intros e He. apply e_erode. exact He. Qed.

(** ** median.rs: the pivots stay 8-bit values *)
Definition pivots_ok (h : medhist) : Prop := Forall is_u8 (mh_pivots h).
Lemma in_range_u8 (l : list Z) : Forall is_u8 l -> forall p nc d i c s, ens (fun r => match r with Some (k, _) => is_u8 k | None => True end) (scan_up p nc d i c l s).
Proof.
  induction 1 as [|k l Hk Hl IH]; intros p nc d i c s; cbn [scan_up]; [apply e_Ret; exact I|]. do 2 skip. destruct (_ <=? _); [apply e_Ret; exact Hk|apply IH].
Qed.
Lemma in_range_u8_down (l : list Z) : Forall is_u8 l -> forall p nc d i c s, ens (fun r => match r with Some (k, _) => is_u8 k | None => True end) (scan_down p nc d i c l s).
Proof.
  induction 1 as [|k l Hk Hl IH]; intros p nc d i c s; cbn [scan_down]; [apply e_Ret; exact I|]. do 2 skip. destruct (_ <? _); [apply e_Ret; exact Hk|apply IH].
Qed.
Lemma u8_range a b : 0 <= a -> b <= 256 -> Forall is_u8 (zrange a b).
Proof. intros Ha Hb. apply Forall_forall. intros x Hx. apply in_zrange in Hx. unfold is_u8. lia. Qed.
Definition step_ok (q : medhist * list Z) : Prop := pivots_ok (fst q) /\ Forall is_u8 (snd q).
Lemma e_found h i r : pivots_ok h -> match r with Some (k, _) => is_u8 k | None => True end -> ens step_ok (found h i r).
Proof.
  intros Hh Hr. unfold found. destruct r as [[k s]|].
  - unfold set_sum. eapply e_bind; [apply e_bind_any; intros v; apply e_Ret with (Q := pivots_ok); exact Hh|]. intros h' Hh'. apply e_Ret. split; [exact Hh'|]. cbn [snd]. all3.
  - apply e_Ret. split; [exact Hh|constructor].
Qed.
Lemma e_first_step nc c i h : pivots_ok h -> ens step_ok (first_step Debug nc c i h).
Proof. intros H. unfold first_step. eapply e_bind; [apply in_range_u8; apply u8_range; lia|]. intros r Hr. apply e_found; assumption. Qed.
Lemma e_next_step nc c i h : pivots_ok h -> ens step_ok (next_step Debug nc c i h).
Proof.
  intros H. unfold next_step. eapply e_bind; [apply (e_vget is_u8); exact H|]. intros q Hq. skip. unfold is_u8 in Hq. destruct (_ ?= _).
  - apply e_Ret. split; [exact H|]. repeat apply Forall_cons; [exact Hq|apply Forall_nil].
  - eapply e_bind; [apply in_range_u8; apply u8_range; lia|]. intros r Hr. apply e_found; assumption.
  - eapply e_bind; [apply in_range_u8_down; apply Forall_rev; apply u8_range; lia|]. intros r Hr. apply e_found; assumption.
Qed.
Lemma e_set_pivots hs px i : Forall pivots_ok hs -> Forall is_u8 px -> ens (Forall pivots_ok) (set_pivots hs px i).
Proof.
  intros H Hp. unfold set_pivots. apply e_mfold; [exact H|]. intros hs' c Hs. eapply e_bind; [apply (e_vget pivots_ok); exact Hs|]. intros h Hh. eapply e_bind; [apply (e_vget is_u8); exact Hp|]. intros q Hq.
  eapply e_bind with (R := pivots_ok).
  - unfold set_pivot. eapply e_bind; [apply (e_vset is_u8); [exact Hh|exact Hq]|]. intros v [Hv _]. apply e_Ret. exact Hv.
  - intros h' Hh'. fst_weak. apply (e_vset pivots_ok); assumption.
Qed.
Definition st_ok (st : image Z * list medhist) : Prop := W is_u8 (fst st) /\ Forall pivots_ok (snd st).
Lemma e_process_row nc step o hs x y : W is_u8 o -> Forall pivots_ok hs -> (forall i h, pivots_ok h -> ens step_ok (step i h)) -> ens st_ok (process_row Debug nc step o hs x y).
Proof.
  intros Ho Hh Hs. unfold process_row. apply e_mfold; [split; assumption|]. intros [o' hs'] i [H1 H2]. cbn [fst snd] in H1, H2.
  eapply e_bind; [apply (e_mmap step_ok); intros h Hin; apply Hs; rewrite Forall_forall in H2; apply H2, Hin|]. intros rs [Hrs _]. cbv zeta.
  assert (Hp : Forall is_u8 (concat (map snd rs))). { apply Forall_concat'. apply Forall_map. eapply Forall_impl; [|exact Hrs]. intros q K. apply K. }
  assert (Hf : Forall pivots_ok (map fst rs)). { apply Forall_map. eapply Forall_impl; [|exact Hrs]. intros q K. apply K. }
  do 3 skip. eapply e_bind; [apply e_set_pixel; [exact H1|exact Hp]|]. intros o2 [K _]. eapply e_bind; [apply e_set_pivots; [exact Hf|exact Hp]|]. intros hs2 Hs2. apply e_Ret. split; assumption.
Qed.
Lemma e_medhist_update r nc h q c a : pivots_ok h -> ens pivots_ok (medhist_update Debug r nc h q c a).
Proof. intros H. unfold medhist_update. skip. cbv zeta. skip. apply e_Ret. exact H. Qed.
Lemma e_update_all r nc hs q c a : Forall pivots_ok hs -> ens (Forall pivots_ok) (update_all Debug r nc hs q c a).
Proof.
  revert c. induction hs as [|h hs IH]; intros c H; cbn [update_all]; [apply e_Ret; constructor|]. inversion H; subst. eapply e_bind; [apply e_medhist_update; assumption|]. intros h' Hh'.
  eapply e_bind; [apply IH; assumption|]. intros hs' Hs'. apply e_Ret. constructor; assumption.
Qed.
Lemma e_init_cols r nc img o hs c x : W is_u8 o -> Forall pivots_ok hs -> ens st_ok (init_cols Debug r nc img o hs c x).
Proof.
  intros Ho Hh. unfold init_cols. do 2 skip. eapply e_bind with (R := Forall pivots_ok).
  - apply e_mfold; [exact Hh|]. intros hs' j Hs'. do 3 skip. apply e_update_all. exact Hs'.
  - intros hs' Hs'. apply e_process_row; [exact Ho| |intros i h; apply e_first_step]. apply Forall_map. apply Forall_forall. intros h _. unfold pivots_ok, init_pivots. cbn [mh_pivots]. apply Forall_rep. unfold is_u8. lia.
Qed.
Lemma e_next_row r nc img c x st j : st_ok st -> ens st_ok (next_row Debug r nc img c x st j).
Proof.
  destruct st as [o hs]. intros [Ho Hh]. cbn [fst snd] in Ho, Hh. unfold next_row. cbv zeta. do 9 skip. eapply e_bind; [apply e_update_all; exact Hh|]. intros h1 H1. eapply e_bind; [apply e_update_all; exact H1|]. intros h2 H2.
  apply e_process_row; [exact Ho|exact H2|intros i h; apply e_next_step].
Qed.
Lemma e_process_cols r nc img o x : W is_u8 o -> ens (W is_u8) (process_cols Debug r nc img o x).
Proof.
  intros Ho. unfold process_cols, block_rows. cbv zeta. eapply e_bind with (R := st_ok); [|intros [o' hs'] [K _]; apply e_Ret; exact K]. do 5 skip.
  eapply e_bind with (R := st_ok).
  - apply e_init_cols; [exact Ho|]. apply Forall_rep. unfold pivots_ok, medhist_new. cbn [mh_pivots]. constructor.
  - intros st Hst. apply e_mfold; [exact Hst|]. intros st' j Hst'. apply e_next_row. exact Hst'.
Qed.
Lemma e_median lm img r : W is_u8 img -> ens (W is_u8) (median_filter Debug lm img r).
Proof.
  intros H. unfold median_filter. cbv zeta. eapply e_bind; [apply (e_blank_like is_u8 is_u8); [cbn; unfold is_u8; lia|exact H]|]. intros o [Ho _]. skip. apply e_mfold; [exact Ho|]. intros o' x Ho'. apply e_process_cols. exact Ho'.
Qed.

(** the trimmed mean: every mean is cast to 8 bits *)
Lemma e_get_mean r al h n : ens is_u8 (get_mean r al h n). Proof. unfold get_mean. skip. apply e_Ret. apply f32_to_int_u8. Qed.
Definition mst_ok (st : image Z * list meanhist) : Prop := W is_u8 (fst st).
Lemma e_mean_row nc step o hs x y : W is_u8 o -> (forall i h, ens (fun q : meanhist * Z => is_u8 (snd q)) (step i h)) -> ens mst_ok (mean_row Debug nc step o hs x y).
Proof.
  intros Ho Hs. unfold mean_row. apply e_mfold; [exact Ho|]. intros [o' hs'] i H1. unfold mst_ok in H1. cbn [fst] in H1.
  eapply e_bind; [apply (e_mmap (fun q : meanhist * Z => is_u8 (snd q))); intros h _; apply Hs|]. intros rs [Hrs _]. do 3 skip.
  eapply e_bind; [apply e_set_pixel; [exact H1|]|]. { apply Forall_map. exact Hrs. } intros o2 [K _]. apply e_Ret. exact K.
Qed.
Lemma e_mean_first r nc al t i h : ens (fun q : meanhist * Z => is_u8 (snd q)) (mean_first Debug r nc al t i h).
Proof.
  unfold mean_first. skip. destruct a as [[[a0 a1] a2] a3]. do 3 skip. cbv zeta. eapply e_bind; [apply e_get_mean|]. intros m Hm. apply e_Ret. exact Hm.
Qed.
Lemma e_mean_next r al i h : ens (fun q : meanhist * Z => is_u8 (snd q)) (mean_next r al i h).
Proof. unfold mean_next. eapply e_bind; [apply e_get_mean|]. intros m Hm. apply e_Ret. exact Hm. Qed.
Lemma e_init_cols_mean bs r nc al img o hs x : W is_u8 o -> ens mst_ok (init_cols_mean Debug bs r nc al img o hs x).
Proof. intros Ho. unfold init_cols_mean. do 5 skip. destruct a3 as [h1 h2]. do 2 skip. apply e_mean_row; [exact Ho|]. intros i h. apply e_mean_first. Qed.
Lemma e_mean_next_row bs r nc al img x st j : mst_ok st -> ens mst_ok (mean_next_row Debug bs r nc al img x st j).
Proof.
  destruct st as [o hs]. intros Ho. unfold mst_ok in Ho. cbn [fst] in Ho. unfold mean_next_row. cbv zeta. do 11 skip. apply e_mean_row; [exact Ho|]. intros i h. apply e_mean_next.
Qed.
Lemma e_process_cols_mean bs r nc al img o x : W is_u8 o -> ens (W is_u8) (process_cols_mean Debug bs r nc al img o x).
Proof.
  intros Ho. unfold process_cols_mean. skip. cbv zeta. eapply e_bind; [apply e_init_cols_mean; exact Ho|]. intros st Hst. eapply e_bind with (R := mst_ok); [|intros [o' hs'] K; apply e_Ret; exact K].
  apply e_mfold; [exact Hst|]. intros st' j Hst'. apply e_mean_next_row. exact Hst'.
Qed.
Lemma e_trimmed bs lm img r al : W is_u8 img -> ens (W is_u8) (alpha_trimmed_mean_filter Debug bs lm img r al).
Proof.
  intros H. unfold alpha_trimmed_mean_filter. do 4 skip. destruct (_ <=? _); [apply e_Fail|]. cbv zeta. eapply e_bind; [apply (e_blank_like is_u8 is_u8); [cbn; unfold is_u8; lia|exact H]|]. intros o [Ho _]. skip.
  apply e_mfold; [exact Ho|]. intros o' x Ho'. apply e_process_cols_mean. exact Ho'.
Qed.
