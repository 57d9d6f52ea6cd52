(** Lemmas for src/filter/bilateral.rs. *)
From Verif.Model Require Export Bilateral.
From Verif.Spec Require Export BilateralS ColorS.
From Verif.Proofs Require Export BaseL ImageL FilterL FloatL FloatL2 ToneL.
From Verif.Props Require Export SpatialP FilterP2 ConvP.
Open Scope Z_scope.

Lemma check_neg (x : f32) : f32_ltb x f32_0 = false -> check_non_neg num_f32 x = Ret tt.
Proof. intros H. unfold check_non_neg. change (n_ltb num_f32 x (n_zero num_f32)) with (f32_ltb x f32_0). rewrite H. reflexivity. Qed.
Lemma check_neg_err (x : f32) : f32_ltb x f32_0 = true -> check_non_neg num_f32 x = Fail InvalidArgError.
Proof. intros H. unfold check_non_neg. change (n_ltb num_f32 x (n_zero num_f32)) with (f32_ltb x f32_0). rewrite H. reflexivity. Qed.

Lemma gaussian_fn_ok lm x s : f32_ltb s f32_0 = false -> gaussian_fn lm x s = Ret (gauss lm s x).
Proof. intros H. unfold gaussian_fn. rewrite check_neg by exact H. reflexivity. Qed.

Lemma offsets_flat n : 0 <= n -> Z.odd n = true ->
  offsets n = map (fun i => (i mod n - n / 2, i / n - n / 2)) (zrange 0 (n * n)).
Proof.
  intros Hn Ho. assert (En : n = 2 * (n / 2) + 1).
  { rewrite (Z.div_mod n 2) at 1 by lia. rewrite Zmod_odd, Ho. lia. }
  rewrite <- (coords_flat (fun x y => (x - n / 2, y - n / 2)) n n Hn Hn).
  unfold offsets, coords. set (h := n / 2) in *. clearbody h. subst n.
  rewrite (zrange_shift (- h)). replace (h + 1 - - h) with (2 * h + 1) by lia.
  rewrite !flat_map_concat_map, map_map, concat_map, map_map. f_equal. apply map_ext. intros a.
  rewrite !map_map. apply map_ext. intros c. cbn [fst snd]. f_equal; lia.
Qed.

(** ** one channel *)
Section Channel.
  Context (p : profile) (lm : libm).
  Definition bil_fold (W V : Z -> f32) (l : list Z) : f32 * f32 :=
    fold_left (fun '(a, t) i => (f32_add a (f32_mul (W i) (V i)), f32_add t (W i))) l (f32_0, f32_0).
  Lemma bil_fold_split W V l :
    bil_fold W V l = (weighted_sum (map (fun i => (W i, V i)) l), fold_left f32_add (map W l) f32_0).
  Proof.
    unfold bil_fold, weighted_sum.
    assert (G : forall l a t, fold_left (fun '(a, t) i => (f32_add a (f32_mul (W i) (V i)), f32_add t (W i))) l (a, t)
      = (fold_left (fun acc kv => f32_add acc (f32_mul (fst kv) (snd kv))) (map (fun i => (W i, V i)) l) a, fold_left f32_add (map W l) t)).
    { induction l0 as [|i l0 IH]; intros a t; cbn [fold_left map fst snd]; [reflexivity|]. apply IH. }
    apply G.
  Qed.

  Lemma bil_channel_ok (p_n : subimage f32) range mat sz c ch (V S : Z -> f32) :
    0 <= sz <= 65535 -> f32_ltb range f32_0 = false -> len mat = sz * sz ->
    (forall i, 0 <= i < sz * sz -> (let! px := sub_index p_n i in vget px c) = Ret (V i)) ->
    (forall i, 0 <= i < sz * sz -> vget mat i = Ret (S i)) ->
    bilateral_channel p lm p_n range mat sz c ch
    = let W i := f32_mul (S i) (gauss lm range (f32_abs (f32_sub ch (V i)))) in
      Ret (f32_div (weighted_sum (map (fun i => (W i, V i)) (zrange 0 (sz * sz))))
                   (fold_left f32_add (map W (zrange 0 (sz * sz))) f32_0)).
  Proof.
    intros Hs Hr Hm HV HS. cbv zeta. set (W := fun i => f32_mul (S i) (gauss lm range (f32_abs (f32_sub ch (V i))))).
    unfold bilateral_channel. assert (0 <= sz * sz <= 4294836225) by nia.
    rewrite imul_ok by ity_lia. rewrite bind_Ret.
    assert (G : forall l st, (forall i, In i l -> 0 <= i < sz * sz) ->
      mfold (fun '(p_curr, total_weight) i =>
          let! px := sub_index p_n i in
          let! v := vget px c in
          let! g_r := unwrap (gaussian_fn lm (f32_abs (f32_sub ch v)) range) in
          let! s := vget mat i in
          let weight := f32_mul s g_r in
          Ret (f32_add p_curr (f32_mul weight v), f32_add total_weight weight)) l st
      = Ret (fold_left (fun '(a, t) i => (f32_add a (f32_mul (W i) (V i)), f32_add t (W i))) l st)).
    { induction l as [|i l IH]; intros [a t] Hl; cbn [mfold fold_left]; [reflexivity|].
      specialize (HV i (Hl i (or_introl eq_refl))).
      destruct (sub_index p_n i) as [px| | |]; cbn [bind] in HV |- *; try discriminate. rewrite HV, bind_Ret.
      rewrite gaussian_fn_ok by exact Hr. cbn [unwrap]. rewrite bind_Ret.
      rewrite (HS i (Hl i (or_introl eq_refl))), !bind_Ret. apply IH. intros; apply Hl; right; assumption. }
    rewrite G by (intros i; apply in_zrange). rewrite bind_Ret.
    pose proof (bil_fold_split W V (zrange 0 (sz * sz))) as E. unfold bil_fold in E. rewrite E. reflexivity.
  Qed.
End Channel.

Lemma spatial_closeness lm s n i : 0 <= n <= 65535 -> Z.odd n = true -> 0 <= i < n * n ->
  spatial_entry lm s n (i / n) (i mod n) = closeness lm s (i mod n - n / 2) (i / n - n / 2).
Proof.
  intros Hn Ho Hi. unfold spatial_entry, closeness. cbv zeta.
  replace ((i / n =? n / 2) && (i mod n =? n / 2)) with ((i mod n - n / 2 =? 0) && (i / n - n / 2 =? 0)); [reflexivity|].
  destruct (Z.eqb_spec (i mod n - n / 2) 0), (Z.eqb_spec (i / n - n / 2) 0),
    (Z.eqb_spec (i / n) (n / 2)), (Z.eqb_spec (i mod n) (n / 2)); lia.
Qed.

(** the pixel of the filtered image *)
Lemma bil_pixel_ok p lm (lab : image f32) range spatial mat x y :
  wf lab -> small (info_of lab) -> inside lab x y -> Z.odd (window spatial) = true -> window spatial <= 65535 ->
  f32_ltb range f32_0 = false -> len mat = window spatial * window spatial ->
  (forall y x, 0 <= y < window spatial -> 0 <= x < window spatial ->
     nth_error mat (Z.to_nat (y * window spatial + x)) = Some (spatial_entry lm spatial (window spatial) y x)) ->
  bilateral_direct_pixel p lm lab range mat (window spatial) x y
  = Ret (map (bilateral_mean lm range spatial lab x y) (zrange 0 (channels (info_of lab)))).
Proof.
  intros Hwf [Hw Hh] Hin Ho Hs Hr Hl Hm.
  assert (Hs0 : 0 <= window spatial).
  { unfold window. apply (float_to_int_range U32). cbn; lia. }
  set (n := window spatial) in *. assert (Hn1 : 1 <= n) by (destruct (Z.eq_dec n 0) as [E|]; [rewrite E in Ho; discriminate|lia]).
  unfold bilateral_direct_pixel. rewrite nb_2d_ok by (auto; lia). rewrite bind_Ret.
  rewrite get_pixel_ok by auto. rewrite bind_Ret. rewrite pixel_at_len by auto.
  apply mmap_Ret. intros c Hc. apply in_zrange in Hc. rewrite (vget_ok _ c f32_0) by (rewrite pixel_at_len by auto; lia). rewrite bind_Ret.
  change (nth (Z.to_nat c) (pixel_at lab x y) f32_0) with (value lab x y c).
  set (V := fun i => neighbour lab x y c (i mod n - n / 2) (i / n - n / 2)).
  rewrite (bil_channel_ok p lm _ range mat n c (value lab x y c) V (fun i => closeness lm spatial (i mod n - n / 2) (i / n - n / 2))); auto; try lia.
  - cbv zeta. f_equal. unfold bilateral_mean. fold n. rewrite offsets_flat by (auto; lia). rewrite !map_map.
    f_equal.
  - intros i Hi. unfold sub_index. cbn [sub_data]. rewrite (vget_ok _ i []) by (rewrite len_map, len_zrange; lia).
    rewrite nth_map_zrange by lia. rewrite Z.add_0_l, bind_Ret.
    destruct (pos_surj n n i) as [Hi1 [Hi2 _]]; try lia. destruct Hin as [Hx Hy].
    rewrite (vget_ok _ c f32_0).
    + unfold V, neighbour, value. rewrite !nb_padded. reflexivity.
    + rewrite pixel_at_len; auto. split; apply nb_spec_range; lia.
  - intros i Hi. destruct (pos_surj n n i) as [Hi1 [Hi2 Hi3]]; try lia.
    specialize (Hm (i / n) (i mod n) Hi2 Hi1). rewrite <- (spatial_closeness lm spatial n i) by (auto; lia).
    rewrite (vget_ok _ i f32_0) by lia. f_equal. apply nth_error_nth.
    rewrite <- Hm. do 2 f_equal. lia.
Qed.
