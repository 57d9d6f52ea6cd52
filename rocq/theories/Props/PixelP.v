(** * C65: the helper methods of pixels, image shapes and sub-images
    (src/image/pixel.rs, mod.rs, sub_image.rs). *)
From Flocq Require Import Core BinarySingleNaN.
From Verif.Spec Require Import FloatS.
From Verif.Proofs Require Import BaseL ImageL ImageOps ImageProps FloatL.
From Verif.Props Require Import ImageP.
Open Scope Z_scope.

Definition usize_max : Z := 18446744073709551615.

(** ** pixels *)
Theorem C65_pixel_methods p {T S} (f g : T -> S) (h k : T -> T) (cs : list T) (a : T) :
  len cs < usize_max ->
  px_alpha p (cs ++ [a]) = Ret a
  /\ px_channels_without_alpha p (cs ++ [a]) = Ret cs
  /\ px_map_all (fun c => Ret (f c)) (cs ++ [a]) = Ret (map f cs ++ [f a])
  /\ px_map_alpha p (fun c => Ret (f c)) (fun c => Ret (g c)) (cs ++ [a]) = Ret (map f cs ++ [g a])
  /\ px_apply (fun c => Ret (h c)) (cs ++ [a]) = Ret (map h cs ++ [h a])
  /\ px_apply_alpha p (fun c => Ret (h c)) (fun c => Ret (k c)) (cs ++ [a]) = Ret (map h cs ++ [k a]).
Proof.
  intros Hl. unfold usize_max in Hl.
  split; [apply px_alpha_app; exact Hl|].
  split; [apply px_cwa_app; exact Hl|].
  split; [unfold px_map_all; rewrite mmap_pure, map_app; reflexivity|].
  split; [rewrite px_map_alpha_app by exact Hl; rewrite mmap_pure; reflexivity|].
  split; [unfold px_apply; rewrite mmap_pure, map_app; reflexivity|].
  rewrite px_apply_alpha_app by exact Hl; rewrite mmap_pure; reflexivity.
Qed.

(** a pixel without channels has no alpha: every method that needs one panics *)
Theorem C65_empty_pixel p {T S} (N : number T) (f g : T -> outcome S) (h k : T -> outcome T) :
  px_alpha p (@nil T) = Panic
  /\ px_channels_without_alpha p (@nil T) = Panic
  /\ px_map_alpha p f g (@nil T) = Panic
  /\ px_apply_alpha p h k (@nil T) = Panic
  /\ px_is_black_alpha p N (@nil T) = Panic
  /\ px_map_all f (@nil T) = Ret [] /\ px_apply h (@nil T) = Ret [] /\ px_is_black N (@nil T) = true.
Proof.
  assert (A : px_alpha p (@nil T) = Panic) by (destruct p; reflexivity).
  assert (C : px_channels_without_alpha p (@nil T) = Panic) by (destruct p; reflexivity).
  split; [exact A|]. split; [exact C|].
  split; [unfold px_map_alpha; rewrite C; reflexivity|].
  split. { unfold px_apply_alpha. destruct p; [reflexivity|].
    change (isub Release USIZE (len (@nil T)) 1) with (@Ret Z 18446744073709551615). cbn [bind].
    rewrite zrange_cons by lia. reflexivity. }
  split; [unfold px_is_black_alpha; rewrite C; reflexivity|]. repeat split; reflexivity.
Qed.

(** black: every (colour) sample is zero; for floats both zeros count, and NaN does not *)
Theorem C65_is_black p (t : ity) (cs : list Z) a : len cs < usize_max ->
  (px_is_black (num_int t) (cs ++ [a]) = true <-> (Forall (fun c => c = 0) cs /\ a = 0))
  /\ exists b, px_is_black_alpha p (num_int t) (cs ++ [a]) = Ret b
     /\ (b = true <-> Forall (fun c => c = 0) cs).
Proof.
  intros Hl. unfold usize_max in Hl.
  assert (F : forall l, forallb (fun c => n_eqb (num_int t) c (n_zero (num_int t))) l = true
                        <-> Forall (fun c => c = 0) l).
  { intros l. rewrite forallb_forall, Forall_forall. cbn. split; intros H x Hx; specialize (H x Hx); lia. }
  split.
  - unfold px_is_black. rewrite F, Forall_app. split; intros [H1 H2]; split; auto.
    inversion H2; assumption.
  - unfold px_is_black_alpha. rewrite px_cwa_app by exact Hl. cbn [bind].
    eexists. split; [reflexivity|]. apply F.
Qed.

Theorem C65_is_black_f32 p (cs : list f32) (a : f32) : len cs < usize_max ->
  (px_is_black num_f32 (cs ++ [a]) = true <-> (Forall (fun c => isZ c 0) cs /\ isZ a 0))
  /\ exists b, px_is_black_alpha p num_f32 (cs ++ [a]) = Ret b
     /\ (b = true <-> Forall (fun c => isZ c 0) cs).
Proof.
  intros Hl. unfold usize_max in Hl.
  assert (Z0 : isZ f32_0 0) by (split; reflexivity).
  assert (F : forall l, forallb (fun c => n_eqb num_f32 c (n_zero num_f32)) l = true
                        <-> Forall (fun c : f32 => isZ c 0) l).
  { intros l. rewrite forallb_forall, Forall_forall.
    assert (E : forall x : f32, n_eqb num_f32 x (n_zero num_f32) = true <-> isZ x 0).
    { intros x. change (n_eqb num_f32 x (n_zero num_f32)) with (Beqb x f32_0). split.
      - intros E. destruct x as [s|s| |s m e B].
        + split; reflexivity.
        + destruct s; discriminate E.
        + discriminate E.
        + destruct s; discriminate E.
      - intros Hx. rewrite (eqb_fin x f32_0 _ _ Hx Z0). apply Req_bool_true. reflexivity. }
    split; intros H x Hx; apply E; apply H; assumption. }
  split.
  - unfold px_is_black. rewrite F, Forall_app. split; intros [H1 H2]; split; auto.
    inversion H2; assumption.
  - unfold px_is_black_alpha. rewrite px_cwa_app by exact Hl. cbn [bind].
    eexists. split; [reflexivity|]. apply F.
Qed.

Example C65_pixel_example : px_is_black_alpha Debug num_u8 [0; 0; 0; 255] = Ret true
  /\ px_is_black num_u8 [0; 0; 0; 255] = false
  /\ px_map_alpha Debug (fun c => Ret (255 - c)) (fun c => Ret c) [1; 2; 3; 4] = Ret [254; 253; 252; 4].
Proof. repeat split. Qed.

(** ** shapes *)
Theorem C65_shape p (i : info) : info_ok i ->
  size p i = Ret (width i * height i)
  /\ full_size p i = Ret (width i * height i * channels i)
  /\ (alpha i = false -> channels_non_alpha p i = Ret (channels i))
  /\ (alpha i = true -> 0 < channels i -> channels_non_alpha p i = Ret (channels i - 1)).
Proof.
  intros (Hw & Hh & Hc & Hs & Hf). unfold u32_max in *.
  assert (0 <= width i * height i) by nia. assert (0 <= width i * height i * channels i) by nia.
  unfold size, full_size, channels_non_alpha.
  split; [apply imul_ok; ity_lia|].
  split; [rewrite imul_ok by ity_lia; cbn [bind]; apply imul_ok; ity_lia|].
  split; intros Ea; rewrite Ea; [reflexivity|]. intros. apply isub_ok; ity_lia.
Qed.
(** no colour channel and no alpha channel: panics in debug builds, 255 in release builds *)
Theorem C65_no_channels (i : info) : alpha i = true -> channels i = 0 ->
  channels_non_alpha Debug i = Panic /\ channels_non_alpha Release i = Ret 255.
Proof. intros Ea Ec. unfold channels_non_alpha. rewrite Ea, Ec. split; reflexivity. Qed.

(** ** sub-images *)
Lemma flat_map_ext_in' {A B} (f g : A -> list B) l : (forall x, In x l -> f x = g x) -> flat_map f l = flat_map g l.
Proof. induction l as [|x l IH]; intros H; [reflexivity|]. cbn. rewrite (H x), IH; [reflexivity| |left; reflexivity]. intros y Hy. apply H. right. exact Hy. Qed.
Lemma concat_rows {T} w n (l0 : list (list T)) : 0 <= w -> 0 <= n -> len l0 = w * n ->
  concat l0 = flat_map (fun j => flat_map (fun i => nth (Z.to_nat (j * w + i)) l0 []) (zrange 0 w)) (zrange 0 n).
Proof.
  intros Hw Hn. revert l0. pattern n. apply natlike_ind; [| |exact Hn].
  - intros l El. replace (w * 0) with 0 in El by lia. destruct l; [reflexivity|].
    exfalso. unfold len in El. cbn in El. lia.
  - intros m Hm IH l El. rewrite <- Z.add_1_r in *.
    rewrite (zrange_app 0 m (m + 1)) by lia. rewrite flat_map_app.
    rewrite (zrange_cons m) by lia. rewrite (zrange_nil (m + 1)) by lia.
    set (k := Z.to_nat (w * m)).
    assert (Hk : (k <= length l)%nat) by (unfold k, len in *; nia).
    assert (E1 : len (firstn k l) = w * m) by (unfold len; rewrite firstn_length; unfold k in *; nia).
    rewrite <- (firstn_skipn k l) at 1. rewrite concat_app. f_equal.
    + rewrite (IH _ E1). apply flat_map_ext_in'. intros j Hj. apply in_zrange in Hj.
      apply flat_map_ext_in'. intros i Hi. apply in_zrange in Hi.
      rewrite nth_firstn; [reflexivity|unfold k; nia].
    + cbn [flat_map]. rewrite app_nil_r. rewrite flat_map_concat_map. f_equal.
      apply (list_ext _ _ []).
      * rewrite map_length, zrange_length, skipn_length. unfold len, k in *. nia.
      * intros i Hi. 
        assert (0 <= Z.of_nat i < w) by (unfold len in *; rewrite skipn_length in Hi; unfold k in *; nia).
        rewrite <- (Nat2Z.id i) at 2. rewrite nth_map_zrange by lia.
        rewrite nth_skipn. f_equal. unfold k. nia.
Qed.

(** to_vec is the concatenation of what get_pixel shows, row by row *)
Theorem C65_sub_to_vec p {T} (w h c : Z) (al : bool) (px : list (list T)) :
  0 <= w -> 0 <= h -> w * h <= u32_max -> len px = w * h ->
  let s := SubImage (Info w h c al) px in
  sub_to_vec p s = Ret (concat px)
  /\ exists rows, (forall i j, 0 <= i < w -> 0 <= j < h -> sub_get_pixel p s i j = Ret (rows j i))
       /\ concat px = flat_map (fun j => flat_map (rows j) (zrange 0 w)) (zrange 0 h).
Proof.
  intros Hw Hh Hs Hl s. unfold u32_max in *.
  assert (Hz : 0 <= w * h) by nia.
  split.
  - unfold sub_to_vec, size. cbn [s sub_info width height].
    rewrite imul_ok by ity_lia. cbn [bind].
    destruct (mfold_zrange_inv (fun k acc => acc = concat (firstn (Z.to_nat k) px))
      (fun acc i => let! q := sub_index s i in Ret (acc ++ q)) 0 (w * h) []) as [out [E Hout]].
    + exact Hz.
    + reflexivity.
    + intros k acc Hk ->. unfold sub_index. cbn [s sub_data].
      rewrite (vget_ok _ _ []) by lia. cbn [bind]. eexists. split; [reflexivity|].
      replace (Z.to_nat (k + 1)) with (S (Z.to_nat k)) by lia.
      assert (Hn : (Z.to_nat k < length px)%nat) by (unfold len in Hl; lia).
      rewrite <- (firstn_skipn (Z.to_nat k) px) at 3.
      rewrite (firstn_app (S (Z.to_nat k))). rewrite firstn_length, Nat.min_l by lia.
      rewrite (firstn_firstn). replace (Nat.min (S (Z.to_nat k)) (Z.to_nat k)) with (Z.to_nat k) by lia.
      replace (S (Z.to_nat k) - Z.to_nat k)%nat with 1%nat by lia.
      rewrite concat_app. f_equal.
      rewrite <- (firstn_skipn (Z.to_nat k) px) at 1.
      rewrite app_nth2 by (rewrite firstn_length; lia).
      rewrite firstn_length, Nat.min_l, Nat.sub_diag by lia.
      destruct (skipn (Z.to_nat k) px) as [|q r] eqn:Er.
      { exfalso. assert (length (skipn (Z.to_nat k) px) = 0%nat) by (rewrite Er; reflexivity).
        rewrite skipn_length in *. lia. }
      cbn. rewrite app_nil_r. reflexivity.
    + rewrite E, Hout. rewrite firstn_all2 by (unfold len in Hl; lia). reflexivity.
  - exists (fun j i => nth (Z.to_nat (j * w + i)) px []). split.
    + intros i j Hi Hj. unfold s. rewrite (sub_get_pixel_ok p _ _ i j []); cbn [width height]; auto.
    + apply (concat_rows w h px Hw Hh). lia.
Qed.

(** the pixels of a rectangle of an image, all of them: the multiset is right even though the
    order is column by column (C11) *)
Theorem C65_get_subimage_to_vec p {T} (img : image T) x y w h :
  wf img -> inside img x y -> 0 <= w -> 0 <= h ->
  x + w <= width (info_of img) -> y + h <= height (info_of img) ->
  exists s, get_subimage p img x y w h = Ret s
    /\ sub_to_vec p s
       = Ret (flat_map (fun i => flat_map (fun j => pixel_at img (x + i) (y + j)) (zrange 0 h)) (zrange 0 w)).
Proof.
  intros Hwf Hin Hw Hh Hxw Hyh. pose proof Hin as [Hx Hy]. pose proof Hwf as [? ? ? ? Hfull Hd].
  assert (w * h <= u32_max) by nia.
  set (f := fun k => pixel_at img (x + k / h) (y + k mod h)).
  set (px := map f (zrange 0 (w * h))).
  assert (Hlen : len px = w * h) by (unfold px; rewrite len_map, len_zrange; nia).
  exists (SubImage (Info w h (channels (info_of img)) (alpha (info_of img))) px).
  split; [apply get_subimage_ok; assumption|].
  destruct (C65_sub_to_vec p w h (channels (info_of img)) (alpha (info_of img)) px Hw Hh) as [E _]; [assumption|exact Hlen|].
  rewrite E. f_equal. rewrite (concat_rows h w px Hh Hw) by lia.
  apply flat_map_ext_in'. intros i Hi. apply in_zrange in Hi.
  apply flat_map_ext_in'. intros j Hj. apply in_zrange in Hj.
  unfold px. rewrite nth_map_zrange by nia.
  unfold f. destruct (pos_div h j i) as [E1 E2]; [lia|]. rewrite ?Z.add_0_l. rewrite E1, E2. reflexivity.
Qed.

(** fewer pixels than width * height: to_vec panics *)
Theorem C65_sub_to_vec_short p {T} (w h c : Z) (al : bool) (px : list (list T)) :
  0 <= w -> 0 <= h -> len px < w * h <= u32_max ->
  sub_to_vec p (SubImage (Info w h c al) px) = Panic.
Proof.
  intros Hw Hh Hl. unfold u32_max in *. unfold sub_to_vec, size. cbn [sub_info width height].
  pose proof (len_nonneg px).
  rewrite imul_ok by ity_lia. cbn [bind].
  rewrite (zrange_app 0 (len px) (w * h)), mfold_app by lia.
  destruct (mfold_zrange_inv (fun k acc => True)
    (fun acc i => let! q := sub_index (SubImage (Info w h c al) px) i in Ret (acc ++ q)) 0 (len px) []) as [out [E Hout]].
  - lia.
  - trivial.
  - intros k acc Hk _. unfold sub_index. cbn [sub_data]. rewrite (vget_ok _ _ []) by lia.
    eexists. split; [reflexivity|trivial].
  - rewrite E. cbn [bind]. rewrite zrange_cons by lia. cbn [mfold].
    unfold sub_index at 1. cbn [sub_data]. rewrite vget_panic by lia. reflexivity.
Qed.

Example C65_sub_example : exists s, get_subimage Debug ex_rgba 1 0 2 2 = Ret s
  /\ sub_to_vec Debug s = Ret [5;6;7;8; 17;18;19;20; 9;10;11;12; 21;22;23;24].
Proof. eexists. split; reflexivity. Qed.
