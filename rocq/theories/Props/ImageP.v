(** * C01-C12: images (src/image). *)
From Verif.Proofs Require Import BaseL ImageL ImageOps ImageProps.
Open Scope Z_scope.

(** A concrete 3x2 RGBA image used to show that hypotheses can be met. *)
Definition ex_rgba : image Z := Image (Info 3 2 4 true)
  [1;2;3;4; 5;6;7;8; 9;10;11;12; 13;14;15;16; 17;18;19;20; 21;22;23;24].
Example ex_rgba_wf : wf ex_rgba. Proof. apply wfb_wf. reflexivity. Qed.
Example ex_rgba_inside : inside ex_rgba 2 1. Proof. unfold inside; cbn; lia. Qed.
Example ex_rgba_pixel : pixel_at ex_rgba 2 1 = [21;22;23;24]. Proof. reflexivity. Qed.

(** ** C01 *)
Theorem C01_from_slice {T} w h c a (d : list T) :
  info_of (from_slice w h c a d) = Info w h c a /\ data (from_slice w h c a d) = d
  /\ from_vec w h c a d = from_slice w h c a d.
Proof. repeat split. Qed.

Lemma fold_app_concat {T} (d : list (list T)) acc : fold_left (fun acc v => acc ++ v) d acc = acc ++ concat d.
Proof.
  revert acc. induction d as [|v d IH]; intros acc; cbn; [rewrite app_nil_r; reflexivity|].
  rewrite IH, app_assoc. reflexivity.
Qed.

Theorem C01_from_vec_of_vec p {T} w h c a (d : list (list T)) :
  0 <= w -> 0 <= h -> 0 <= c -> w * h <= u32_max -> w * h * c <= u32_max ->
  from_vec_of_vec p w h c a d = Ret (Image (Info w h c a) (concat d))
  /\ from_vec_of_slice p w h c a d = Ret (Image (Info w h c a) (concat d)).
Proof.
  intros Hw Hh Hc Hs Hf. unfold u32_max in *.
  assert (0 <= w * h) by nia. assert (0 <= w * h * c) by nia.
  unfold from_vec_of_vec, from_vec_of_slice. ari. rewrite fold_app_concat. split; reflexivity.
Qed.

(** a capacity that overflows: panic in debug; in release the capacity is only a hint *)
Theorem C01_from_vec_of_vec_overflow {T} w h c a (d : list (list T)) :
  (w * h > u32_max ->
     from_vec_of_vec Debug w h c a d = Panic /\ from_vec_of_slice Debug w h c a d = Panic)
  /\ from_vec_of_vec Release w h c a d = Ret (Image (Info w h c a) (concat d))
  /\ from_vec_of_slice Release w h c a d = Ret (Image (Info w h c a) (concat d)).
Proof.
  unfold u32_max. split.
  - intros H. unfold from_vec_of_vec, from_vec_of_slice, imul at 1 3.
    rewrite arith_debug_panic by ity_lia. split; reflexivity.
  - assert (forall x, exists y, arith Release U32 x = Ret y) as Ha
      by (intros x; destruct (arith_cases Release U32 x) as [[_ ->]|[_ ->]]; eauto).
    unfold from_vec_of_vec, from_vec_of_slice, imul.
    destruct (Ha (w * h)) as [s ->]. cbn [bind]. destruct (Ha (s * c)) as [s' ->]. cbn [bind].
    rewrite fold_app_concat. split; reflexivity.
Qed.

Theorem C01_blank p {T} (N : number T) (i : info) :
  0 <= width i <= u32_max -> 0 <= height i <= u32_max -> 0 <= channels i <= 255 ->
  width i * height i <= u32_max -> width i * height i * channels i <= u32_max ->
  exists img, blank p N i = Ret img /\ wf img /\ info_of img = i
    /\ len (data img) = width i * height i * channels i
    /\ forall s, In s (data img) -> s = n_zero N.
Proof.
  intros Hw Hh Hc Hs Hf. assert (Hi : info_ok i) by (unfold info_ok; tauto).
  eexists. rewrite blank_ok by exact Hi. split; [reflexivity|]. conj.
  - apply blank_wf. exact Hi.
  - reflexivity.
  - apply (wf_data _ (blank_wf N i Hi)).
  - intros s Hin. cbn in Hin. apply repeat_spec in Hin. exact Hin.
Qed.

(** blank of a size that does not fit in u32: a panic in debug, a too small buffer in release *)
Theorem C01_blank_overflow {T} (N : number T) (i : info) :
  width i * height i > u32_max ->
  blank Debug N i = Panic.
Proof.
  intros H. unfold u32_max in H. unfold blank, full_size, imul at 1.
  rewrite arith_debug_panic by ity_lia. reflexivity.
Qed.
Example C01_blank_example : exists img, blank Release num_u8 (Info 3 2 4 true) = Ret img /\ wf img.
Proof. eexists. split; [reflexivity|]. apply wfb_wf. reflexivity. Qed.
Example C01_blank_release_wraps :
  blank Release num_u8 (Info 65536 65537 0 false) = Ret (Image (Info 65536 65537 0 false) [])
  /\ blank Release num_u8 (Info 2147483648 2 3 false) = Ret (Image (Info 2147483648 2 3 false) []).
Proof. split; reflexivity. Qed.

(** ** C02 *)
Theorem C02_set_get p {T} (img : image T) x y px :
  wf img -> inside img x y -> len px = channels (info_of img) ->
  exists img', set_pixel p img x y px = Ret img'
    /\ info_of img' = info_of img /\ wf img'
    /\ get_pixel p img' x y = Ret px
    /\ forall x' y', 0 <= x' -> 0 <= y' -> (x', y') <> (x, y) ->
         get_pixel p img' x' y' = get_pixel p img x' y'.
Proof.
  intros Hwf Hin Hp. pose proof Hin as [Hx Hy]. pose proof (wf_c _ Hwf).
  destruct (pos_bound (width (info_of img)) (height (info_of img)) (channels (info_of img)) x y) as [Hpos _]; try lia.
  eexists. split; [apply set_pixel_ok; assumption|].
  assert (Hwf' : wf (put img (y * width (info_of img) + x) px)) by (apply put_wf; assumption).
  conj; auto.
  - rewrite get_pixel_ok by assumption. rewrite pixel_at_put by assumption.
    rewrite !Z.eqb_refl. reflexivity.
  - intros x' y' Hx' Hy' Hne.
    destruct (Z_lt_le_dec x' (width (info_of img))); destruct (Z_lt_le_dec y' (height (info_of img))).
    + assert (Hin' : inside img x' y') by (split; lia).
      rewrite !get_pixel_ok by assumption. rewrite pixel_at_put by assumption.
      destruct ((x' =? x) && (y' =? y)) eqn:E; [|reflexivity].
      exfalso. apply Hne. f_equal; lia.
    + rewrite !get_pixel_panic; auto; unfold inside; cbn [info_of put]; lia.
    + rewrite !get_pixel_panic; auto; unfold inside; cbn [info_of put]; lia.
    + rewrite !get_pixel_panic; auto; unfold inside; cbn [info_of put]; lia.
Qed.

Theorem C02_set_get_indexed p {T} (img : image T) i px :
  wf img -> 0 <= i < width (info_of img) * height (info_of img) -> len px = channels (info_of img) ->
  exists img', set_pixel_indexed p img i px = Ret img'
    /\ info_of img' = info_of img /\ wf img'
    /\ img_index p img' i = Ret px
    /\ forall j, 0 <= j < width (info_of img) * height (info_of img) -> j <> i ->
         img_index p img' j = img_index p img j.
Proof.
  intros Hwf Hi Hp. eexists. split; [apply set_pixel_indexed_ok; assumption|].
  assert (Hwf' : wf (put img i px)) by (apply put_wf; assumption).
  conj; auto.
  - rewrite img_index_ok by assumption. rewrite put_same by assumption. reflexivity.
  - intros j Hj Hne. rewrite !img_index_ok by assumption. rewrite put_other by auto. reflexivity.
Qed.

(** the two write paths agree: writing through the linear index is writing at (x,y) *)
Theorem C02_paths_agree p {T} (img : image T) x y px :
  wf img -> inside img x y -> len px = channels (info_of img) ->
  set_pixel_indexed p img (y * width (info_of img) + x) px = set_pixel p img x y px.
Proof.
  intros Hwf Hin Hp. rewrite set_pixel_ok by assumption. apply set_pixel_indexed_ok; auto.
  destruct Hin. pose proof (wf_c _ Hwf).
  destruct (pos_bound (width (info_of img)) (height (info_of img)) (channels (info_of img)) x y); lia.
Qed.

(** a huge index wraps around in release: set_pixel_indexed(2^62, p) silently writes pixel 0 *)
Theorem C02_set_pixel_indexed_wraps :
  set_pixel_indexed Release ex_rgba (2 ^ 62) [0;0;0;0] = set_pixel_indexed Release ex_rgba 0 [0;0;0;0]
  /\ set_pixel_indexed Debug ex_rgba (2 ^ 62) [0;0;0;0] = Panic.
Proof. split; reflexivity. Qed.

Example C02_example : wf ex_rgba /\ inside ex_rgba 2 1 /\ len [7;7;7;7] = channels (info_of ex_rgba)
  /\ exists img', set_pixel Debug ex_rgba 2 1 [7;7;7;7] = Ret img' /\ img' <> ex_rgba.
Proof.
  conj; [apply ex_rgba_wf|apply ex_rgba_inside|reflexivity|].
  eexists. split; [reflexivity|]. discriminate.
Qed.

(** ** C03 *)
Theorem C03_get_pixel p {T} (img : image T) x y : wf img -> 0 <= x -> 0 <= y ->
  (inside img x y -> exists px, get_pixel p img x y = Ret px /\ len px = channels (info_of img))
  /\ (~ inside img x y -> get_pixel p img x y = Panic).
Proof.
  intros Hwf Hx Hy. split.
  - intros Hin. exists (pixel_at img x y). split; [apply get_pixel_ok; assumption|apply pixel_at_len; assumption].
  - apply get_pixel_panic; assumption.
Qed.

Theorem C03_set_pixel p {T} (img : image T) x y px : wf img -> 0 <= x -> 0 <= y ->
  (inside img x y /\ len px = channels (info_of img) -> exists img', set_pixel p img x y px = Ret img')
  /\ (~ (inside img x y /\ len px = channels (info_of img)) -> set_pixel p img x y px = Panic).
Proof.
  intros Hwf Hx Hy. split.
  - intros [Hin Hp]. eexists. apply set_pixel_ok; assumption.
  - apply set_pixel_panic; assumption.
Qed.

(** get_pixel_mut: the borrowed slice is the pixel; after the caller's update [f] (any
    function to slices of the same length) exactly that pixel has changed *)
Theorem C03_get_pixel_mut p {T} (img : image T) x y (f : list T -> outcome (list T)) :
  wf img -> 0 <= x -> 0 <= y ->
  (inside img x y -> forall px, f (pixel_at img x y) = Ret px -> len px = channels (info_of img) ->
     get_pixel_mut p img x y f = set_pixel p img x y px
     /\ get_pixel_mut_unchecked p img x y f = set_pixel p img x y px)
  /\ (~ inside img x y -> get_pixel_mut p img x y f = Panic).
Proof.
  intros Hwf Hx Hy. split.
  - intros Hin px Hf Hp. rewrite set_pixel_ok by assumption.
    pose proof Hin as [Hx' Hy']. pose proof Hwf as [? ? ? ? ? Hd]. unfold u32_max in *.
    destruct (pos_bound (width (info_of img)) (height (info_of img)) (channels (info_of img)) x y) as [? [? [? ?]]]; try lia.
    split.
    + unfold get_pixel_mut, check_xy.
      replace (width (info_of img) <=? x) with false by lia.
      replace (height (info_of img) <=? y) with false by lia. cbn [bind].
      rewrite index_ok by assumption. cbn [bind]. ari. rewrite vslice_ok by lia. cbn [bind].
      match goal with |- context [f ?l] => replace l with (pixel_at img x y) end.
      * rewrite Hf. cbn [bind]. rewrite vcopy_ok by lia. reflexivity.
      * unfold pixel_at. do 2 f_equal. lia.
    + unfold get_pixel_mut_unchecked. ari. apply img_index_mut_ok; auto.
  - intros Hn. unfold get_pixel_mut, check_xy, inside in *.
    destruct (width (info_of img) <=? x) eqn:E1; [reflexivity|].
    destruct (height (info_of img) <=? y) eqn:E2; [reflexivity|]. lia.
Qed.

(** lengths agreeing only modulo 256 are still rejected *)
Theorem C03_wrong_length_mod_256 p {T} (img : image T) x y px : wf img -> 0 <= x -> 0 <= y ->
  len px = channels (info_of img) + 256 -> set_pixel p img x y px = Panic.
Proof. intros Hwf Hx Hy Hl. apply set_pixel_panic; auto. intros [_ H]. lia. Qed.

Example C03_example : wf ex_rgba /\ inside ex_rgba 2 1 /\ ~ inside ex_rgba 3 1 /\ ~ inside ex_rgba 0 2.
Proof. conj; [apply ex_rgba_wf|apply ex_rgba_inside|unfold inside; cbn; lia|unfold inside; cbn; lia]. Qed.

(** ** C04 *)
Theorem C04_indexing p {T} (img : image T) x y : wf img -> inside img x y ->
  get_pixel p img x y = Ret (pixel_at img x y)
  /\ get_pixel_unchecked p img x y = Ret (pixel_at img x y)
  /\ img_index p img (y * width (info_of img) + x) = Ret (pixel_at img x y)
  /\ (exists k, index p img x y = Ret k
      /\ vslice (data img) k (k + channels (info_of img)) = Ret (pixel_at img x y))
  /\ get_2d_coords p (y * width (info_of img) + x) (width (info_of img)) = Ret (x, y).
Proof.
  intros Hwf Hin. pose proof Hin as [Hx Hy]. pose proof Hwf as [? ? ? ? ? Hd]. unfold u32_max in *.
  destruct (pos_bound (width (info_of img)) (height (info_of img)) (channels (info_of img)) x y) as [? [? [? ?]]]; try lia.
  conj.
  - apply get_pixel_ok; assumption.
  - apply get_pixel_unchecked_ok; assumption.
  - rewrite img_index_ok by assumption. rewrite pixel_at_i. reflexivity.
  - eexists. split; [apply index_ok; assumption|]. rewrite vslice_ok by lia.
    unfold pixel_at. do 3 f_equal. lia.
  - rewrite get_2d_coords_ok by (unfold u32_max; lia).
    destruct (pos_div (width (info_of img)) x y) as [-> ->]; [lia|]. reflexivity.
Qed.

Theorem C04_bijection {T} (img : image T) k : wf img ->
  0 <= k < width (info_of img) * height (info_of img) ->
  (exists x y, inside img x y /\ y * width (info_of img) + x = k)
  /\ forall x y x' y', inside img x y -> inside img x' y' ->
       y * width (info_of img) + x = k -> y' * width (info_of img) + x' = k -> x = x' /\ y = y'.
Proof.
  intros Hwf Hk. destruct (wf_w _ Hwf), (wf_h _ Hwf).
  assert (0 < width (info_of img)) by nia.
  destruct (pos_surj _ _ k H3 Hk) as [? [? ?]]. split.
  - exists (k mod width (info_of img)), (k / width (info_of img)). split; [split; assumption|lia].
  - intros x y x' y' [? ?] [? ?] E1 E2. eapply pos_inj; eauto. lia.
Qed.

Example C04_example : img_index Debug ex_rgba 5 = Ret [21;22;23;24] /\ get_2d_coords Debug 5 3 = Ret (2, 1).
Proof. split; reflexivity. Qed.

(** ** C05 *)
Theorem C05_iterator p {T} (img : image T) : wf img ->
  0 < width (info_of img) -> 0 < height (info_of img) ->
  exists it0, iter_new p img = Ret it0
    /\ forall n, exists itn, call_next p img it0 n = Ret (map (kth_item img) (seq 0 n), itn).
Proof.
  intros Hwf HW HH. exists (iter_at img 0). split; [apply iter_new_ok; assumption|].
  intros n. eexists. rewrite call_next_from by (auto; nia). reflexivity.
Qed.

(** every pixel occurs at exactly one position of the sequence of items *)
Theorem C05_each_pixel_once {T} (img : image T) x y : wf img -> inside img x y ->
  exists! k, kth_item img k = Some (x, y, pixel_at img x y).
Proof.
  intros Hwf [Hx Hy]. pose proof (wf_c _ Hwf).
  destruct (pos_bound (width (info_of img)) (height (info_of img)) (channels (info_of img)) x y) as [? _]; try lia.
  exists (Z.to_nat (y * width (info_of img) + x)). split.
  - unfold kth_item. cbv zeta. rewrite Z2Nat.id by lia.
    replace (y * width (info_of img) + x <? width (info_of img) * height (info_of img)) with true by lia.
    destruct (pos_div (width (info_of img)) x y) as [-> ->]; [lia|]. reflexivity.
  - intros k Hk. unfold kth_item in Hk. cbv zeta in Hk.
    destruct (Z.of_nat k <? width (info_of img) * height (info_of img)) eqn:E; [|discriminate].
    injection Hk as Hm Hd _. pose proof (Z.div_mod (Z.of_nat k) (width (info_of img))). nia.
Qed.

(** an image without pixels cannot be iterated: panic instead of an empty iteration *)
Theorem C05_empty_image_panics {T} (img : image T) : wf img ->
  width (info_of img) = 0 \/ height (info_of img) = 0 ->
  iter_new Debug img = Panic
  /\ forall it, iter_new Release img = Ret it -> iter_next Release img it = Panic.
Proof. apply iter_empty_panics. Qed.

Example C05_example : wf ex_rgba /\ 0 < width (info_of ex_rgba) /\ 0 < height (info_of ex_rgba)
  /\ map (kth_item ex_rgba) [4%nat; 6%nat; 7%nat] = [Some (1, 1, [17;18;19;20]); None; None].
Proof. conj; try apply ex_rgba_wf; reflexivity. Qed.
Example C05_empty_example : wf (Image (Info 0 5 3 false) (@nil Z)).
Proof. apply wfb_wf. reflexivity. Qed.

(** ** C06: refuted.  After any positive number of calls of next(), size_hint() still returns the
    size of the whole image, more than the number of items still to come. *)
Definition remaining {T} (img : image T) (n : nat) : Z :=
  Z.max 0 (width (info_of img) * height (info_of img) - Z.of_nat n).

Theorem C06_size_hint_refuted p {T} (img : image T) : wf img ->
  0 < width (info_of img) -> 0 < height (info_of img) ->
  exists it0, iter_new p img = Ret it0
    /\ forall n, (0 < n)%nat -> exists items itn lo items' it',
         call_next p img it0 n = Ret (items, itn)
         /\ iter_size_hint p itn = Ret (lo, Some lo)
         /\ remaining img n < lo
         /\ (* among the next [lo] calls, all promised to yield an item, one yields None *)
            call_next p img itn (Z.to_nat lo) = Ret (items', it') /\ In None items'.
Proof.
  intros Hwf HW HH. exists (iter_at img 0). split; [apply iter_new_ok; assumption|].
  intros n Hn. assert (H0 : 0 < width (info_of img) * height (info_of img)) by nia.
  do 5 eexists. conj.
  - rewrite call_next_from by (auto; lia). reflexivity.
  - apply iter_size_hint_at; auto. lia.
  - unfold remaining. lia.
  - rewrite call_next_from by (auto; lia). reflexivity.
  - apply in_map_iff. exists (Z.to_nat (width (info_of img) * height (info_of img)) - 1)%nat. split.
    + unfold kth_item. cbv zeta. generalize dependent (width (info_of img) * height (info_of img)).
      intros s Hs. replace (_ <? s) with false by (symmetry; apply Z.ltb_ge; lia). reflexivity.
    + apply in_seq. lia.
Qed.

(** what does hold: before the first call the hint is exact, and the upper bound is always valid *)
Theorem C06_size_hint p {T} (img : image T) : wf img ->
  0 < width (info_of img) -> 0 < height (info_of img) ->
  exists it0, iter_new p img = Ret it0
    /\ iter_size_hint p it0 = Ret (remaining img 0, Some (remaining img 0))
    /\ forall n, exists items itn lo hi,
         call_next p img it0 n = Ret (items, itn)
         /\ iter_size_hint p itn = Ret (lo, Some hi) /\ remaining img n <= hi.
Proof.
  intros Hwf HW HH. exists (iter_at img 0). split; [apply iter_new_ok; assumption|].
  assert (0 < width (info_of img) * height (info_of img)) by nia. split.
  - rewrite iter_size_hint_at by (auto; lia). unfold remaining. do 2 f_equal; [lia|]. f_equal. lia.
  - intros n. do 4 eexists. conj.
    + rewrite call_next_from by (auto; lia). reflexivity.
    + apply iter_size_hint_at; auto. lia.
    + unfold remaining. lia.
Qed.

Example C06_example : wf ex_rgba /\ 0 < width (info_of ex_rgba) /\ 0 < height (info_of ex_rgba)
  /\ exists it0 items it1, iter_new Debug ex_rgba = Ret it0 /\ call_next Debug ex_rgba it0 5 = Ret (items, it1)
       /\ iter_size_hint Debug it1 = Ret (6, Some 6).
Proof. conj; try apply ex_rgba_wf; try reflexivity. do 3 eexists. conj; reflexivity. Qed.

(** ** C07 *)
Theorem C07_map_channels p {T S} (f : T -> S) (img : image T) : wf img ->
  exists out, map_channels p (fun c => Ret (f c)) img = Ret out
    /\ info_of out = info_of img /\ data out = map f (data img)
    /\ forall x y, inside img x y -> pixel_at out x y = map f (pixel_at img x y).
Proof.
  intros Hwf. eexists. split; [apply map_channels_pure; exact Hwf|]. conj; try reflexivity.
  intros x y _. apply pixel_at_map.
Qed.

Theorem C07_map_channels_if_alpha p {T S} (f g : T -> S) (img : image T) : wf img ->
  0 < channels (info_of img) ->
  exists out, map_channels_if_alpha p (fun c => Ret (f c)) (fun c => Ret (g c)) img = Ret out
    /\ info_of out = info_of img /\ wf out
    /\ (alpha (info_of img) = false -> data out = map f (data img))
    /\ (alpha (info_of img) = true -> forall x y cs a, inside img x y ->
          pixel_at img x y = cs ++ [a] -> pixel_at out x y = map f cs ++ [g a]).
Proof.
  intros Hwf HC. destruct (alpha (info_of img)) eqn:Ha.
  - destruct (map_channels_if_alpha_true p img f g Hwf Ha HC) as [out [E [Hw [Hi Hp]]]].
    exists out. conj; auto. discriminate.
  - exists (Image (info_of img) (map f (data img))). unfold map_channels_if_alpha. rewrite Ha. cbn [negb].
    rewrite map_channels_pure by exact Hwf. conj; auto.
    + apply map_data_wf. exact Hwf.
    + discriminate.
Qed.
Example C07_example : wf ex_rgba /\ 0 < channels (info_of ex_rgba)
  /\ exists out, map_channels_if_alpha Debug (fun c => Ret (c + 100)) (fun c => Ret c) ex_rgba = Ret out
       /\ pixel_at out 1 1 = [117;118;119;20].
Proof. conj; try apply ex_rgba_wf; try reflexivity. eexists. split; reflexivity. Qed.

(** ** C08 *)
Theorem C08_map_pixels p {T S} (f : list T -> list S) (img : image T) k : wf img ->
  0 < width (info_of img) * height (info_of img) ->
  0 <= k <= 255 -> width (info_of img) * height (info_of img) * k <= u32_max ->
  (forall x y, inside img x y -> len (f (pixel_at img x y)) = k) ->
  exists out, map_pixels p (fun px => Ret (f px)) img = Ret out /\ wf out
    /\ info_of out = Info (width (info_of img)) (height (info_of img)) k (alpha (info_of img))
    /\ forall x y, inside img x y -> pixel_at out x y = f (pixel_at img x y).
Proof.
  intros Hwf H0 Hk Hfit Hf.
  set (i := Info (width (info_of img)) (height (info_of img)) k (alpha (info_of img))).
  exists (of_fun i (fun x y => f (pixel_at img x y))).
  assert (Hi : info_ok i).
  { destruct Hwf. unfold info_ok, i. cbn. lia. }
  conj.
  - apply map_pixels_ok; auto.
  - apply of_fun_wf; auto. intros x y Hx Hy. apply Hf. split; assumption.
  - reflexivity.
  - intros x y [Hx Hy]. apply pixel_at_of_fun; auto. intros x' y' Hx' Hy'. apply Hf. split; assumption.
Qed.

Theorem C08_map_pixels_if_alpha p {T S} (f : list T -> list S) (g : T -> S) (img : image T) k : wf img ->
  0 < width (info_of img) * height (info_of img) -> 0 < channels (info_of img) ->
  alpha (info_of img) = true ->
  0 <= k <= 254 -> width (info_of img) * height (info_of img) * (k + 1) <= u32_max ->
  (forall x y cs a, inside img x y -> pixel_at img x y = cs ++ [a] -> len (f cs) = k) ->
  exists out, map_pixels_if_alpha p (fun px => Ret (f px)) (fun a => Ret (g a)) img = Ret out /\ wf out
    /\ info_of out = Info (width (info_of img)) (height (info_of img)) (k + 1) true
    /\ forall x y cs a, inside img x y -> pixel_at img x y = cs ++ [a] ->
         pixel_at out x y = f cs ++ [g a].
Proof.
  intros Hwf H0 HC Ha Hk Hfit Hf.
  set (i := Info (width (info_of img)) (height (info_of img)) (k + 1) true).
  set (G := fun x y => f (removelast (pixel_at img x y))
                       ++ match rev (pixel_at img x y) with a :: _ => [g a] | [] => [] end).
  assert (HG : forall x y cs a, pixel_at img x y = cs ++ [a] -> G x y = f cs ++ [g a]).
  { intros x y cs a E. unfold G. rewrite E, removelast_last, rev_app_distr. reflexivity. }
  assert (Hi : info_ok i).
  { destruct Hwf. unfold info_ok, i. cbn. lia. }
  assert (Hl : forall x y, 0 <= x < width i -> 0 <= y < height i -> len (G x y) = channels i).
  { intros x y Hx Hy. destruct (pixel_split img x y Hwf (conj Hx Hy) HC) as [cs [a [E Hl]]].
    rewrite (HG x y cs a E), len_app, (Hf x y cs a (conj Hx Hy) E). reflexivity. }
  exists (of_fun i G). conj.
  - apply map_pixels_if_alpha_ok; auto. intros x y cs a Hin E. exists (f cs), (g a). conj; auto.
    eapply Hf; eauto.
  - apply of_fun_wf; auto.
  - reflexivity.
  - intros x y cs a [Hx Hy] E. rewrite pixel_at_of_fun by auto. apply HG. exact E.
Qed.

Theorem C08_no_alpha p {T S} (f : list T -> outcome (list S)) (g : T -> outcome S) (img : image T) :
  alpha (info_of img) = false -> map_pixels_if_alpha p f g img = map_pixels p f img.
Proof. intros Ha. unfold map_pixels_if_alpha. rewrite Ha. reflexivity. Qed.

Theorem C08_no_pixels_panics p {T S} (f : list T -> outcome (list S)) (g : T -> outcome S) (img : image T) : wf img ->
  width (info_of img) * height (info_of img) = 0 ->
  map_pixels p f img = Panic /\ map_pixels_if_alpha p f g img = Panic.
Proof.
  intros Hwf H0. split; [apply map_pixels_empty; assumption|].
  unfold map_pixels_if_alpha. destruct (alpha (info_of img)); cbn [negb]; [|apply map_pixels_empty; assumption].
  rewrite size_ok by exact Hwf. cbn [bind]. rewrite H0. reflexivity.
Qed.
Example C08_example : wf ex_rgba /\ 0 < width (info_of ex_rgba) * height (info_of ex_rgba)
  /\ exists out, map_pixels_if_alpha Debug (fun px => Ret [fold_left Z.add px 0]) (fun a => Ret a) ex_rgba = Ret out
       /\ info_of out = Info 3 2 2 true /\ data out = [6;4; 18;8; 30;12; 42;16; 54;20; 66;24].
Proof. conj; try apply ex_rgba_wf; try reflexivity. eexists. conj; reflexivity. Qed.

(** ** C09 *)
Theorem C09_apply_channels p {T} (f : T -> outcome T) (img : image T) : wf img ->
  apply_channels p f img = map_channels p f img.
Proof. apply apply_channels_eq. Qed.

Theorem C09_apply_pixels p {T} (f : list T -> list T) (img : image T) : wf img ->
  0 < width (info_of img) * height (info_of img) ->
  (forall x y, inside img x y -> len (f (pixel_at img x y)) = channels (info_of img)) ->
  apply_pixels p (fun px => Ret (f px)) img = map_pixels p (fun px => Ret (f px)) img.
Proof.
  intros Hwf H0 Hf.
  rewrite (map_pixels_ok p img _ (fun x y => f (pixel_at img x y)) (channels (info_of img))); auto.
  - rewrite (apply_pixels_ok p img Hwf _ (fun x y => f (pixel_at img x y))) by auto.
    destruct img as [[w h c a] d]. reflexivity.
  - apply (wf_c _ Hwf).
  - apply (wf_full _ Hwf).
Qed.

Theorem C09_apply_pixels_if_alpha p {T} (f : list T -> list T) (g : T -> T) (img : image T) : wf img ->
  0 < width (info_of img) * height (info_of img) -> 0 < channels (info_of img) ->
  (forall px, len (f px) = len px) ->
  apply_pixels_if_alpha p (fun px => Ret (f px)) (fun a => Ret (g a)) img
  = map_pixels_if_alpha p (fun px => Ret (f px)) (fun a => Ret (g a)) img.
Proof.
  intros Hwf H0 HC Hf. destruct (alpha (info_of img)) eqn:Ha.
  - set (G := fun x y => f (removelast (pixel_at img x y))
                       ++ match rev (pixel_at img x y) with a :: _ => [g a] | [] => [] end).
    assert (HG : forall x y cs a, pixel_at img x y = cs ++ [a] -> G x y = f cs ++ [g a]).
    { intros x y cs a E. unfold G. rewrite E, removelast_last, rev_app_distr. reflexivity. }
    pose proof (wf_c _ Hwf). pose proof (wf_full _ Hwf).
    assert (Hrw : channels (info_of img) - 1 + 1 = channels (info_of img)) by lia.
    assert (Hfit : width (info_of img) * height (info_of img) * (channels (info_of img) - 1 + 1) <= u32_max)
      by (rewrite Hrw; assumption).
    assert (Hk : 0 <= channels (info_of img) - 1 <= 254) by lia.
    assert (HGf : forall x y cs a, inside img x y -> pixel_at img x y = cs ++ [a] ->
      exists o b, Ret (f cs) = Ret o /\ Ret (g a) = Ret b /\ G x y = o ++ [b] /\ len o = channels (info_of img) - 1).
    { intros x y cs a Hin E. exists (f cs), (g a). conj; auto. rewrite Hf.
      pose proof (pixel_at_len img Hwf x y Hin) as Hl. rewrite E, len_app in Hl. change (len [a]) with 1 in Hl. lia. }
    rewrite (map_pixels_if_alpha_ok p img _ _ G (channels (info_of img) - 1) Hwf H0 Ha HC Hk Hfit HGf).
    transitivity (apply_pixels p (fun px => let! cs := px_channels_without_alpha p px in
                               let! a := px_alpha p px in Ret (f cs ++ [g a])) img).
    + unfold apply_pixels_if_alpha, apply_pixels. rewrite Ha. cbn [negb].
      apply bind_ext. intros sz _. apply mfold_ext. intros im i _. apply bind_ext. intros px _.
      rewrite bind_assoc. apply bind_ext. intros cs _. cbn [bind]. rewrite bind_assoc. reflexivity.
    + rewrite (apply_pixels_ok p img Hwf _ G).
      * replace (channels (info_of img) - 1 + 1) with (channels (info_of img)) by lia.
        destruct img as [[w h c a] d]. cbn in Ha |- *. rewrite Ha. reflexivity.
      * intros x y Hin. destruct (pixel_split img x y Hwf Hin HC) as [cs [a [E Hl]]].
        rewrite (HG x y cs a E), E. rewrite px_cwa_app, px_alpha_app by lia. cbn [bind].
        split; [reflexivity|]. rewrite len_app, Hf. change (len [g a]) with 1. lia.
  - unfold apply_pixels_if_alpha, map_pixels_if_alpha. rewrite Ha. cbn [negb].
    apply C09_apply_pixels; auto. intros x y Hin. rewrite Hf. apply pixel_at_len; assumption.
Qed.

Theorem C09_apply_channels_if_alpha p {T} (f g : T -> T) (img : image T) : wf img ->
  0 < channels (info_of img) ->
  apply_channels_if_alpha p (fun c => Ret (f c)) (fun c => Ret (g c)) img
  = map_channels_if_alpha p (fun c => Ret (f c)) (fun c => Ret (g c)) img.
Proof.
  intros Hwf HC. destruct (alpha (info_of img)) eqn:Ha.
  - destruct (map_channels_if_alpha_true p img f g Hwf Ha HC) as [out [E [Hw [Hi Hp]]]]. rewrite E.
    unfold apply_channels_if_alpha. rewrite Ha. cbn [negb]. rewrite size_ok by exact Hwf. cbn [bind].
    pose proof (wf_c _ Hwf).
    destruct (inplace_loop img Hwf (fun im i => img_index_mut p im i (px_apply_alpha p (fun c => Ret (f c)) (fun c => Ret (g c))))
                (fun i => pixel_i out i)) as [out' [E' [Hw' [Hi' Hp']]]].
    + intros im i Hi0 Hwim Hinf Hpx.
      destruct (linear_inside img i Hwf Hi0) as [Hin Hpi].
      destruct (pixel_split img _ _ Hwf Hin HC) as [cs [a [Ep Hl]]].
      apply img_index_mut_ok; auto; try (rewrite Hinf; assumption).
      * rewrite Hpx, Hpi, Ep. rewrite px_apply_alpha_app by lia. rewrite mmap_pure. cbn [bind].
        rewrite pixel_i_at by (rewrite Hi; destruct Hin; lia). rewrite Hi. f_equal. symmetry. apply Hp; auto.
      * rewrite Hinf. rewrite <- Hi. apply pixel_i_len; auto. rewrite Hi. exact Hi0.
    + intros i Hi0. rewrite <- Hi. apply pixel_i_len; auto. rewrite Hi. exact Hi0.
    + rewrite E'. f_equal. apply (out_ext img); auto.
  - unfold apply_channels_if_alpha, map_channels_if_alpha. rewrite Ha. cbn [negb]. apply apply_channels_eq. exact Hwf.
Qed.

(** edit_channel(f, k), k < channels: channel k of every pixel becomes f of it, nothing else changes *)
Theorem C09_edit_channel p {T} (f : T -> T) k (img : image T) : wf img ->
  0 <= k < channels (info_of img) ->
  exists out, edit_channel p (fun c => Ret (f c)) k img = Ret out /\ wf out /\ info_of out = info_of img
    /\ forall x y c, inside img x y -> 0 <= c < channels (info_of img) ->
         nth_error (pixel_at out x y) (Z.to_nat c)
         = if c =? k then option_map f (nth_error (pixel_at img x y) (Z.to_nat c))
           else nth_error (pixel_at img x y) (Z.to_nat c).
Proof.
  intros Hwf Hk.
  destruct (run_op_step p img (EditChannel f k) Hwf) as [out [E [Hw [Hi Hc]]]]; cbn; try lia; auto.
  exists out. conj; auto. intros x y c [Hx Hy] Hcc.
  specialize (Hc x y c (conj Hx Hy) ltac:(lia)). unfold cells_of in Hc. rewrite Hc. cbn [op_effect]. cbv zeta.
  set (C := channels (info_of img)) in *.
  destruct (pos_bound (width (info_of img)) (height (info_of img)) C x y) as [? [? [? ?]]]; try lia.
  set (n := y * width (info_of img) + x) in *.
  replace ((n * C + c - k) mod C) with ((c - k) mod C).
  2: { replace (n * C + c - k) with (c - k + n * C) by lia. rewrite Z.mod_add by lia. reflexivity. }
  destruct (Z.eqb_spec c k) as [->|Hne].
  - rewrite Z.sub_diag, Z.mod_0_l by lia. replace (k <=? n * C + k) with true by lia. reflexivity.
  - replace ((c - k) mod C =? 0) with false.
    + rewrite andb_false_r. reflexivity.
    + symmetry. apply Z.eqb_neq. intros E0. apply Z.mod_divide in E0; [|lia]. destruct E0 as [q Eq].
      assert (q = 0 \/ q <= -1 \/ 1 <= q) as [->|[?|?]] by lia; nia.
Qed.

(** a channel number that does not exist is not rejected: channel k mod channels of all
    pixels from number k div channels on is edited *)
Theorem C09_edit_channel_out_of_range p {T} (f : T -> T) k (img : image T) : wf img ->
  0 < channels (info_of img) <= k ->
  exists out, edit_channel p (fun c => Ret (f c)) k img = Ret out /\ wf out /\ info_of out = info_of img
    /\ forall x y c, inside img x y -> 0 <= c < channels (info_of img) ->
         nth_error (pixel_at out x y) (Z.to_nat c)
         = if (c =? k mod channels (info_of img)) && (k / channels (info_of img) <=? y * width (info_of img) + x)
           then option_map f (nth_error (pixel_at img x y) (Z.to_nat c))
           else nth_error (pixel_at img x y) (Z.to_nat c).
Proof.
  intros Hwf Hk.
  destruct (run_op_step p img (EditChannel f k) Hwf) as [out [E [Hw [Hi Hc]]]]; cbn; try lia; auto.
  exists out. conj; auto. intros x y c [Hx Hy] Hcc.
  specialize (Hc x y c (conj Hx Hy) ltac:(lia)). unfold cells_of in Hc. rewrite Hc. cbn [op_effect]. cbv zeta.
  set (C := channels (info_of img)) in *.
  destruct (pos_bound (width (info_of img)) (height (info_of img)) C x y) as [? [? [? ?]]]; try lia.
  set (n := y * width (info_of img) + x) in *.
  pose proof (Z.div_mod k C ltac:(lia)) as Hdm. pose proof (Z.mod_pos_bound k C ltac:(lia)) as Hb.
  set (q := k / C) in *. set (r := k mod C) in *.
  replace ((n * C + c - k) mod C) with ((c - r) mod C).
  2: { replace (n * C + c - k) with (c - r + (n - q) * C) by lia. rewrite Z.mod_add by lia. reflexivity. }
  destruct (Z.eqb_spec c r) as [->|Hne].
  - rewrite Z.sub_diag, Z.mod_0_l by lia. cbn [Z.eqb andb]. rewrite andb_true_r.
    replace (k <=? n * C + r) with (q <=? n); [reflexivity|].
    destruct (Z.leb_spec q n); symmetry; [apply Z.leb_le; nia|apply Z.leb_gt; nia].
  - replace ((c - r) mod C =? 0) with false.
    + rewrite andb_false_r. reflexivity.
    + symmetry. apply Z.eqb_neq. intros E0. apply Z.mod_divide in E0; [|lia]. destruct E0 as [q' Eq].
      assert (q' = 0 \/ q' <= -1 \/ 1 <= q') as [->|[?|?]] by lia; nia.
Qed.
Example C09_example : wf ex_rgba /\ 0 <= 1 < channels (info_of ex_rgba)
  /\ exists out, edit_channel Debug (fun c => Ret (c * 2)) 1 ex_rgba = Ret out
       /\ pixel_at out 2 0 = [9;20;11;12] /\ pixel_at out 0 1 = [13;28;15;16].
Proof. conj; try apply ex_rgba_wf; cbn; try lia. eexists. conj; reflexivity. Qed.

(** ** C10 *)
Theorem C10_history p {T} (ops : list (op T)) (img : image T) :
  wf img -> 0 < channels (info_of img) -> Forall op_typed ops ->
  Forall (op_legal (info_of img)) ops ->
  exists out, mfold (run_op p) ops img = Ret out
    /\ len (data out) = width (info_of img) * height (info_of img) * channels (info_of img)
    /\ info_of out = info_of img
    /\ forall x y c, inside img x y -> 0 <= c ->
         cells_of out x y c = fold_left (op_effect (info_of img)) ops (cells_of img) x y c.
Proof.
  intros Hwf HC Ht Hl. destruct (run_ops p ops img Hwf HC Ht Hl) as [out [E [Hw [Hi Hc]]]].
  exists out. conj; auto. rewrite <- Hi. apply (wf_data _ Hw).
Qed.

Theorem C10_history_panics p {T} (ops1 ops2 : list (op T)) o (img : image T) :
  wf img -> 0 < channels (info_of img) -> Forall op_typed ops1 -> Forall (op_legal (info_of img)) ops1 ->
  op_typed o -> ~ op_legal (info_of img) o ->
  mfold (run_op p) (ops1 ++ o :: ops2) img = Panic.
Proof. apply run_ops_illegal. Qed.

Example C10_example :
  let ops := [SetPixel 2 1 [0;0;0;0]; EditChannel (fun c => c + 1) 3; SetPixelIndexed 4 [9;9;9;9];
              ApplyChannels (fun c => c * 10); SetPixel 0 0 [1;1;1;1]] in
  Forall op_typed ops /\ Forall (op_legal (info_of ex_rgba)) ops
  /\ exists out, mfold (run_op Debug) ops ex_rgba = Ret out /\ pixel_at out 2 1 = [0;0;0;10].
Proof.
  cbn. conj.
  - repeat first [apply Forall_nil | apply Forall_cons]; cbn; unfold u32_max; lia.
  - repeat first [apply Forall_nil | apply Forall_cons]; cbn; unfold u32_max; lia.
  - eexists. split; reflexivity.
Qed.

(** ** C11: refuted, with the exact behaviour *)
Theorem C11_get_subimage_exact p {T} (img : image T) x y w h i j :
  wf img -> inside img x y -> 0 <= i < w -> 0 <= j < h ->
  x + w <= width (info_of img) -> y + h <= height (info_of img) ->
  exists s, get_subimage p img x y w h = Ret s
    /\ sub_info s = Info w h (channels (info_of img)) (alpha (info_of img))
    /\ sub_get_pixel p s i j
       = Ret (pixel_at img (x + (j * w + i) / h) (y + (j * w + i) mod h)).
Proof.
  intros Hwf Hin Hi Hj Hw Hh. pose proof Hin as [Hx Hy].
  eexists. split; [apply get_subimage_ok; auto; lia|]. split; [reflexivity|].
  pose proof Hwf as [? ? ? ? ? ?].
  destruct (pos_bound w h 1 i j) as [? [? [? ?]]]; try lia.
  assert (w * h <= u32_max) by nia.
  rewrite (sub_get_pixel_ok p _ _ i j []); cbn [width height]; auto.
  - f_equal. rewrite (nth_indep _ [] (pixel_at img (x + 0 / h) (y + 0 mod h))).
    + rewrite (map_nth (fun k => pixel_at img (x + k / h) (y + k mod h)) _ 0). rewrite nth_zrange by lia. reflexivity.
    + rewrite map_length, zrange_length. lia.
  - rewrite len_map, len_zrange; lia.
Qed.

(** it is the requested rectangle when it is one row or one column *)
Corollary C11_row_or_column p {T} (img : image T) x y w h i j :
  wf img -> inside img x y -> 0 <= i < w -> 0 <= j < h ->
  x + w <= width (info_of img) -> y + h <= height (info_of img) -> w = 1 \/ h = 1 ->
  exists s, get_subimage p img x y w h = Ret s
    /\ sub_get_pixel p s i j = get_pixel p img (x + i) (y + j).
Proof.
  intros Hwf Hin Hi Hj Hw Hh H1.
  destruct (C11_get_subimage_exact p img x y w h i j Hwf Hin Hi Hj Hw Hh) as [s [E [_ Es]]].
  exists s. split; [exact E|]. rewrite Es. destruct Hin.
  rewrite get_pixel_ok by (auto; split; lia).
  destruct H1 as [-> | ->].
  - replace i with 0 by lia. replace (j * 1 + 0) with j by lia.
    rewrite Z.div_small, Z.mod_small by lia. reflexivity.
  - replace j with 0 by lia. rewrite Z.div_1_r, Z.mod_1_r. do 2 f_equal; lia.
Qed.

Theorem C11_get_subimage_refuted : exists (img : image Z) x y w h i j s px1 px2,
  wf img /\ inside img x y /\ x + w <= width (info_of img) /\ y + h <= height (info_of img)
  /\ 0 <= i < w /\ 0 <= j < h
  /\ get_subimage Debug img x y w h = Ret s /\ sub_get_pixel Debug s i j = Ret px1
  /\ get_pixel Debug img (x + i) (y + j) = Ret px2 /\ px1 <> px2.
Proof.
  exists ex_rgba, 0, 0, 2, 2, 1, 0. do 3 eexists.
  split; [apply ex_rgba_wf|]. split; [unfold inside; cbn; lia|]. do 2 (split; [cbn; lia|]).
  do 2 (split; [lia|]). do 3 (split; [reflexivity|]). discriminate.
Qed.

Theorem C11_out_of_image_panics p {T} (img : image T) x y w h :
  wf img -> 0 <= x -> 0 <= y -> 0 < w -> 0 < h -> x + w <= u32_max -> y + h <= u32_max ->
  ~ (x + w <= width (info_of img) /\ y + h <= height (info_of img)) ->
  get_subimage p img x y w h = Panic.
Proof. apply get_subimage_panics. Qed.

Example C11_example : wf ex_rgba /\ inside ex_rgba 1 0 /\ 1 + 2 <= width (info_of ex_rgba)
  /\ exists s, get_subimage Debug ex_rgba 1 0 2 2 = Ret s.
Proof. conj; try apply ex_rgba_wf; unfold inside; cbn; try lia. eexists. reflexivity. Qed.

(** ** C12 *)
(** exact contents: entry i is at offset i - size/2, a coordinate outside being replaced by the
    CENTRE coordinate *)
Definition pad_centre (bound centre off : Z) : Z :=
  if (0 <=? centre + off) && (centre + off <? bound) then centre + off else centre.

Lemma nb_spec_pad c sz i bound : nb_spec c sz i bound = pad_centre bound c (i - sz / 2).
Proof.
  unfold nb_spec, pad_centre. cbv zeta. replace (c + (i - sz / 2)) with (c - sz / 2 + i) by lia.
  destruct ((c - sz / 2 + i <? 0) || (bound <=? c - sz / 2 + i)) eqn:E;
  destruct ((0 <=? c - sz / 2 + i) && (c - sz / 2 + i <? bound)) eqn:E'; lia.
Qed.

Theorem C12_neighborhood_1d_exact p {T} (img : image T) x y sz (vert : bool) :
  wf img -> width (info_of img) <= 2 ^ 30 -> height (info_of img) <= 2 ^ 30 ->
  inside img x y -> 0 <= sz <= 2 ^ 30 ->
  exists s, get_neighborhood_1d p img x y sz vert = Ret s
    /\ sub_data s = map (fun i => if vert
         then pixel_at img x (pad_centre (height (info_of img)) y (i - sz / 2))
         else pixel_at img (pad_centre (width (info_of img)) x (i - sz / 2)) y) (zrange 0 sz).
Proof.
  intros Hwf Hw Hh Hin Hs. eexists. split; [apply nb_1d_ok; assumption|]. cbn [sub_data].
  apply map_ext. intros i. rewrite !nb_spec_pad. reflexivity.
Qed.

Theorem C12_neighborhood_2d_exact p {T} (img : image T) x y sz :
  wf img -> width (info_of img) <= 2 ^ 30 -> height (info_of img) <= 2 ^ 30 ->
  inside img x y -> 0 <= sz <= 2 ^ 30 ->
  exists s, get_neighborhood_2d p img x y sz = Ret s
    /\ len (sub_data s) = sz * sz
    /\ sub_data s = map (fun k =>
         pixel_at img (pad_centre (width (info_of img)) x (k mod sz - sz / 2))
                      (pad_centre (height (info_of img)) y (k / sz - sz / 2))) (zrange 0 (sz * sz)).
Proof.
  intros Hwf Hw Hh Hin Hs. eexists. split; [apply nb_2d_ok; assumption|]. cbn [sub_data]. split.
  - rewrite len_map, len_zrange by nia. lia.
  - apply map_ext. intros i. rewrite !nb_spec_pad. reflexivity.
Qed.

(** the documented clamp padding holds for size <= 3 ... *)
Theorem C12_clamp_small p {T} (img : image T) x y sz (vert : bool) :
  wf img -> width (info_of img) <= 2 ^ 30 -> height (info_of img) <= 2 ^ 30 ->
  inside img x y -> 0 <= sz <= 3 ->
  (exists s, get_neighborhood_1d p img x y sz vert = Ret s
    /\ sub_data s = map (fun i => if vert
         then pixel_at img x (clamp_coord (height (info_of img)) (y + i - sz / 2))
         else pixel_at img (clamp_coord (width (info_of img)) (x + i - sz / 2)) y) (zrange 0 sz))
  /\ exists s, get_neighborhood_2d p img x y sz = Ret s
    /\ sub_data s = map (fun k =>
         pixel_at img (clamp_coord (width (info_of img)) (x + k mod sz - sz / 2))
                      (clamp_coord (height (info_of img)) (y + k / sz - sz / 2))) (zrange 0 (sz * sz)).
Proof.
  intros Hwf Hw Hh Hin Hs. pose proof Hin as [Hx Hy]. split.
  - eexists. split; [apply nb_1d_ok; auto; lia|]. cbn [sub_data].
    apply map_ext_in. intros i Hi. apply in_zrange in Hi.
    rewrite !nb_spec_small by lia. destruct vert; f_equal; f_equal; lia.
  - eexists. split; [apply nb_2d_ok; auto; lia|]. cbn [sub_data].
    apply map_ext_in. intros k Hk. apply in_zrange in Hk.
    assert (0 < sz) by nia.
    pose proof (Z.mod_pos_bound k sz ltac:(lia)).
    assert (0 <= k / sz < sz) by (split; [apply Z.div_pos; lia|apply Z.div_lt_upper_bound; lia]).
    rewrite !nb_spec_small by lia. f_equal; f_equal; lia.
Qed.

(** ... and fails for every larger size: the first neighbour of the middle pixel of a row
    of three is that pixel itself, where clamping gives the left one *)
Theorem C12_clamp_padding_refuted p : forall sz, 4 <= sz <= 2 ^ 30 ->
  exists (img : image Z) x y s, wf img /\ inside img x y
    /\ get_neighborhood_1d p img x y sz false = Ret s
    /\ nth 0 (sub_data s) [] <> pixel_at img (clamp_coord (width (info_of img)) (x + 0 - sz / 2)) y.
Proof.
  intros sz Hs. exists (Image (Info 3 1 1 false) [10;20;30]), 1, 0.
  assert (Hwf : wf (Image (Info 3 1 1 false) [10;20;30])) by (apply wfb_wf; reflexivity).
  assert (Hin : inside (Image (Info 3 1 1 false) [10;20;30]) 1 0) by (unfold inside; cbn; lia).
  eexists. conj; auto.
  - apply nb_1d_ok; auto; cbn; lia.
  - cbn [sub_data]. rewrite zrange_cons by lia. cbn [map nth info_of width].
    assert (2 <= sz / 2) by (apply Z.div_le_lower_bound; lia).
    unfold nb_spec. cbv zeta. replace (1 - sz / 2 + 0 <? 0) with true by lia. cbn [orb].
    replace (clamp_coord 3 (1 + 0 - sz / 2)) with 0 by (unfold clamp_coord; lia). discriminate.
Qed.

Example C12_example : wf ex_rgba /\ inside ex_rgba 2 1 /\ width (info_of ex_rgba) <= 2 ^ 30
  /\ exists s, get_neighborhood_1d Debug ex_rgba 2 1 3 false = Ret s
     /\ sub_data s = [[17;18;19;20]; [21;22;23;24]; [21;22;23;24]].
Proof. conj; try apply ex_rgba_wf; unfold inside; cbn; try lia. eexists. split; reflexivity. Qed.
