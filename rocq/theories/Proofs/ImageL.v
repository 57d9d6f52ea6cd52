(** Lemmas about images. *)
From Verif.Model Require Export Base Image.
From Verif.Spec Require Export ImageS.
From Verif.Proofs Require Export BaseL.
Open Scope Z_scope.

Lemma wfb_wf {T} (img : image T) : wfb img = true -> wf img.
Proof.
  unfold wfb. intros H. repeat (apply andb_prop in H as [H ?]).
  constructor; lia.
Qed.

Lemma info_eqb_eq a b : info_eqb a b = true <-> a = b.
Proof.
  destruct a, b; unfold info_eqb; cbn. split.
  - intros H. repeat (apply andb_prop in H as [H ?]). apply Bool.eqb_prop in H0.
    f_equal; lia || auto.
  - intros H. injection H as -> -> -> ->. rewrite !Z.eqb_refl, Bool.eqb_reflx. reflexivity.
Qed.

Lemma image_eq {T} (a b : image T) : info_of a = info_of b -> data a = data b -> a = b.
Proof. destruct a, b; cbn; intros -> ->; reflexivity. Qed.

(** position arithmetic *)
Lemma pos_bound w h c x y : 0 <= x < w -> 0 <= y < h -> 0 <= c ->
  0 <= y * w + x < w * h /\ (y * w + x) * c + c <= w * h * c /\ 0 <= (y * w + x) * c /\ 0 <= y * w.
Proof.
  intros Hx Hy Hc. assert (0 <= y * w) by nia.
  assert (y * w + x + 1 <= w * h) by nia.
  repeat split; try lia; nia.
Qed.

Lemma pos_inj w x y x' y' : 0 <= x < w -> 0 <= x' < w -> y * w + x = y' * w + x' -> x = x' /\ y = y'.
Proof. intros Hx Hx' H. assert (y = y') by nia. subst. lia. Qed.

Lemma pos_div w x y : 0 <= x < w -> (y * w + x) mod w = x /\ (y * w + x) / w = y.
Proof.
  intros H. split.
  - rewrite Z.add_comm, Z.mod_add by lia. apply Z.mod_small. lia.
  - rewrite Z.add_comm, Z.div_add by lia. rewrite Z.div_small by lia. lia.
Qed.

Lemma pos_surj w h k : 0 < w -> 0 <= k < w * h -> 0 <= k mod w < w /\ 0 <= k / w < h /\ k = k / w * w + k mod w.
Proof.
  intros Hw Hk. pose proof (Z.mod_pos_bound k w Hw). pose proof (Z.div_mod k w).
  assert (0 <= k / w) by (apply Z.div_pos; lia).
  assert (k / w < h) by (apply Z.div_lt_upper_bound; lia). lia.
Qed.

Section WF.
  Context {T : Type} (img : image T) (Hwf : wf img).
  Notation W := (width (info_of img)).
  Notation Ht := (height (info_of img)).
  Notation C := (channels (info_of img)).

  Lemma length_data : length (data img) = Z.to_nat (W * Ht * C).
  Proof. pose proof (wf_data _ Hwf). unfold len in *. lia. Qed.

  (** ** pixel by linear index *)
  Definition pixel_i (i : Z) : list T :=
    firstn (Z.to_nat C) (skipn (Z.to_nat (i * C)) (data img)).

  Lemma pixel_at_i x y : pixel_at img x y = pixel_i (y * W + x).
  Proof. reflexivity. Qed.

  Lemma pixel_i_length i : 0 <= i < W * Ht -> length (pixel_i i) = Z.to_nat C.
  Proof.
    intros Hi. unfold pixel_i. rewrite firstn_length, skipn_length, length_data.
    destruct Hwf. assert (i * C + C <= W * Ht * C) by nia. assert (0 <= i * C) by nia. lia.
  Qed.

  Lemma pixel_at_length x y : inside img x y -> length (pixel_at img x y) = Z.to_nat C.
  Proof.
    intros [Hx Hy]. rewrite pixel_at_i. apply pixel_i_length.
    destruct Hwf. destruct (pos_bound W Ht C x y); lia.
  Qed.
  Lemma pixel_at_len x y : inside img x y -> len (pixel_at img x y) = C.
  Proof. intros Hi. unfold len. rewrite pixel_at_length by exact Hi. destruct Hwf. lia. Qed.
  Lemma pixel_i_len i : 0 <= i < W * Ht -> len (pixel_i i) = C.
  Proof. intros Hi. unfold len. rewrite pixel_i_length by exact Hi. destruct Hwf. lia. Qed.

  Lemma data_concat : data img = concat (map pixel_i (zrange 0 (W * Ht))).
  Proof.
    destruct Hwf.
    unfold zrange. rewrite map_map.
    rewrite <- (concat_slices (data img) (Z.to_nat (W * Ht)) (Z.to_nat C)) at 1.
    2: { rewrite length_data. nia. }
    rewrite Z.sub_0_r. f_equal. apply map_ext. intros k. unfold pixel_i. do 2 f_equal. nia.
  Qed.

  Lemma img_index_ok p i : 0 <= i < W * Ht -> img_index p img i = Ret (pixel_i i).
  Proof.
    intros Hi. destruct Hwf. unfold img_index, u32_max in *.
    assert (i * C + C <= W * Ht * C) by nia. assert (0 <= i * C) by nia.
    ari. rewrite vslice_ok by lia. unfold pixel_i. do 3 f_equal. lia.
  Qed.

  Lemma get_pixel_ok p x y : inside img x y -> get_pixel p img x y = Ret (pixel_at img x y).
  Proof.
    intros [Hx Hy]. pose proof Hwf as [? ? ? ? ? ?]. unfold u32_max in *.
    destruct (pos_bound W Ht C x y) as [? [? [? ?]]]; try lia.
    unfold get_pixel, check_xy.
    replace (W <=? x) with false by lia. replace (Ht <=? y) with false by lia. cbn [bind].
    ari. rewrite img_index_ok by lia. reflexivity.
  Qed.

  Lemma get_pixel_panic p x y : 0 <= x -> 0 <= y -> ~ inside img x y -> get_pixel p img x y = Panic.
  Proof.
    intros Hx Hy Hn. unfold get_pixel, check_xy, inside in *.
    destruct (W <=? x) eqn:E1; [reflexivity|]. destruct (Ht <=? y) eqn:E2; [reflexivity|]. lia.
  Qed.

  Lemma get_pixel_unchecked_ok p x y :
    inside img x y -> get_pixel_unchecked p img x y = Ret (pixel_at img x y).
  Proof.
    intros Hi. rewrite <- (get_pixel_ok p) by exact Hi. destruct Hi as [Hx Hy].
    unfold get_pixel, get_pixel_unchecked, check_xy.
    replace (W <=? x) with false by lia. replace (Ht <=? y) with false by lia. reflexivity.
  Qed.

  Lemma index_ok p x y : inside img x y -> index p img x y = Ret ((y * W + x) * C).
  Proof.
    intros [Hx Hy]. pose proof Hwf as [? ? ? ? ? ?]. unfold u32_max in *.
    destruct (pos_bound W Ht C x y) as [? [? [? ?]]]; try lia.
    unfold index. ari. reflexivity.
  Qed.

  Lemma size_ok p : size p (info_of img) = Ret (W * Ht).
  Proof. pose proof Hwf as [? ? ? ? ? ?]. unfold u32_max in *. unfold size. ari. reflexivity. Qed.
  Lemma full_size_ok p : full_size p (info_of img) = Ret (W * Ht * C).
  Proof. pose proof Hwf as [? ? ? ? ? ?]. unfold u32_max in *. unfold full_size. ari. reflexivity. Qed.
End WF.

(** ** writing a pixel *)
Definition put {T} (img : image T) (i : Z) (px : list T) : image T :=
  let c := channels (info_of img) in
  Image (info_of img)
    (firstn (Z.to_nat (i * c)) (data img) ++ px ++ skipn (Z.to_nat (i * c + c)) (data img)).

Section Put.
  Context {T : Type} (img : image T) (Hwf : wf img).
  Notation W := (width (info_of img)).
  Notation Ht := (height (info_of img)).
  Notation C := (channels (info_of img)).

  Lemma put_info i px : info_of (put img i px) = info_of img.
  Proof. reflexivity. Qed.

  Lemma put_wf i px : 0 <= i < W * Ht -> len px = C -> wf (put img i px).
  Proof.
    intros Hi Hpx. pose proof Hwf as [? ? ? ? ? Hd]. constructor; try assumption.
    cbn. rewrite !len_app, Hpx. unfold len in *. rewrite firstn_length, skipn_length.
    assert (i * C + C <= W * Ht * C) by nia. assert (0 <= i * C) by nia. lia.
  Qed.

  Lemma put_same i px : 0 <= i < W * Ht -> len px = C -> pixel_i (put img i px) i = px.
  Proof.
    intros Hi Hpx. pose proof Hwf as [? ? ? ? ? Hd]. unfold pixel_i, put. cbn.
    assert (i * C + C <= W * Ht * C) by nia. assert (0 <= i * C) by nia.
    unfold len in *.
    rewrite skipn_app, firstn_length.
    replace (Nat.min (Z.to_nat (i * C)) (length (data img))) with (Z.to_nat (i * C)) by lia.
    rewrite Nat.sub_diag. cbn [skipn].
    rewrite skipn_all2 by (rewrite firstn_length; lia). cbn [app].
    rewrite firstn_app. replace (Z.to_nat C - length px)%nat with 0%nat by lia.
    rewrite firstn_O, app_nil_r. apply firstn_all2. lia.
  Qed.

  Lemma put_other i j px : 0 <= i < W * Ht -> 0 <= j < W * Ht -> i <> j -> len px = C ->
    pixel_i (put img i px) j = pixel_i img j.
  Proof.
    intros Hi Hj Hij Hpx. pose proof Hwf as [? ? ? ? ? Hd].
    destruct (Z.eq_dec C 0) as [HC|HC].
    { unfold pixel_i, put; cbn. rewrite HC. reflexivity. }
    assert (i * C + C <= W * Ht * C) by nia. assert (0 <= i * C) by nia.
    assert (j * C + C <= W * Ht * C) by nia. assert (0 <= j * C) by nia.
    unfold len in *.
    destruct (length px) as [|n] eqn:En; [lia|].
    destruct px as [|d0 px']; [discriminate|]. set (px := d0 :: px') in *.
    unfold pixel_i, put; cbn [info_of data].
    apply (list_ext _ _ d0).
    - rewrite !firstn_length, !skipn_length, !app_length, firstn_length, skipn_length. lia.
    - intros k Hk.
      assert (Hk' : (k < Z.to_nat C)%nat) by (rewrite firstn_length in Hk; lia).
      rewrite !nth_firstn by assumption. rewrite !nth_skipn.
      destruct (Z_lt_le_dec j i) as [Hlt|Hle].
      + assert (j * C + C <= i * C) by nia.
        rewrite app_nth1 by (rewrite firstn_length; lia).
        apply nth_firstn. lia.
      + assert (i * C + C <= j * C) by nia.
        rewrite app_nth2 by (rewrite firstn_length; lia).
        rewrite firstn_length.
        rewrite app_nth2 by lia. rewrite nth_skipn. f_equal. lia.
  Qed.

  Lemma set_pixel_ok p x y px : inside img x y -> len px = C ->
    set_pixel p img x y px = Ret (put img (y * W + x) px).
  Proof.
    intros Hin Hpx. pose proof Hin as [Hx Hy]. pose proof Hwf as [? ? ? ? ? Hd]. unfold u32_max in *.
    destruct (pos_bound W Ht C x y) as [? [? [? ?]]]; try lia.
    unfold set_pixel, check_channels, check_xy.
    rewrite cast_id by ity_lia. replace (C =? len px) with true by lia.
    replace (W <=? x) with false by lia. replace (Ht <=? y) with false by lia. cbn [bind].
    rewrite index_ok by assumption. ari. rewrite vcopy_ok by lia. cbn [bind].
    unfold put. do 6 f_equal. lia.
  Qed.

  Lemma set_pixel_panic p x y px : 0 <= x -> 0 <= y ->
    ~ (inside img x y /\ len px = C) -> set_pixel p img x y px = Panic.
  Proof.
    intros Hx Hy Hn. unfold set_pixel, check_channels, check_xy.
    destruct (C =? cast U8 (len px)) eqn:E; [cbn [bind]|reflexivity].
    destruct (W <=? x) eqn:E1; [reflexivity|]. destruct (Ht <=? y) eqn:E2; [reflexivity|]. cbn [bind].
    assert (inside img x y) as Hin by (unfold inside; lia).
    assert (len px <> C) by tauto.
    pose proof Hwf as [? ? ? ? ? Hd]. unfold u32_max in *.
    destruct (pos_bound W Ht C x y) as [? [? [? ?]]]; try (unfold inside in Hin; lia).
    rewrite index_ok by assumption. ari. rewrite vcopy_panic by lia. reflexivity.
  Qed.

  Lemma set_pixel_indexed_ok p i px : 0 <= i < W * Ht -> len px = C ->
    set_pixel_indexed p img i px = Ret (put img i px).
  Proof.
    intros Hi Hpx. pose proof Hwf as [? ? ? ? ? Hd]. unfold u32_max in *.
    assert (i * C + C <= W * Ht * C) by nia. assert (0 <= i * C) by nia.
    unfold set_pixel_indexed, check_channels.
    rewrite cast_id by ity_lia. replace (C =? len px) with true by lia. cbn [bind].
    ari. rewrite vcopy_ok by lia. cbn [bind]. unfold put. do 6 f_equal. lia.
  Qed.
End Put.

Lemma pixel_at_put {T} (img : image T) x y x' y' px :
  wf img -> inside img x y -> inside img x' y' -> len px = channels (info_of img) ->
  pixel_at (put img (y * width (info_of img) + x) px) x' y'
  = if (x' =? x) && (y' =? y) then px else pixel_at img x' y'.
Proof.
  intros Hwf [Hx Hy] [Hx' Hy'] Hpx.
  destruct (wf_c _ Hwf). 
  destruct (pos_bound (width (info_of img)) (height (info_of img)) (channels (info_of img)) x y); try lia.
  destruct (pos_bound (width (info_of img)) (height (info_of img)) (channels (info_of img)) x' y'); try lia.
  change (pixel_at (put img (y * width (info_of img) + x) px) x' y')
    with (pixel_i (put img (y * width (info_of img) + x) px) (y' * width (info_of img) + x')).
  destruct ((x' =? x) && (y' =? y)) eqn:E.
  - replace x' with x by lia. replace y' with y by lia. apply put_same; auto.
  - rewrite put_other; auto.
    intros Heq. apply pos_inj in Heq; lia.
Qed.

(** ** images with the same pixels are equal *)
Lemma pixel_i_at {T} (img : image T) i :
  0 < width (info_of img) ->
  pixel_i img i = pixel_at img (i mod width (info_of img)) (i / width (info_of img)).
Proof.
  intros Hw. rewrite pixel_at_i. f_equal.
  pose proof (Z.div_mod i (width (info_of img))). lia.
Qed.

Lemma image_ext {T} (a b : image T) :
  wf a -> wf b -> info_of a = info_of b ->
  (forall x y, inside a x y -> pixel_at a x y = pixel_at b x y) -> a = b.
Proof.
  intros Ha Hb Hi H. apply image_eq; [exact Hi|].
  rewrite (data_concat a Ha), (data_concat b Hb). rewrite <- Hi. f_equal.
  apply map_ext_in. intros i Hin. apply in_zrange in Hin.
  destruct (wf_w _ Ha), (wf_h _ Ha).
  assert (0 < width (info_of a)) by nia.
  rewrite !pixel_i_at by (rewrite <- ?Hi; lia). rewrite <- Hi.
  destruct (pos_surj (width (info_of a)) (height (info_of a)) i) as [? [? ?]]; try lia.
  apply H. split; lia.
Qed.

(** ** building an image from a pixel function *)
Definition of_fun {T} (i : info) (g : Z -> Z -> list T) : image T :=
  Image i (concat (map (fun k => g (k mod width i) (k / width i)) (zrange 0 (width i * height i)))).


Lemma wf_info_ok {T} (img : image T) : wf img -> info_ok (info_of img).
Proof. intros []. unfold info_ok. auto. Qed.

Lemma concat_wf {T} (i : info) (l : list (list T)) :
  info_ok i -> len l = width i * height i -> (forall px, In px l -> len px = channels i) ->
  wf (Image i (concat l)).
Proof.
  intros (? & ? & ? & ? & ?) Hl Hpx. constructor; cbn; auto.
  unfold len in *. rewrite (length_concat_const _ (Z.to_nat (channels i))).
  - nia.
  - intros px Hin. specialize (Hpx px Hin). lia.
Qed.

Lemma pixel_at_concat {T} (i : info) (l : list (list T)) x y d :
  0 <= channels i -> len l = width i * height i -> (forall px, In px l -> len px = channels i) ->
  0 <= x < width i -> 0 <= y < height i ->
  pixel_at (Image i (concat l)) x y = nth (Z.to_nat (y * width i + x)) l d.
Proof.
  intros Hc Hl Hpx Hx Hy. unfold pixel_at. cbn [info_of data].
  destruct (pos_bound (width i) (height i) (channels i) x y) as [? [? [? ?]]]; try lia.
  replace (Z.to_nat ((y * width i + x) * channels i))
    with (Z.to_nat (y * width i + x) * Z.to_nat (channels i))%nat by nia.
  rewrite slice_concat_const.
  - apply nth_indep. unfold len in *. lia.
  - intros px Hin. specialize (Hpx px Hin). unfold len in *. lia.
  - unfold len in *. lia.
Qed.

Lemma of_fun_wf {T} (i : info) (g : Z -> Z -> list T) :
  info_ok i ->
  (forall x y, 0 <= x < width i -> 0 <= y < height i -> len (g x y) = channels i) ->
  wf (of_fun i g).
Proof.
  intros Hi Hg. apply concat_wf; auto.
  - rewrite len_map, len_zrange; destruct Hi as ((?&?)&(?&?)&?); nia.
  - intros px Hin. apply in_map_iff in Hin as [k [<- Hk]]. apply in_zrange in Hk.
    destruct Hi as ((?&?)&(?&?)&?). assert (0 < width i) by nia.
    destruct (pos_surj (width i) (height i) k) as [? [? ?]]; try lia. apply Hg; lia.
Qed.

Lemma pixel_at_of_fun {T} (i : info) (g : Z -> Z -> list T) x y :
  info_ok i ->
  (forall x y, 0 <= x < width i -> 0 <= y < height i -> len (g x y) = channels i) ->
  0 <= x < width i -> 0 <= y < height i ->
  pixel_at (of_fun i g) x y = g x y.
Proof.
  intros Hi Hg Hx Hy. unfold of_fun. pose proof Hi as ((?&?)&(?&?)&?&?&?).
  destruct (pos_bound (width i) (height i) (channels i) x y) as [? [? [? ?]]]; try lia.
  rewrite (pixel_at_concat i _ x y []); auto; try lia.
  - rewrite nth_map_zrange by lia. rewrite Z.add_0_l.
    destruct (pos_div (width i) x y) as [-> ->]; auto.
  - rewrite len_map, len_zrange; nia.
  - intros px Hin. apply in_map_iff in Hin as [k [<- Hk]]. apply in_zrange in Hk.
    assert (0 < width i) by nia.
    destruct (pos_surj (width i) (height i) k) as [? [? ?]]; try lia. apply Hg; lia.
Qed.

(** the image equal to its own pixel function *)
Lemma of_fun_self {T} (img : image T) : wf img -> of_fun (info_of img) (pixel_at img) = img.
Proof.
  intros Hwf. pose proof (wf_info_ok _ Hwf) as Hi.
  assert (Hg: forall x y, 0 <= x < width (info_of img) -> 0 <= y < height (info_of img) ->
    len (pixel_at img x y) = channels (info_of img)) by (intros; apply pixel_at_len; [auto|split; auto]).
  apply image_ext; auto.
  - apply of_fun_wf; auto.
  - intros x y [Hx Hy]. apply pixel_at_of_fun; auto.
Qed.

(** ** blank images *)
Lemma blank_ok p {T} (N : number T) (i : info) : info_ok i ->
  blank p N i = Ret (Image i (repeat (n_zero N) (Z.to_nat (width i * height i * channels i)))).
Proof.
  intros (?&?&?&?&?). unfold blank, full_size, u32_max in *. ari. reflexivity.
Qed.

Lemma blank_wf {T} (N : number T) (i : info) : info_ok i ->
  wf (Image i (repeat (n_zero N) (Z.to_nat (width i * height i * channels i)))).
Proof.
  intros (?&?&?&?&?). constructor; cbn; auto. rewrite len_repeat. nia.
Qed.

Lemma firstn_repeat {A} (x : A) n m : firstn n (repeat x m) = repeat x (Nat.min n m).
Proof. revert m. induction n as [|n IH]; intros [|m]; cbn; auto. f_equal. apply IH. Qed.
Lemma skipn_repeat {A} (x : A) n m : skipn n (repeat x m) = repeat x (m - n).
Proof. revert m. induction n as [|n IH]; intros [|m]; cbn; auto. Qed.

Lemma pixel_at_blank {T} (z : T) (i : info) x y :
  info_ok i -> 0 <= x < width i -> 0 <= y < height i ->
  pixel_at (Image i (repeat z (Z.to_nat (width i * height i * channels i)))) x y
  = repeat z (Z.to_nat (channels i)).
Proof.
  intros (?&?&?&?&?) Hx Hy. unfold pixel_at. cbn.
  destruct (pos_bound (width i) (height i) (channels i) x y) as [? [? [? ?]]]; try lia.
  rewrite skipn_repeat, firstn_repeat. f_equal. lia.
Qed.

(** ** loops writing pixels *)

(** row-major list of the coordinates of a rectangle *)
Definition coords (x0 x1 y0 y1 : Z) : list (Z * Z) :=
  flat_map (fun y => map (fun x => (x, y)) (zrange x0 x1)) (zrange y0 y1).

Lemma in_coords x0 x1 y0 y1 x y : In (x, y) (coords x0 x1 y0 y1) <-> x0 <= x < x1 /\ y0 <= y < y1.
Proof.
  unfold coords. rewrite in_flat_map. split.
  - intros [y' [Hy H]]. apply in_map_iff in H as [x' [E Hx]]. injection E as -> ->.
    apply in_zrange in Hx, Hy. lia.
  - intros [Hx Hy]. exists y. split; [apply in_zrange; lia|].
    apply in_map_iff. exists x. split; [reflexivity|]. apply in_zrange. lia.
Qed.

Lemma mfold_nest {S} (f : S -> Z -> Z -> outcome S) x0 x1 y0 y1 s :
  mfold (fun s y => mfold (fun s x => f s x y) (zrange x0 x1) s) (zrange y0 y1) s
  = mfold (fun s xy => f s (fst xy) (snd xy)) (coords x0 x1 y0 y1) s.
Proof.
  unfold coords. rewrite mfold_flat_map. apply mfold_ext. intros s' y _. rewrite mfold_map. reflexivity.
Qed.

Section WriteLoop.
  Context (p : profile) {T : Type}.

  (** the effect of visiting the coordinates of [l] in order, where a visit at (x,y)
      writes [px] when [F x y = Some px] and does nothing when [F x y = None] *)
  Lemma write_loop (F : Z -> Z -> option (list T)) body (l : list (Z * Z)) (img : image T) :
    wf img ->
    (forall im x y, In (x, y) l -> info_of im = info_of img -> wf im ->
       body im (x, y) = match F x y with None => Ret im | Some px => set_pixel p im x y px end) ->
    (forall x y, In (x, y) l -> F x y <> None -> inside img x y) ->
    (forall x y px, In (x, y) l -> F x y = Some px -> len px = channels (info_of img)) ->
    exists out, mfold body l img = Ret out /\ wf out /\ info_of out = info_of img
      /\ forall x y, inside img x y ->
         pixel_at out x y
         = match F x y with
           | Some px => if existsb (fun c => (fst c =? x) && (snd c =? y)) l then px else pixel_at img x y
           | None => pixel_at img x y
           end.
  Proof.
    revert img. induction l as [|[x0 y0] l IH]; intros img Hwf Hbody Hin Hlen.
    - exists img. cbn. conj; auto. intros x y _. destruct (F x y); reflexivity.
    - cbn [mfold]. rewrite (Hbody img x0 y0 (or_introl eq_refl) eq_refl Hwf).
      destruct (F x0 y0) as [px0|] eqn:EF.
      + assert (Hin0 : inside img x0 y0) by (apply Hin; [left; reflexivity|congruence]).
        assert (Hlen0 : len px0 = channels (info_of img)) by (eapply Hlen; [left; reflexivity|exact EF]).
        rewrite set_pixel_ok by assumption. cbn [bind].
        set (img1 := put img (y0 * width (info_of img) + x0) px0).
        destruct (IH img1) as [out [E [Hwf' [Hinfo Hpx]]]].
        * destruct Hin0 as [? ?]. apply put_wf; auto. destruct (wf_c _ Hwf).
          destruct (pos_bound (width (info_of img)) (height (info_of img)) (channels (info_of img)) x0 y0); lia.
        * intros im x y Hl Hi. apply Hbody; [right; exact Hl|exact Hi].
        * intros x y Hl HF. apply (Hin x y); [right; exact Hl|exact HF].
        * intros x y px Hl HF. apply (Hlen x y px); [right; exact Hl|exact HF].
        * exists out. conj; auto. intros x y Hxy.
          rewrite (Hpx x y Hxy). cbn [existsb fst snd].
          unfold img1. rewrite pixel_at_put by assumption.
          destruct ((x0 =? x) && (y0 =? y)) eqn:E1.
          -- replace x with x0 by lia. replace y with y0 by lia. rewrite EF, !Z.eqb_refl. cbn [andb orb].
             destruct (existsb _ l); reflexivity.
          -- replace ((x =? x0) && (y =? y0)) with false by lia. cbn [orb].
             reflexivity.
      + cbn [bind].
        destruct (IH img) as [out [E [Hwf' [Hinfo Hpx]]]].
        * exact Hwf.
        * intros im x y Hl. apply Hbody. right. exact Hl.
        * intros x y Hl. apply Hin. right. exact Hl.
        * intros x y px Hl. apply Hlen. right. exact Hl.
        * exists out. conj; auto. intros x y Hxy.
          rewrite (Hpx x y Hxy). destruct (F x y) eqn:EF2; [|reflexivity].
          cbn [existsb fst snd]. replace ((x0 =? x) && (y0 =? y)) with false; [reflexivity|].
          destruct ((x0 =? x) && (y0 =? y)) eqn:E1; [|reflexivity].
          replace x with x0 in EF2 by lia. replace y with y0 in EF2 by lia. congruence.
  Qed.

  Lemma existsb_coords x0 x1 y0 y1 x y :
    existsb (fun c => (fst c =? x) && (snd c =? y)) (coords x0 x1 y0 y1)
    = (x0 <=? x) && (x <? x1) && (y0 <=? y) && (y <? y1).
  Proof.
    destruct (existsb _ _) eqn:E.
    - apply existsb_exists in E as [[a b] [Hin Hab]]. cbn in Hab. apply in_coords in Hin. lia.
    - destruct ((x0 <=? x) && (x <? x1) && (y0 <=? y) && (y <? y1)) eqn:E2; [|reflexivity].
      assert (In (x, y) (coords x0 x1 y0 y1)) as Hin by (apply in_coords; lia).
      rewrite <- E. apply existsb_exists. exists (x, y). split; [exact Hin|]. cbn. lia.
  Qed.

  (** nested loops over a rectangle *)
  Lemma write_rect (F : Z -> Z -> option (list T)) body x0 x1 y0 y1 (img : image T) :
    wf img ->
    (forall im x y, x0 <= x < x1 -> y0 <= y < y1 -> info_of im = info_of img -> wf im ->
       body im x y = match F x y with None => Ret im | Some px => set_pixel p im x y px end) ->
    (forall x y, x0 <= x < x1 -> y0 <= y < y1 -> F x y <> None -> inside img x y) ->
    (forall x y px, x0 <= x < x1 -> y0 <= y < y1 -> F x y = Some px -> len px = channels (info_of img)) ->
    exists out,
      mfold (fun im y => mfold (fun im x => body im x y) (zrange x0 x1) im) (zrange y0 y1) img = Ret out
      /\ wf out /\ info_of out = info_of img
      /\ forall x y, inside img x y ->
         pixel_at out x y
         = match F x y with
           | Some px => if (x0 <=? x) && (x <? x1) && (y0 <=? y) && (y <? y1) then px else pixel_at img x y
           | None => pixel_at img x y
           end.
  Proof.
    intros Hwf Hbody Hin Hlen. rewrite mfold_nest.
    destruct (write_loop F (fun im xy => body im (fst xy) (snd xy)) (coords x0 x1 y0 y1) img)
      as [out [E [Hw [Hi Hpx]]]].
    - exact Hwf.
    - intros im x y Hl. cbn. apply in_coords in Hl. apply Hbody; lia.
    - intros x y Hl. apply in_coords in Hl. apply Hin; lia.
    - intros x y px Hl. apply in_coords in Hl. apply Hlen; lia.
    - exists out. conj; auto. intros x y Hxy. rewrite (Hpx x y Hxy).
      rewrite existsb_coords. reflexivity.
  Qed.

  (** nested loops, x outside and y inside *)
  Lemma write_rect_xy (F : Z -> Z -> option (list T)) body x0 x1 y0 y1 (img : image T) :
    wf img ->
    (forall im x y, x0 <= x < x1 -> y0 <= y < y1 -> info_of im = info_of img -> wf im ->
       body im x y = match F x y with None => Ret im | Some px => set_pixel p im x y px end) ->
    (forall x y, x0 <= x < x1 -> y0 <= y < y1 -> F x y <> None -> inside img x y) ->
    (forall x y px, x0 <= x < x1 -> y0 <= y < y1 -> F x y = Some px -> len px = channels (info_of img)) ->
    exists out,
      mfold (fun im x => mfold (fun im y => body im x y) (zrange y0 y1) im) (zrange x0 x1) img = Ret out
      /\ wf out /\ info_of out = info_of img
      /\ forall x y, inside img x y ->
         pixel_at out x y
         = match F x y with
           | Some px => if (x0 <=? x) && (x <? x1) && (y0 <=? y) && (y <? y1) then px else pixel_at img x y
           | None => pixel_at img x y
           end.
  Proof.
    intros Hwf Hbody Hin Hlen.
    rewrite (mfold_nest (fun im y x => body im x y)).
    set (l := map (fun c => (snd c, fst c)) (coords y0 y1 x0 x1)).
    assert (Hl : forall x y, In (x, y) l <-> x0 <= x < x1 /\ y0 <= y < y1).
    { intros x y. unfold l. rewrite in_map_iff. split.
      - intros [[a b] [E Hab]]. cbn in E. injection E as <- <-. apply in_coords in Hab. lia.
      - intros Hxy. exists (y, x). split; [reflexivity|]. apply in_coords. lia. }
    replace (mfold (fun s xy => body s (snd xy) (fst xy)) (coords y0 y1 x0 x1) img)
      with (mfold (fun im xy => body im (fst xy) (snd xy)) l img)
      by (unfold l; rewrite mfold_map; reflexivity).
    destruct (write_loop F (fun im xy => body im (fst xy) (snd xy)) l img)
      as [out [E [Hw [Hi Hpx]]]].
    - exact Hwf.
    - intros im x y Hxy. cbn. apply Hl in Hxy. apply Hbody; lia.
    - intros x y Hxy. apply Hl in Hxy. apply Hin; lia.
    - intros x y px Hxy. apply Hl in Hxy. apply Hlen; lia.
    - exists out. conj; auto. intros x y Hxy. rewrite (Hpx x y Hxy).
      replace (existsb (fun c => (fst c =? x) && (snd c =? y)) l)
        with ((x0 <=? x) && (x <? x1) && (y0 <=? y) && (y <? y1)); [reflexivity|].
      symmetry. destruct ((x0 <=? x) && (x <? x1) && (y0 <=? y) && (y <? y1)) eqn:E2.
      + apply existsb_exists. exists (x, y). split; [apply Hl; lia|cbn; lia].
      + destruct (existsb _ l) eqn:E3; [|reflexivity].
        apply existsb_exists in E3 as [[a b] [Hab Hc]]. cbn in Hc. apply Hl in Hab. lia.
  Qed.
End WriteLoop.
