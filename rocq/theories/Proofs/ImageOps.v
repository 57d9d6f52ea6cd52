(** Lemmas about the maps, iterators and sub-images of src/image. *)
From Verif.Proofs Require Export ImageL.
Open Scope Z_scope.

(** ** channel maps *)
Lemma map_channels_eq p {T S} (f : T -> outcome S) (img : image T) : wf img ->
  map_channels p f img = (let! d := mmap f (data img) in Ret (Image (info_of img) d)).
Proof.
  intros Hwf. unfold map_channels. rewrite full_size_ok by exact Hwf. cbn [bind].
  f_equal. rewrite <- (wf_data _ Hwf). destruct (data img) as [|d0 d'].
  - reflexivity.
  - transitivity (mmap f (map (fun i => nth (Z.to_nat i) (d0 :: d') d0) (zrange 0 (len (d0 :: d'))))).
    2: { rewrite map_zrange_nth. reflexivity. }
    rewrite mmap_map. apply mmap_ext.
    intros i Hi. apply in_zrange in Hi. rewrite (vget_ok _ _ d0) by lia. reflexivity.
Qed.

Lemma map_channels_pure p {T S} (f : T -> S) (img : image T) : wf img ->
  map_channels p (fun c => Ret (f c)) img = Ret (Image (info_of img) (map f (data img))).
Proof. intros Hwf. rewrite map_channels_eq by exact Hwf. rewrite mmap_pure. reflexivity. Qed.

Lemma map_data_wf {T S} (f : T -> S) (img : image T) : wf img -> wf (Image (info_of img) (map f (data img))).
Proof. intros []. constructor; cbn; auto. rewrite len_map. auto. Qed.

Lemma pixel_at_map {T S} (f : T -> S) (img : image T) x y :
  pixel_at (Image (info_of img) (map f (data img))) x y = map f (pixel_at img x y).
Proof. unfold pixel_at. cbn [info_of data]. rewrite skipn_map, firstn_map. reflexivity. Qed.

(** ** pixel maps *)
Lemma linear_inside {T} (img : image T) i : wf img ->
  0 <= i < width (info_of img) * height (info_of img) ->
  inside img (i mod width (info_of img)) (i / width (info_of img))
  /\ pixel_i img i = pixel_at img (i mod width (info_of img)) (i / width (info_of img)).
Proof.
  intros Hwf Hi. destruct (wf_w _ Hwf), (wf_h _ Hwf).
  assert (0 < width (info_of img)) by nia.
  destruct (pos_surj (width (info_of img)) (height (info_of img)) i) as [? [? ?]]; try lia.
  split; [split; lia|]. apply pixel_i_at. lia.
Qed.

Lemma mmap_pixels p {T B} (img : image T) (F : list T -> outcome B) (G : Z -> Z -> B) : wf img ->
  (forall x y, inside img x y -> F (pixel_at img x y) = Ret (G x y)) ->
  mmap (fun i => let! px := img_index p img i in F px)
       (zrange 0 (width (info_of img) * height (info_of img)))
  = Ret (map (fun i => G (i mod width (info_of img)) (i / width (info_of img)))
       (zrange 0 (width (info_of img) * height (info_of img)))).
Proof.
  intros Hwf HF. apply mmap_Ret. intros i Hi. apply in_zrange in Hi.
  rewrite img_index_ok by assumption. cbn [bind].
  destruct (linear_inside img i Hwf Hi) as [Hin ->]. apply HF. exact Hin.
Qed.

Lemma of_fun_len {T} (i : info) (G : Z -> Z -> list T) : info_ok i ->
  (forall x y, 0 <= x < width i -> 0 <= y < height i -> len (G x y) = channels i) ->
  len (data (of_fun i G)) = width i * height i * channels i.
Proof. intros Hi HG. apply (wf_data _ (of_fun_wf i G Hi HG)). Qed.

Lemma map_pixels_ok p {T S} (img : image T) (F : list T -> outcome (list S)) (G : Z -> Z -> list S) k :
  wf img -> 0 < width (info_of img) * height (info_of img) ->
  0 <= k <= 255 -> width (info_of img) * height (info_of img) * k <= u32_max ->
  (forall x y, inside img x y -> F (pixel_at img x y) = Ret (G x y) /\ len (G x y) = k) ->
  map_pixels p F img
  = Ret (of_fun (Info (width (info_of img)) (height (info_of img)) k (alpha (info_of img))) G).
Proof.
  intros Hwf Hpos Hk Hfit HG. unfold map_pixels. rewrite size_ok by exact Hwf. cbn [bind].
  rewrite (mmap_pixels p img F G Hwf) by (intros; apply HG; assumption). cbn [bind].
  set (i' := Info (width (info_of img)) (height (info_of img)) k (alpha (info_of img))).
  assert (Hi' : info_ok i').
  { destruct (wf_info_ok _ Hwf) as (?&?&?&?&?). unfold info_ok, i'; cbn. auto. }
  assert (Hl : len (data (of_fun i' G)) = width (info_of img) * height (info_of img) * k).
  { apply (of_fun_len i' G Hi'). intros x y Hx Hy. apply HG. split; assumption. }
  unfold of_fun in Hl; cbn in Hl. rewrite Hl.
  unfold u32_max in *.
  rewrite cast_id by (cbn; nia). rewrite idiv_ok by (cbn; nia). cbn [bind].
  replace (width (info_of img) * height (info_of img) * k / (width (info_of img) * height (info_of img)))
    with k by (rewrite Z.mul_comm, Z.div_mul; lia).
  rewrite cast_id by ity_lia. reflexivity.
Qed.

Lemma map_pixels_empty p {T S} (img : image T) (F : list T -> outcome (list S)) :
  wf img -> width (info_of img) * height (info_of img) = 0 -> map_pixels p F img = Panic.
Proof.
  intros Hwf H0. unfold map_pixels. rewrite size_ok by exact Hwf. cbn [bind]. rewrite H0.
  rewrite zrange_nil by lia. reflexivity.
Qed.

(** splitting off the last sample *)
Lemma px_alpha_app p {T} (cs : list T) a : len cs < 18446744073709551615 -> px_alpha p (cs ++ [a]) = Ret a.
Proof.
  intros Hl. unfold px_alpha. pose proof (len_nonneg cs). rewrite len_app. change (len [a]) with 1. ari.
  rewrite (vget_ok _ _ a) by (rewrite len_app; change (len [a]) with 1; lia).
  rewrite app_nth2 by (unfold len in *; lia).
  replace (Z.to_nat (len cs + 1 - 1) - length cs)%nat with 0%nat by (unfold len in *; lia). reflexivity.
Qed.
Lemma px_cwa_app p {T} (cs : list T) a : len cs < 18446744073709551615 ->
  px_channels_without_alpha p (cs ++ [a]) = Ret cs.
Proof.
  intros Hl. unfold px_channels_without_alpha. pose proof (len_nonneg cs).
  rewrite len_app. change (len [a]) with 1. ari.
  rewrite vslice_ok by (rewrite ?len_app; change (len [a]) with 1; lia).
  cbn [Z.to_nat skipn]. f_equal.
  replace (Z.to_nat (len cs + 1 - 1 - 0)) with (length cs + 0)%nat by (unfold len in *; lia).
  rewrite firstn_app_2. cbn. apply app_nil_r.
Qed.
Lemma px_alpha_nil p {T} : px_alpha p (@nil T) = Panic.
Proof. destruct p; reflexivity. Qed.
Lemma px_cwa_nil p {T} : px_channels_without_alpha p (@nil T) = Panic.
Proof. destruct p; reflexivity. Qed.

Lemma split_last {T} (px : list T) n : len px = n -> 0 < n ->
  exists cs a, px = cs ++ [a] /\ len cs = n - 1.
Proof.
  intros Hl Hn. destruct (exists_last (l := px)) as [cs [a E]].
  - intros ->. cbn in Hl. lia.
  - exists cs, a. split; [exact E|]. rewrite E, len_app in Hl. change (len [a]) with 1 in Hl. lia.
Qed.

Lemma pixel_split {T} (img : image T) x y : wf img -> inside img x y -> 0 < channels (info_of img) ->
  exists cs a, pixel_at img x y = cs ++ [a] /\ len cs = channels (info_of img) - 1.
Proof. intros Hwf Hin Hc. apply split_last; [apply pixel_at_len; assumption|exact Hc]. Qed.

(** colour part / alpha part of a pixel, as total functions *)
Definition color_of {T} (px : list T) : list T := removelast px.
Lemma color_app {T} (cs : list T) a : color_of (cs ++ [a]) = cs.
Proof. apply removelast_last. Qed.

Lemma px_map_alpha_app p {T S} (f g : T -> outcome S) cs a : len cs < 18446744073709551615 ->
  px_map_alpha p f g (cs ++ [a]) = (let! out := mmap f cs in let! b := g a in Ret (out ++ [b])).
Proof.
  intros Hl. unfold px_map_alpha. rewrite px_cwa_app by exact Hl. cbn [bind].
  rewrite px_alpha_app by exact Hl. reflexivity.
Qed.

(** generic: an image computed pixel by pixel with outcome closures, alpha variant *)
Lemma map_pixels_if_alpha_ok p {T S} (img : image T) (f : list T -> outcome (list S)) (g : T -> outcome S)
    (G : Z -> Z -> list S) k :
  wf img -> 0 < width (info_of img) * height (info_of img) ->
  alpha (info_of img) = true -> 0 < channels (info_of img) ->
  0 <= k <= 254 -> width (info_of img) * height (info_of img) * (k + 1) <= u32_max ->
  (forall x y cs a, inside img x y -> pixel_at img x y = cs ++ [a] ->
     exists o b, f cs = Ret o /\ g a = Ret b /\ G x y = o ++ [b] /\ len o = k) ->
  map_pixels_if_alpha p f g img
  = Ret (of_fun (Info (width (info_of img)) (height (info_of img)) (k + 1) true) G).
Proof.
  intros Hwf Hpos Ha Hc Hk Hfit HG.
  transitivity (map_pixels p (fun px => let! cs := px_channels_without_alpha p px in
                               let! out := f cs in
                               let! a := px_alpha p px in
                               let! b := g a in Ret (out ++ [b])) img).
  - unfold map_pixels_if_alpha, map_pixels. rewrite Ha. cbn [negb]. reflexivity.
  - rewrite (map_pixels_ok p img _ G (k + 1)); auto; try lia.
    + rewrite Ha. reflexivity.
    + intros x y Hin. destruct (pixel_split img x y Hwf Hin Hc) as [cs [a [E Hl]]].
      destruct (HG x y cs a Hin E) as [o [b [Hf [Hg [HGo Ho]]]]].
      pose proof (wf_c _ Hwf).
      rewrite E, px_cwa_app by lia. cbn [bind]. rewrite Hf. cbn [bind].
      rewrite px_alpha_app by lia. cbn [bind]. rewrite Hg. cbn [bind].
      rewrite HGo, len_app, Ho. split; [reflexivity|]. reflexivity.
Qed.

Lemma map_channels_if_alpha_true p {T S} (img : image T) (f g : T -> S) :
  wf img -> alpha (info_of img) = true -> 0 < channels (info_of img) ->
  exists out, map_channels_if_alpha p (fun c => Ret (f c)) (fun c => Ret (g c)) img = Ret out
    /\ wf out /\ info_of out = info_of img
    /\ forall x y cs a, inside img x y -> pixel_at img x y = cs ++ [a] ->
         pixel_at out x y = map f cs ++ [g a].
Proof.
  intros Hwf Ha Hc. unfold map_channels_if_alpha. rewrite Ha. cbn [negb].
  rewrite full_size_ok, size_ok by exact Hwf. cbn [bind].
  set (G := fun x y => map f (removelast (pixel_at img x y))
                       ++ match rev (pixel_at img x y) with a :: _ => [g a] | [] => [] end).
  assert (HG : forall x y cs a, inside img x y -> pixel_at img x y = cs ++ [a] -> G x y = map f cs ++ [g a]).
  { intros x y cs a _ E. unfold G. rewrite E, removelast_last, rev_app_distr. reflexivity. }
  rewrite (mmap_pixels p img _ G Hwf).
  - cbn [bind]. exists (of_fun (info_of img) G). split; [reflexivity|].
    assert (Hl : forall x y, 0 <= x < width (info_of img) -> 0 <= y < height (info_of img) ->
                 len (G x y) = channels (info_of img)).
    { intros x y Hx Hy. destruct (pixel_split img x y Hwf (conj Hx Hy) Hc) as [cs [a [E Hl]]].
      rewrite (HG x y cs a (conj Hx Hy) E), len_app, len_map, Hl. change (len [g a]) with 1. lia. }
    split; [|split; [reflexivity|]].
    + apply of_fun_wf; [apply wf_info_ok; exact Hwf|exact Hl].
    + intros x y cs a [Hx Hy] E. rewrite pixel_at_of_fun; auto.
      * apply HG; [split; assumption|exact E].
      * apply wf_info_ok; exact Hwf.
  - intros x y Hin. destruct (pixel_split img x y Hwf Hin Hc) as [cs [a [E Hl]]].
    rewrite (HG x y cs a Hin E), E. pose proof (wf_c _ Hwf).
    rewrite px_map_alpha_app by lia. rewrite mmap_pure. reflexivity.
Qed.

(** ** in-place application *)
Lemma apply_range_gen {T} (f : T -> outcome T) (suf pre tl : list T) :
  mfold (fun d i => let! c := vget d i in let! c' := f c in vset d i c')
        (zrange (len pre) (len pre + len suf)) (pre ++ suf ++ tl)
  = (let! s := mmap f suf in Ret (pre ++ s ++ tl)).
Proof.
  revert pre. induction suf as [|c suf IH]; intros pre.
  - cbn [len length Z.of_nat]. rewrite zrange_nil by (cbn; lia). reflexivity.
  - pose proof (len_nonneg pre). pose proof (len_nonneg suf).
    assert (Hc1 : len (c :: suf) = 1 + len suf) by (unfold len; cbn [length]; lia).
    rewrite Hc1. rewrite zrange_cons by lia. cbn [mfold].
    rewrite (vget_ok _ _ c).
    2: { rewrite !len_app, Hc1. pose proof (len_nonneg tl). lia. }
    rewrite app_nth2 by (unfold len in *; lia).
    replace (Z.to_nat (len pre) - length pre)%nat with 0%nat by (unfold len; lia).
    cbn [nth app bind mmap].
    destruct (f c) as [c'| | |]; cbn [bind]; auto.
    rewrite vset_ok.
    2: { rewrite len_app. change (len (c :: suf ++ tl)) with (len ((c :: suf) ++ tl)).
         rewrite len_app, Hc1. pose proof (len_nonneg tl). lia. }
    replace (Z.to_nat (len pre)) with (length pre) by (unfold len; lia).
    rewrite upd_app. cbn [bind].
    replace (pre ++ c' :: suf ++ tl) with ((pre ++ [c']) ++ suf ++ tl) by (rewrite <- app_assoc; reflexivity).
    replace (len pre + 1) with (len (pre ++ [c'])) by (rewrite len_app; reflexivity).
    replace (len pre + (1 + len suf)) with (len (pre ++ [c']) + len suf)
      by (rewrite len_app; change (len [c']) with 1; lia).
    rewrite IH. destruct (mmap f suf); cbn [bind]; auto. rewrite <- app_assoc. reflexivity.
Qed.

Lemma apply_range {T} (f : T -> outcome T) (d : list T) :
  mfold (fun d i => let! c := vget d i in let! c' := f c in vset d i c') (zrange 0 (len d)) d
  = mmap f d.
Proof.
  pose proof (apply_range_gen f d [] []) as H. cbn [app] in H. rewrite app_nil_r in H.
  change (len (@nil T)) with 0 in H. rewrite Z.add_0_l in H. rewrite H.
  destruct (mmap f d); cbn [bind]; auto. rewrite app_nil_r. reflexivity.
Qed.

Lemma apply_channels_eq p {T} (f : T -> outcome T) (img : image T) : wf img ->
  apply_channels p f img = map_channels p f img.
Proof.
  intros Hwf. rewrite map_channels_eq by exact Hwf. unfold apply_channels.
  rewrite full_size_ok by exact Hwf. cbn [bind]. rewrite <- (wf_data _ Hwf). rewrite apply_range. reflexivity.
Qed.

Lemma px_apply_alpha_app p {T} (f g : T -> outcome T) cs a : len cs < 18446744073709551615 ->
  px_apply_alpha p f g (cs ++ [a]) = (let! out := mmap f cs in let! b := g a in Ret (out ++ [b])).
Proof.
  intros Hl. pose proof (len_nonneg cs). unfold px_apply_alpha.
  rewrite len_app. change (len [a]) with 1. ari.
  replace (len cs + 1 - 1) with (len (@nil T) + len cs) by (change (len (@nil T)) with 0; lia).
  change (zrange 0) with (zrange (len (@nil T))).
  change (cs ++ [a]) with ([] ++ cs ++ [a]) at 1. rewrite apply_range_gen.
  destruct (mmap f cs) as [out| | |] eqn:E; cbn [bind app]; auto.
  assert (Ho : len out = len cs) by (unfold len; f_equal; apply (mmap_length f cs); exact E).
  rewrite len_app. change (len [a]) with 1. ari.
  rewrite px_alpha_app by lia. cbn [bind]. destruct (g a) as [b| | |]; cbn [bind]; auto.
  rewrite vset_ok by (rewrite len_app; change (len [a]) with 1; lia).
  replace (Z.to_nat (len out + 1 - 1)) with (length out) by (unfold len; lia).
  rewrite upd_app. reflexivity.
Qed.

Section InPlace.
  Context (p : profile) {T : Type} (img : image T) (Hwf : wf img).
  Notation W := (width (info_of img)).
  Notation Ht := (height (info_of img)).
  Notation C := (channels (info_of img)).

  (** a loop over all linear indices in which step [i] replaces pixel [i] by [G] of it *)
  Lemma inplace_loop body (G : Z -> list T) :
    (forall im i, 0 <= i < W * Ht -> wf im -> info_of im = info_of img -> pixel_i im i = pixel_i img i ->
       body im i = Ret (put im i (G i))) ->
    (forall i, 0 <= i < W * Ht -> len (G i) = C) ->
    exists out, mfold body (zrange 0 (W * Ht)) img = Ret out /\ wf out /\ info_of out = info_of img
      /\ forall i, 0 <= i < W * Ht -> pixel_i out i = G i.
  Proof.
    intros Hbody HG.
    destruct (mfold_zrange_inv (fun k im => wf im /\ info_of im = info_of img
        /\ (forall j, 0 <= j < k -> pixel_i im j = G j)
        /\ (forall j, k <= j < W * Ht -> pixel_i im j = pixel_i img j)) body 0 (W * Ht) img)
      as [out [E [Hw [Hi [Hp _]]]]].
    - destruct (wf_w _ Hwf), (wf_h _ Hwf). nia.
    - conj; auto. intros; lia.
    - intros k im Hk [Hw [Hi [Hlo Hhi]]].
      rewrite Hbody by (auto; apply Hhi; lia). eexists. split; [reflexivity|].
      assert (Hl : len (G k) = channels (info_of im)) by (rewrite Hi; apply HG; lia).
      conj.
      + apply put_wf; auto. rewrite Hi. lia.
      + exact Hi.
      + intros j Hj. destruct (Z.eq_dec j k) as [->|Hne].
        * apply put_same; auto. rewrite Hi; lia.
        * rewrite put_other; auto; try (rewrite Hi; lia). apply Hlo. lia.
      + intros j Hj. rewrite put_other; auto; try (rewrite Hi; lia); try lia. apply Hhi. lia.
    - exists out. conj; auto.
  Qed.

  Lemma out_ext (a b : image T) : wf a -> wf b -> info_of a = info_of img -> info_of b = info_of img ->
    (forall i, 0 <= i < W * Ht -> pixel_i a i = pixel_i b i) -> a = b.
  Proof.
    intros Ha Hb Hia Hib H. apply image_eq; [congruence|].
    rewrite (data_concat a Ha), (data_concat b Hb), Hia, Hib. f_equal.
    apply map_ext_in. intros i Hi. apply H. apply in_zrange in Hi. exact Hi.
  Qed.

  Lemma apply_pixels_ok (F : list T -> outcome (list T)) (G : Z -> Z -> list T) :
    (forall x y, inside img x y -> F (pixel_at img x y) = Ret (G x y) /\ len (G x y) = C) ->
    apply_pixels p F img = Ret (of_fun (info_of img) G).
  Proof.
    intros HG. unfold apply_pixels. rewrite size_ok by exact Hwf. cbn [bind].
    set (G' := fun i => G (i mod W) (i / W)).
    destruct (inplace_loop (fun im i => let! px := img_index p im i in
             let! out := F px in set_pixel_indexed p im i out) G') as [out [E [Hw [Hi Hp]]]].
    - intros im i Hi Hw Hinf Hpx. rewrite img_index_ok by (rewrite ?Hinf; auto). cbn [bind]. rewrite Hpx.
      destruct (linear_inside img i Hwf Hi) as [Hin ->].
      destruct (HG _ _ Hin) as [-> Hl]. cbn [bind].
      rewrite set_pixel_indexed_ok; auto; rewrite Hinf; auto.
    - intros i Hi. destruct (linear_inside img i Hwf Hi) as [Hin _]. apply (HG _ _ Hin).
    - rewrite E. f_equal.
      assert (Hl : forall x y, 0 <= x < W -> 0 <= y < Ht -> len (G x y) = C)
        by (intros; apply HG; split; assumption).
      apply out_ext; auto.
      + apply of_fun_wf; [apply wf_info_ok; exact Hwf|exact Hl].
      + intros i Hi'. rewrite Hp by exact Hi'. unfold G'.
        destruct (linear_inside img i Hwf Hi') as [[? ?] _].
        rewrite pixel_i_at by (cbn; lia). cbn [info_of of_fun].
        symmetry. apply pixel_at_of_fun; auto. apply wf_info_ok; exact Hwf.
  Qed.
End InPlace.

Lemma img_index_mut_ok p {T} (img : image T) i (f : list T -> outcome (list T)) px : wf img ->
  0 <= i < width (info_of img) * height (info_of img) ->
  f (pixel_i img i) = Ret px -> len px = channels (info_of img) ->
  img_index_mut p img i f = Ret (put img i px).
Proof.
  intros Hwf Hi Hf Hpx. pose proof Hwf as [? ? ? ? ? Hd]. unfold u32_max in *.
  set (C := channels (info_of img)) in *. set (W := width (info_of img)) in *. set (Ht := height (info_of img)) in *.
  assert (i * C + C <= W * Ht * C) by nia. assert (0 <= i * C) by nia.
  unfold img_index_mut. fold C. ari. rewrite vslice_ok by lia. cbn [bind].
  replace (firstn (Z.to_nat (i * C + C - i * C)) (skipn (Z.to_nat (i * C)) (data img))) with (pixel_i img i)
    by (unfold pixel_i; fold C; do 2 f_equal; lia).
  rewrite Hf. cbn [bind]. rewrite vcopy_ok by lia. reflexivity.
Qed.

(** ** edit_channel: writes at a duplicate-free list of buffer indices *)
Lemma edit_loop {T} (f : T -> T) (is : list Z) (d : list T) (d0 : T) :
  NoDup is -> (forall i, In i is -> 0 <= i < len d) ->
  exists out, mfold (fun d i => let! c := vget d i in let! c' := Ret (f c) in vset d i c') is d = Ret out
    /\ length out = length d
    /\ forall j, (j < length d)%nat ->
       nth j out d0 = if existsb (Z.eqb (Z.of_nat j)) is then f (nth j d d0) else nth j d d0.
Proof.
  revert d. induction is as [|i is IH]; intros d Hnd Hin.
  - exists d. cbn. auto.
  - inversion Hnd as [|? ? Hni Hnd']; subst. cbn [mfold].
    assert (Hi : 0 <= i < len d) by (apply Hin; left; reflexivity).
    rewrite (vget_ok _ _ d0) by exact Hi. cbn [bind]. rewrite vset_ok by exact Hi. cbn [bind].
    destruct (IH (upd d (Z.to_nat i) (f (nth (Z.to_nat i) d d0)))) as [out [E [Hl Hn]]]; auto.
    + intros k Hk. rewrite len_upd. apply Hin. right. exact Hk.
    + exists out. rewrite upd_length in *. conj; auto.
      intros j Hj. rewrite Hn by exact Hj. rewrite nth_upd by (unfold len in Hi; lia).
      cbn [existsb].
      destruct (Nat.eqb_spec j (Z.to_nat i)) as [->|Hne].
      * replace (Z.of_nat (Z.to_nat i)) with i by lia. rewrite Z.eqb_refl. cbn [orb].
        destruct (existsb (Z.eqb i) is) eqn:Ex; [|reflexivity].
        apply existsb_exists in Ex as [k [Hk Hik]]. apply Z.eqb_eq in Hik. subst. contradiction.
      * replace (Z.of_nat j =? i) with false by lia. reflexivity.
Qed.

Lemma in_zrange_step k fs c i : 0 < c -> 0 <= k ->
  (In i (zrange_step_pos k fs c) <-> k <= i < fs /\ (i - k) mod c = 0).
Proof.
  intros Hc Hk. unfold zrange_step_pos. rewrite in_map_iff. split.
  - intros [n [E Hn]]. apply in_seq in Hn. subst i.
    assert (Z.of_nat n < (fs - k + c - 1) / c) by lia.
    assert (c * (Z.of_nat n + 1) <= fs - k + c - 1).
    { transitivity (c * ((fs - k + c - 1) / c)); [nia|]. apply Z.mul_div_le. lia. }
    split; [nia|]. replace (k + c * Z.of_nat n - k) with (Z.of_nat n * c) by lia. apply Z.mod_mul. lia.
  - intros [Hi Hm]. exists (Z.to_nat ((i - k) / c)).
    pose proof (Z.div_mod (i - k) c) as Hdm.
    assert (0 <= (i - k) / c) by (apply Z.div_pos; lia).
    split; [nia|]. apply in_seq. split; [lia|].
    assert ((i - k) / c < (fs - k + c - 1) / c); [|lia].
    apply Z.lt_le_trans with ((i - k) / c + 1); [lia|].
    apply Z.div_le_lower_bound; lia.
Qed.

Lemma NoDup_zrange_step k fs c : 0 < c -> NoDup (zrange_step_pos k fs c).
Proof.
  intros Hc. unfold zrange_step_pos. apply FinFun.Injective_map_NoDup; [|apply seq_NoDup].
  intros a b H. nia.
Qed.

Lemma edit_channel_ok p {T} (f : T -> T) k (img : image T) (d0 : T) :
  wf img -> 0 < channels (info_of img) -> 0 <= k ->
  exists out, edit_channel p (fun c => Ret (f c)) k img = Ret out /\ wf out /\ info_of out = info_of img
    /\ forall j, (j < length (data img))%nat ->
       nth j (data out) d0
       = if (k <=? Z.of_nat j) && ((Z.of_nat j - k) mod channels (info_of img) =? 0)
         then f (nth j (data img) d0) else nth j (data img) d0.
Proof.
  intros Hwf Hc Hk. unfold edit_channel. rewrite full_size_ok by exact Hwf. cbn [bind].
  unfold zrange_step. replace (channels (info_of img) <=? 0) with false by lia. cbn [bind].
  rewrite <- (wf_data _ Hwf).
  destruct (edit_loop f (zrange_step_pos k (len (data img)) (channels (info_of img))) (data img) d0)
    as [out [E [Hl Hn]]].
  - apply NoDup_zrange_step. lia.
  - intros i Hi. apply in_zrange_step in Hi; lia.
  - cbn [bind] in E |- *. rewrite E. cbn [bind]. eexists. split; [reflexivity|]. conj.
    + destruct Hwf. constructor; cbn; auto. unfold len in *. rewrite Hl. auto.
    + reflexivity.
    + cbn [data]. intros j Hj. rewrite Hn by exact Hj.
      replace (existsb (Z.eqb (Z.of_nat j)) (zrange_step_pos k (len (data img)) (channels (info_of img))))
        with ((k <=? Z.of_nat j) && ((Z.of_nat j - k) mod channels (info_of img) =? 0)); [reflexivity|].
      symmetry. destruct ((k <=? Z.of_nat j) && ((Z.of_nat j - k) mod channels (info_of img) =? 0)) eqn:Ec.
      * apply existsb_exists. exists (Z.of_nat j). split; [|apply Z.eqb_refl].
        apply in_zrange_step; try lia. unfold len. lia.
      * destruct (existsb _ _) eqn:Ex; [|reflexivity].
        apply existsb_exists in Ex as [i [Hi Hij]]. apply Z.eqb_eq in Hij. subst i.
        apply in_zrange_step in Hi; try lia.
Qed.
