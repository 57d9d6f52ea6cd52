(** Lemmas about per-sample operations. *)
From Verif.Spec Require Export ColorS.
From Verif.Proofs Require Export ImageOps LoopL.
From Verif.Model Require Export Util.
Open Scope Z_scope.

Lemma lookup_eq {T} (table : list T) (f : Z -> outcome T) : len table <= 256 ->
  generate_lookup_table table f = mmap f (zrange 0 (len table)).
Proof.
  intros Hl. unfold generate_lookup_table. destruct table as [|d table']; [reflexivity|].
  set (table := d :: table') in *.
  transitivity (mfold (fun out i => let! a := (fun i (_ : T) => f i) i (nth (Z.to_nat i) out d) in Ret (upd out (Z.to_nat i) a))
     (zrange 0 (len table)) table).
  - apply (mfold_ext_inv (fun t => len t = len table)); [reflexivity| |].
    + intros t i Ht Hi. apply in_zrange in Hi. rewrite cast_id by ity_lia. apply bind_ext. intros a _.
      apply vset_ok. lia.
    + intros t i t' Ht Hi E. apply bind_inv in E as [a [_ E]]. injection E as <-. rewrite len_upd. exact Ht.
  - exact (fill_loop (fun i (_ : T) => f i) table d).
Qed.

(** a table of 256 entries *)
Lemma table_256 {T} (z : T) (f : Z -> outcome T) (g : Z -> T) :
  (forall i, 0 <= i <= 255 -> f i = Ret (g i)) ->
  generate_lookup_table (repeat z 256) f = Ret (map g (zrange 0 256)).
Proof.
  intros H. rewrite lookup_eq by (rewrite len_repeat; lia). rewrite len_repeat.
  change (Z.of_nat 256) with 256. apply mmap_Ret. intros i Hi. apply in_zrange in Hi. apply H. lia.
Qed.
Lemma table_get {T} (g : Z -> T) c : is_u8 c -> vget (map g (zrange 0 256)) c = Ret (g c).
Proof.
  intros H. unfold is_u8 in H. rewrite (vget_ok _ _ (g 0)) by (rewrite len_map, len_zrange; lia).
  f_equal. rewrite nth_map_zrange by lia. reflexivity.
Qed.

Lemma pixel_in_data {T} (img : image T) x y s : In s (pixel_at img x y) -> In s (data img).
Proof.
  unfold pixel_at. intros H.
  assert (Hf : forall n (l : list T), In s (firstn n l) -> In s l).
  { intros n l Hi. rewrite <- (firstn_skipn n l). apply in_or_app. left. exact Hi. }
  assert (Hs : forall n (l : list T), In s (skipn n l) -> In s l).
  { intros n l Hi. rewrite <- (firstn_skipn n l). apply in_or_app. right. exact Hi. }
  apply (Hs _ _ (Hf _ _ H)).
Qed.

Lemma sample_in_data {T} (img : image T) x y c s : sample img x y c = Some s -> In s (data img).
Proof. intros H. apply nth_error_In in H. apply (pixel_in_data _ _ _ _ H). Qed.

Lemma map_if_alpha_recolored p {T S} (img : image T) (f g : T -> outcome S) (f' g' : T -> S) :
  wf img -> alpha (info_of img) = false \/ 0 < channels (info_of img) ->
  (forall s, In s (data img) -> f s = Ret (f' s)) ->
  (forall s, In s (data img) -> g s = Ret (g' s)) ->
  exists out, map_channels_if_alpha p f g img = Ret out /\ recolored f' g' img out.
Proof.
  intros Hwf HC Hf Hg. destruct (alpha (info_of img)) eqn:Ha.
  - destruct HC as [|HC]; [discriminate|].
    destruct (map_channels_if_alpha_true p img f' g' Hwf Ha HC) as [out [E [Hw [Hi Hp]]]].
    exists out. split.
    + rewrite <- E. unfold map_channels_if_alpha. rewrite Ha. cbn [negb].
      rewrite full_size_ok, size_ok by exact Hwf. cbn [bind].
      apply (f_equal (fun m => let! d := m in Ret (Image (info_of img) (concat d)))).
      apply mmap_ext. intros i Hi'. apply in_zrange in Hi'.
      rewrite img_index_ok by assumption. cbn [bind].
      destruct (linear_inside img i Hwf Hi') as [Hin ->].
      destruct (pixel_split img _ _ Hwf Hin HC) as [cs [a [Ep Hl]]]. pose proof (wf_c _ Hwf).
      assert (Hd : forall s, In s (cs ++ [a]) -> In s (data img)).
      { intros s Hs. rewrite <- Ep in Hs. apply (pixel_in_data _ _ _ _ Hs). }
      rewrite Ep, !px_map_alpha_app by lia.
      rewrite (mmap_ext f (fun c => Ret (f' c))).
      2: { intros s Hs. apply Hf, Hd. apply in_or_app. left. exact Hs. }
      rewrite Hg by (apply Hd; apply in_or_app; right; left; reflexivity). reflexivity.
    + split; [exact Hi|]. split; [exact Hw|]. intros x y c s Hin Hc Hs. unfold sample in *.
      destruct (pixel_split img x y Hwf Hin HC) as [cs [a [Ep Hl]]].
      rewrite (Hp x y cs a Hin Ep). rewrite Ep in Hs. unfold is_alpha. rewrite Ha. cbn [andb].
      destruct (Z.eqb_spec c (channels (info_of img) - 1)) as [->|Hne].
      * unfold len in Hl. rewrite nth_error_app2 in Hs |- * by (rewrite ?map_length; lia). rewrite map_length.
        replace (Z.to_nat (channels (info_of img) - 1) - length cs)%nat with 0%nat in * by lia.
        cbn in Hs |- *. congruence.
      * assert (Hlt : (Z.to_nat c < length cs)%nat).
        { assert (Hlt : (Z.to_nat c < length (cs ++ [a]))%nat) by (apply nth_error_Some; congruence).
          rewrite app_length in Hlt. cbn in Hlt. unfold len in Hl. lia. }
        rewrite nth_error_app1 in Hs |- * by (rewrite ?map_length; exact Hlt).
        rewrite nth_error_map, Hs. reflexivity.
  - exists (Image (info_of img) (map f' (data img))). split.
    + unfold map_channels_if_alpha. rewrite Ha. cbn [negb]. rewrite map_channels_eq by exact Hwf.
      rewrite (mmap_Ret f f') by exact Hf. reflexivity.
    + split; [reflexivity|]. split; [apply map_data_wf; exact Hwf|]. intros x y c s Hin Hc Hs. unfold sample in *.
      rewrite pixel_at_map, nth_error_map, Hs. unfold is_alpha. rewrite Ha. reflexivity.
Qed.

(** ** The buffer, sample by sample *)
Lemma nth_error_firstn {A} (l : list A) n k : (k < n)%nat -> nth_error (firstn n l) k = nth_error l k.
Proof.
  revert n k. induction l as [|a l IH]; intros [|n] [|k] H; cbn; try reflexivity; try lia.
  apply IH. lia.
Qed.
Lemma nth_error_skipn {A} (l : list A) n k : nth_error (skipn n l) k = nth_error l (n + k).
Proof.
  revert l. induction n as [|n IH]; intros l; cbn; [reflexivity|]. destruct l; cbn; [destruct k; reflexivity|apply IH].
Qed.

Lemma sample_data {T} (img : image T) x y c : inside img x y -> 0 <= c < channels (info_of img) ->
  sample img x y c = nth_error (data img) (Z.to_nat ((y * width (info_of img) + x) * channels (info_of img) + c)).
Proof.
  intros [Hx Hy] Hc. unfold sample, pixel_at. rewrite nth_error_firstn by lia. rewrite nth_error_skipn.
  f_equal. symmetry. apply Z2Nat.inj_add; [|lia].
  apply Z.mul_nonneg_nonneg; [|lia]. apply Z.add_nonneg_nonneg; [apply Z.mul_nonneg_nonneg; lia|lia].
Qed.

(** every buffer position is a sample of a pixel *)
Lemma data_sample {T} (img : image T) j : wf img -> 0 <= j < len (data img) ->
  let C := channels (info_of img) in let W := width (info_of img) in
  0 < C /\ 0 <= j mod C < C /\ inside img (j / C mod W) (j / C / W)
  /\ j = (j / C / W * W + j / C mod W) * C + j mod C.
Proof.
  intros Hwf Hj C W. pose proof Hwf as [Hw Hh Hc _ _ Hd]. fold C W in Hw, Hc, Hd.
  rewrite Hd in Hj.
  assert (0 < C) by nia. assert (0 < W) by nia.
  split; [assumption|]. split; [apply Z.mod_pos_bound; assumption|].
  pose proof (Z.div_mod j C). pose proof (Z.mod_pos_bound j C).
  assert (0 <= j / C < W * height (info_of img)).
  { split; [apply Z.div_pos; lia|]. apply Z.div_lt_upper_bound; nia. }
  destruct (pos_surj W (height (info_of img)) (j / C)) as [? [? E]]; try lia.
  split; [split; assumption|]. rewrite <- E. lia.
Qed.

Lemma recolored_data {T S} (f g : T -> S) (img : image T) out : wf img -> recolored f g img out ->
  forall j, 0 <= j -> nth_error (data out) (Z.to_nat j)
    = option_map (fun s => if is_alpha (info_of img) (j mod channels (info_of img)) then g s else f s)
                 (nth_error (data img) (Z.to_nat j)).
Proof.
  intros Hwf [Hi [Hw H]] j Hj.
  destruct (Z_lt_le_dec j (len (data img))) as [Hlt|Hge].
  - destruct (data_sample img j Hwf) as [HC [Hc [Hin E]]]; [lia|].
    assert (Es : nth_error (data img) (Z.to_nat j)
                 = sample img (j / channels (info_of img) mod width (info_of img))
                          (j / channels (info_of img) / width (info_of img)) (j mod channels (info_of img))).
    { rewrite sample_data by assumption. f_equal. f_equal. exact E. }
    destruct (nth_error (data img) (Z.to_nat j)) as [s|] eqn:Ed.
    2: { apply nth_error_None in Ed. unfold len in Hlt. lia. }
    cbn [option_map]. symmetry in Es. pose proof (H _ _ _ _ Hin (proj1 Hc) Es) as Ho.
    rewrite sample_data in Ho by (try (unfold inside; rewrite Hi; exact Hin); rewrite Hi; exact Hc).
    rewrite Hi in Ho. rewrite <- E in Ho. exact Ho.
  - assert (len (data out) = len (data img)) by (rewrite (wf_data _ Hwf), (wf_data _ Hw), Hi; reflexivity).
    rewrite (proj2 (nth_error_None (data img) (Z.to_nat j))) by (unfold len in *; lia).
    cbn. apply nth_error_None. unfold len in *. lia.
Qed.

Lemma nth_error_ext {A} (u v : list A) : (forall k, nth_error u k = nth_error v k) -> u = v.
Proof.
  revert v. induction u as [|a u IH]; intros [|b v] H; try reflexivity.
  - specialize (H 0%nat). discriminate.
  - specialize (H 0%nat). discriminate.
  - f_equal; [specialize (H 0%nat); cbn in H; congruence|]. apply IH. intros k. apply (H (S k)).
Qed.

Lemma data_recolored {T S} (f g : T -> S) (img : image T) out : wf img -> wf out -> info_of out = info_of img ->
  (forall j, 0 <= j < len (data img) -> nth_error (data out) (Z.to_nat j)
    = option_map (fun s => if is_alpha (info_of img) (j mod channels (info_of img)) then g s else f s)
                 (nth_error (data img) (Z.to_nat j))) ->
  recolored f g img out.
Proof.
  intros Hwf Hw Hi H. split; [exact Hi|]. split; [exact Hw|]. intros x y c s Hin Hc Hs.
  assert (HcC : 0 <= c < channels (info_of img)).
  { split; [exact Hc|]. pose proof Hs as Hs'. unfold sample in Hs'.
    assert (Hl : (Z.to_nat c < length (pixel_at img x y))%nat) by (apply nth_error_Some; congruence).
    pose proof (pixel_at_len img Hwf x y Hin) as Hp. unfold len in Hp. lia. }
  rewrite sample_data in Hs by assumption.
  rewrite sample_data by (unfold inside; rewrite Hi; assumption). rewrite Hi.
  set (j := (y * width (info_of img) + x) * channels (info_of img) + c) in *.
  assert (Hj : 0 <= j < len (data img)).
  { assert (Hj0 : 0 <= j).
    { destruct Hin. unfold j. apply Z.add_nonneg_nonneg; [|lia].
      apply Z.mul_nonneg_nonneg; [|lia]. apply Z.add_nonneg_nonneg; [apply Z.mul_nonneg_nonneg; lia|lia]. }
    split; [exact Hj0|].
    assert (Hlt : (Z.to_nat j < length (data img))%nat) by (apply nth_error_Some; congruence).
    unfold len. lia. }
  rewrite (H j Hj), Hs. cbn [option_map]. unfold j. rewrite Z.add_comm, Z.mod_add, Z.mod_small by lia. reflexivity.
Qed.

Lemma recolored_unique {T S} (f g : T -> S) (img : image T) o1 o2 : wf img ->
  recolored f g img o1 -> recolored f g img o2 -> o1 = o2.
Proof.
  intros Hwf H1 H2. apply image_eq.
  - destruct H1 as [-> _], H2 as [-> _]. reflexivity.
  - apply nth_error_ext. intros k. replace k with (Z.to_nat (Z.of_nat k)) by lia.
    rewrite (recolored_data f g img o1), (recolored_data f g img o2) by (assumption || lia). reflexivity.
Qed.

(** ** pixel maps *)
Lemma map_if_alpha_repixeled p {T S} (img : image T) (f : list T -> outcome (list S)) (g : T -> outcome S)
    (f' : list T -> list S) (g' : T -> S) k :
  wf img -> 0 < width (info_of img) * height (info_of img) ->
  0 <= k <= 254 -> width (info_of img) * height (info_of img) * (k + if alpha (info_of img) then 1 else 0) <= u32_max ->
  alpha (info_of img) = false \/ 0 < channels (info_of img) ->
  (forall cs, len cs = colors (info_of img) -> (forall s, In s cs -> In s (data img)) -> f cs = Ret (f' cs) /\ len (f' cs) = k) ->
  (forall s, In s (data img) -> g s = Ret (g' s)) ->
  exists out, map_pixels_if_alpha p f g img = Ret out /\ repixeled f' g' k img out.
Proof.
  intros Hwf Hpos Hk Hfit HC Hf Hg. unfold repixeled, colors in *. destruct (alpha (info_of img)) eqn:Ha.
  - destruct HC as [|HC]; [discriminate|].
    set (G := fun x y => f' (removelast (pixel_at img x y))
                         ++ match rev (pixel_at img x y) with a :: _ => [g' a] | [] => [] end).
    assert (HG : forall x y cs a, pixel_at img x y = cs ++ [a] -> G x y = f' cs ++ [g' a]).
    { intros x y cs a E. unfold G. rewrite E, removelast_last, rev_app_distr. reflexivity. }
    assert (Hpx : forall x y cs a, inside img x y -> pixel_at img x y = cs ++ [a] ->
       (f cs = Ret (f' cs) /\ len (f' cs) = k) /\ g a = Ret (g' a)).
    { intros x y cs a Hin E.
      assert (Hd : forall s, In s (cs ++ [a]) -> In s (data img))
        by (intros s Hs; rewrite <- E in Hs; apply (pixel_in_data _ _ _ _ Hs)).
      split.
      - apply Hf.
        + pose proof (pixel_at_len img Hwf x y Hin) as Hl. rewrite E, len_app in Hl. change (len [a]) with 1 in Hl. lia.
        + intros s Hs. apply Hd, in_or_app. left. exact Hs.
      - apply Hg, Hd, in_or_app. right. left. reflexivity. }
    exists (of_fun (Info (width (info_of img)) (height (info_of img)) (k + 1) true) G).
    assert (Hio : info_ok (Info (width (info_of img)) (height (info_of img)) (k + 1) true)).
    { destruct (wf_info_ok _ Hwf) as (?&?&?&?&?). unfold info_ok; cbn. conj; try lia. }
    assert (Hlen : forall x y, 0 <= x < width (info_of img) -> 0 <= y < height (info_of img) -> len (G x y) = k + 1).
    { intros x y Hx Hy. destruct (pixel_split img x y Hwf (conj Hx Hy) HC) as [cs [a [E _]]].
      rewrite (HG x y cs a E), len_app. destruct (Hpx x y cs a (conj Hx Hy) E) as [[_ ->] _]. reflexivity. }
    split.
    + apply map_pixels_if_alpha_ok; auto. intros x y cs a Hin E.
      destruct (Hpx x y cs a Hin E) as [[E1 E2] E3]. exists (f' cs), (g' a). conj; auto.
    + split; [apply of_fun_wf; [exact Hio|exact Hlen]|]. split; [reflexivity|].
      intros x y [Hx Hy] cs a E. rewrite pixel_at_of_fun; auto.
  - exists (of_fun (Info (width (info_of img)) (height (info_of img)) k false) (fun x y => f' (pixel_at img x y))).
    assert (Hpx : forall x y, inside img x y -> f (pixel_at img x y) = Ret (f' (pixel_at img x y)) /\ len (f' (pixel_at img x y)) = k).
    { intros x y Hin. apply Hf; [rewrite (pixel_at_len img Hwf x y Hin); lia|]. intros s. apply pixel_in_data. }
    rewrite Z.add_0_r in *.
    assert (Hio : info_ok (Info (width (info_of img)) (height (info_of img)) k false)).
    { destruct (wf_info_ok _ Hwf) as (?&?&?&?&?). unfold info_ok; cbn. conj; try lia. }
    split.
    + unfold map_pixels_if_alpha. rewrite Ha. cbn [negb]. rewrite <- Ha.
      apply map_pixels_ok; auto; lia.
    + split; [apply of_fun_wf; [exact Hio|intros x y Hx Hy; apply Hpx; split; assumption]|]. split; [reflexivity|].
      intros x y [Hx Hy]. rewrite pixel_at_of_fun; auto. intros x' y' Hx' Hy'. apply Hpx. split; assumption.
Qed.

Lemma repixeled_unique {T S} (f : list T -> list S) (g : T -> S) k (img : image T) o1 o2 : wf img ->
  alpha (info_of img) = false \/ 0 < channels (info_of img) ->
  repixeled f g k img o1 -> repixeled f g k img o2 -> o1 = o2.
Proof.
  intros Hwf HC [W1 [I1 P1]] [W2 [I2 P2]]. apply image_ext; auto; [congruence|].
  intros x y Hin. assert (Hin' : inside img x y) by (unfold inside in *; rewrite I1 in Hin; exact Hin).
  specialize (P1 x y Hin'). specialize (P2 x y Hin'). destruct (alpha (info_of img)).
  - destruct HC as [|HC]; [discriminate|]. destruct (pixel_split img x y Hwf Hin' HC) as [cs [a [E _]]].
    rewrite (P1 cs a E), (P2 cs a E). reflexivity.
  - congruence.
Qed.

(** the samples of a re-pixeled image *)
Lemma samples_pixels {T} (P : T -> Prop) (img : image T) : wf img ->
  (forall x y, inside img x y -> Forall P (pixel_at img x y)) -> samples P img.
Proof.
  intros Hwf H. apply Forall_forall. intros s Hs. apply In_nth_error in Hs as [k Hk].
  assert (Hj : 0 <= Z.of_nat k < len (data img)).
  { split; [lia|]. assert (k < length (data img))%nat by (apply nth_error_Some; congruence). unfold len. lia. }
  destruct (data_sample img (Z.of_nat k) Hwf Hj) as [HC [Hc [Hin E]]].
  assert (Es := sample_data img _ _ _ Hin Hc). rewrite <- E, Nat2Z.id, Hk in Es.
  pose proof (H _ _ Hin) as HF. rewrite Forall_forall in HF. apply HF. apply nth_error_In in Es. exact Es.
Qed.
Lemma pixels_samples {T} (P : T -> Prop) (img : image T) x y : samples P img -> Forall P (pixel_at img x y).
Proof. intros H. apply Forall_forall. intros s Hs. unfold samples in H. rewrite Forall_forall in H. apply H. apply (pixel_in_data _ _ _ _ Hs). Qed.

(** an image with k colour channels is, pixel by pixel, k colour samples followed by an alpha sample or nothing *)
Lemma pixel_colors {T} (img : image T) x y : wf img -> inside img x y ->
  alpha (info_of img) = false \/ 0 < channels (info_of img) ->
  exists cs rest, pixel_at img x y = cs ++ rest /\ len cs = colors (info_of img)
    /\ length rest = if alpha (info_of img) then 1%nat else 0%nat.
Proof.
  intros Hwf Hin HC. unfold colors. destruct (alpha (info_of img)).
  - destruct HC as [|HC]; [discriminate|]. destruct (pixel_split img x y Hwf Hin HC) as [cs [a [E Hl]]].
    exists cs, [a]. auto.
  - exists (pixel_at img x y), []. rewrite app_nil_r, (pixel_at_len img Hwf x y Hin). conj; auto; lia.
Qed.

Lemma repixeled_pixel {T S} (f : list T -> list S) (g : T -> S) k (img : image T) out x y cs rest :
  repixeled f g k img out -> inside img x y -> pixel_at img x y = cs ++ rest ->
  length rest = (if alpha (info_of img) then 1%nat else 0%nat) -> pixel_at out x y = f cs ++ map g rest.
Proof.
  intros [_ [_ H]] Hin E Hl. specialize (H x y Hin). destruct (alpha (info_of img)).
  - destruct rest as [|a [|? ?]]; try discriminate. apply H. exact E.
  - destruct rest; [|discriminate]. rewrite app_nil_r in E. cbn [map]. rewrite app_nil_r. congruence.
Qed.

Lemma repixeled_info {T S} (f : list T -> list S) (g : T -> S) k (img : image T) out :
  repixeled f g k img out -> colors (info_of img) = k -> info_of out = info_of img.
Proof.
  intros [_ [-> _]] Hk. unfold colors in Hk. destruct (info_of img) as [w h c a]; cbn in *. f_equal. lia.
Qed.
Lemma repixeled_inside {T S} (f : list T -> list S) (g : T -> S) k (img : image T) out x y :
  repixeled f g k img out -> inside out x y <-> inside img x y.
Proof. intros [_ [E _]]. unfold inside. rewrite E. reflexivity. Qed.

Lemma map_if_alpha_panic p {T S} (img : image T) (f : list T -> outcome (list S)) (g : T -> outcome S) :
  wf img -> 0 < width (info_of img) * height (info_of img) ->
  (forall cs, len cs = colors (info_of img) -> f cs = Panic) ->
  map_pixels_if_alpha p f g img = Panic.
Proof.
  intros Hwf Hne Hf. pose proof (wf_c _ Hwf). unfold map_pixels_if_alpha, colors in *.
  assert (H0 : 0 <= 0 < width (info_of img) * height (info_of img)) by lia.
  assert (Hin : forall i, In i (zrange 0 (width (info_of img) * height (info_of img))) -> exists px,
     img_index p img i = Ret px /\ len px = channels (info_of img)).
  { intros i Hi. apply in_zrange in Hi. rewrite img_index_ok by assumption.
    destruct (linear_inside img i Hwf Hi) as [Hin ->]. eexists. split; [reflexivity|]. apply pixel_at_len; assumption. }
  destruct (alpha (info_of img)); cbn [negb].
  - rewrite size_ok by exact Hwf. cbn [bind].
    rewrite (mmap_panic _ _ 0); [reflexivity|apply in_zrange; lia| |].
    + destruct (Hin 0) as [px [-> Hl]]; [apply in_zrange; lia|]. cbn [bind].
      destruct (Z.eq_dec (channels (info_of img)) 0) as [E|E].
      * destruct px as [|? ?]; [|unfold len in Hl; cbn in Hl; lia]. rewrite px_cwa_nil. reflexivity.
      * destruct (split_last px _ Hl) as [cs [a [-> Hl']]]; [lia|]. rewrite px_cwa_app by lia. cbn [bind].
        rewrite Hf by lia. reflexivity.
    + intros i Hi. right. destruct (Hin i Hi) as [px [-> Hl]]. cbn [bind].
      destruct (Z.eq_dec (channels (info_of img)) 0) as [E|E].
      * destruct px as [|? ?]; [|unfold len in Hl; cbn in Hl; lia]. rewrite px_cwa_nil. reflexivity.
      * destruct (split_last px _ Hl) as [cs [a [-> Hl']]]; [lia|]. rewrite px_cwa_app by lia. cbn [bind].
        rewrite Hf by lia. reflexivity.
  - unfold map_pixels. rewrite size_ok by exact Hwf. cbn [bind].
    rewrite (mmap_panic _ _ 0); [reflexivity|apply in_zrange; lia| |].
    + destruct (Hin 0) as [px [-> Hl]]; [apply in_zrange; lia|]. cbn [bind]. apply Hf. lia.
    + intros i Hi. right. destruct (Hin i Hi) as [px [-> Hl]]. cbn [bind]. apply Hf. lia.
Qed.

Lemma nth_pixel {T} (img : image T) x y c d : inside img x y -> 0 <= c < channels (info_of img) ->
  nth (Z.to_nat c) (pixel_at img x y) d
  = nth (Z.to_nat ((y * width (info_of img) + x) * channels (info_of img) + c)) (data img) d.
Proof.
  intros Hin Hc. pose proof (sample_data img x y c Hin Hc) as E. unfold sample in E.
  destruct (nth_error (pixel_at img x y) (Z.to_nat c)) as [s|] eqn:E1.
  - rewrite (nth_error_nth _ _ _ E1). symmetry in E. rewrite (nth_error_nth _ _ _ E). reflexivity.
  - apply nth_error_None in E1. symmetry in E. apply nth_error_None in E. rewrite !nth_overflow by assumption. reflexivity.
Qed.
