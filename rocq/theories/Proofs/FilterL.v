(** Lemmas for src/filter/mod.rs. *)
From Verif.Model Require Export Filter.
From Verif.Spec Require Export FilterS.
From Verif.Proofs Require Export Safe ImageOps ImageProps TransformL LoopL.
Open Scope Z_scope.

(** dropping a component of the loop state that does not influence the rest *)
Lemma mfold_fst {A S Q} (f : S * Q -> A -> outcome (S * Q)) (g : S -> A -> outcome S) l s q :
  (forall s q a, bind (f (s, q) a) (fun r => Ret (fst r)) = g s a) ->
  bind (mfold f l (s, q)) (fun r => Ret (fst r)) = mfold g l s.
Proof.
  intros H. revert s q. induction l as [|a l IH]; intros s q; cbn [mfold]; [reflexivity|].
  rewrite <- (H s q a). destruct (f (s, q) a) as [[s' q']| | |]; cbn [bind fst]; auto.
Qed.

Lemma push_zeros {A} (z : A) n : mfold (fun out _ => Ret (out ++ [z])) (zrange 0 n) [] = Ret (repeat z (Z.to_nat n)).
Proof.
  rewrite (mfold_push (fun _ => Ret z)). rewrite (mmap_Ret _ (fun _ => z)) by reflexivity. cbn [bind app].
  f_equal. rewrite <- (Z.sub_0_r n) at 2. rewrite <- (zrange_length 0 n).
  induction (zrange 0 n); cbn; congruence.
Qed.

Lemma apply_1d_seq_par p s out k : apply_1d_kernel_seq p s out k = apply_1d_kernel_par p s k.
Proof.
  unfold apply_1d_kernel_seq, apply_1d_kernel_par. apply bind_ext. intros sz _.
  apply bind_ext. intros _ _. apply bind_ext. intros _ _. rewrite push_zeros. reflexivity.
Qed.
Lemma apply_2d_seq_par p s out k : apply_2d_kernel_seq p s out k = apply_2d_kernel_par p s k.
Proof.
  unfold apply_2d_kernel_seq, apply_2d_kernel_par.
  apply bind_ext. intros _ _. apply bind_ext. intros sq _. apply bind_ext. intros _ _. rewrite push_zeros. reflexivity.
Qed.

(** ** the taps *)
Definition tap_value (k : list f32) (P : Z -> list f32) (l : list Z) (j : Z) (a : f32) : f32 :=
  fold_left (fun acc i => f32_add acc (f32_mul (weight k i) (nth (Z.to_nat j) (P i) f32_0))) l a.

Lemma kernel_tap_ok s k i out px :
  0 <= i < len k -> sub_index s i = Ret px -> len px = len out ->
  kernel_tap s k i out
  = Ret (map (fun j => f32_add (nth (Z.to_nat j) out f32_0) (f32_mul (weight k i) (nth (Z.to_nat j) px f32_0))) (zrange 0 (len out))).
Proof.
  intros Hi Hs Hl. unfold kernel_tap.
  transitivity (mmap (fun j => Ret (f32_add (nth (Z.to_nat j) out f32_0) (f32_mul (weight k i) (nth (Z.to_nat j) px f32_0)))) (zrange 0 (len out))).
  - rewrite <- (fill_loop (fun j o => Ret (f32_add o (f32_mul (weight k i) (nth (Z.to_nat j) px f32_0))))).
    apply (mfold_ext_inv (fun o => len o = len out)); [reflexivity| |].
    + intros o j Ho Hj. apply in_zrange in Hj.
      rewrite (vget_ok k i f32_0 Hi), Hs. cbn [bind].
      rewrite (vget_ok px j f32_0) by lia. cbn [bind].
      rewrite (vget_ok o j f32_0) by lia. cbn [bind]. rewrite vset_ok by lia. reflexivity.
    + intros o j o' Ho Hj E. cbn [bind] in E. injection E as <-. rewrite len_upd. exact Ho.
  - apply mmap_Ret. reflexivity.
Qed.

Lemma taps_ok s k (P : Z -> list f32) (C : Z) (l : list Z) (out : list f32) :
  (forall i, In i l -> 0 <= i < len k /\ sub_index s i = Ret (P i) /\ len (P i) = C) -> len out = C ->
  mfold (fun out i => kernel_tap s k i out) l out
  = Ret (map (fun j => tap_value k P l j (nth (Z.to_nat j) out f32_0)) (zrange 0 C)).
Proof.
  revert out. induction l as [|i l IH]; intros out Hl HC; cbn [mfold].
  - f_equal. cbn [tap_value fold_left]. rewrite <- HC. symmetry. apply map_zrange_nth.
  - destruct (Hl i (or_introl eq_refl)) as [Hi [Hs Hp]].
    rewrite (kernel_tap_ok s k i out (P i)) by (auto; congruence). cbn [bind].
    pose proof (len_nonneg out).
    rewrite IH; [|intros; apply Hl; right; assumption|rewrite len_map, len_zrange by lia; lia].
    f_equal. apply map_ext_in. intros j Hj. apply in_zrange in Hj. cbn [tap_value fold_left].
    rewrite nth_map_zrange by lia. reflexivity.
Qed.

Lemma apply_2d_flat p s k sz out : 0 <= sz <= 65535 ->
  apply_2d_loop p s k sz out = mfold (fun out i => kernel_tap s k i out) (zrange 0 (sz * sz)) out.
Proof.
  intros Hs. unfold apply_2d_loop.
  assert (G : forall n, 0 <= n <= sz -> mfold (fun out y => mfold (fun out x =>
        let! a := imul p USIZE y sz in let! ix := iadd p USIZE a x in
        kernel_tap s k ix out) (zrange 0 sz) out) (zrange 0 n) out
     = mfold (fun out i => kernel_tap s k i out) (zrange 0 (n * sz)) out).
  { intros n Hn. revert Hn.
    destruct (Z_le_gt_dec 0 n) as [H0|H0]; [|lia]. pattern n.
    apply (zrange_ind _ 0 n H0).
    - intros _. reflexivity.
    - intros j Hj IH Hjs. rewrite zrange_snoc by lia. rewrite mfold_app, IH by lia.
      rewrite (zrange_app 0 (j * sz) ((j + 1) * sz)) by nia. rewrite mfold_app.
      apply bind_ext. intros o _. cbn [mfold].
      rewrite (zrange_shift (j * sz)), mfold_map. replace ((j + 1) * sz - j * sz) with sz by lia.
      match goal with |- bind ?m _ = _ => transitivity m; [destruct m; reflexivity|] end.
      apply mfold_ext. intros o' x Hx. apply in_zrange in Hx.
      assert (0 <= j * sz <= 4294836225) by nia.
      rewrite imul_ok by ity_lia. cbn [bind]. rewrite iadd_ok by ity_lia. reflexivity. }
  apply G. lia.
Qed.

(** ** safety *)
Lemma safe_nb_coord p c sz i bound : safe (fun _ => True) (nb_coord p c sz i bound).
Proof.
  unfold nb_coord. eapply safe_bind with (Q := fun _ => True).
  { unfold idiv, arith. repeat match goal with |- safe _ (if ?b then _ else _) => destruct b end; cbn; auto; destruct p; cbn; auto. }
  intros h _. eapply safe_bind; [apply safe_arith|]. intros a _. eapply safe_bind; [apply safe_arith|]. intros b _. exact I.
Qed.

Lemma safe_nb_1d p (img : image f32) x y sz (v : bool) :
  0 <= channels (info_of img) <= 255 ->
  safe (fun s : subimage f32 => sub_info s = if v then Info 1 sz (channels (info_of img)) (alpha (info_of img))
                              else Info sz 1 (channels (info_of img)) (alpha (info_of img)))
       (get_neighborhood_1d p img x y sz v).
Proof.
  intros HC. unfold get_neighborhood_1d. eapply safe_bind; [apply safe_check_xy|]. intros _ _.
  destruct v; (apply (safe_bind (fun _ => True)); [|intros d _; reflexivity]);
  (eapply safe_weaken; [apply (safe_mmap (fun _ => True))|auto]; intros k _;
   eapply safe_bind; [apply safe_nb_coord|]; intros c _; eapply safe_weaken; [apply safe_get_pixel; lia|auto]).
Qed.
Lemma safe_nb_2d p (img : image f32) x y sz :
  0 <= channels (info_of img) <= 255 ->
  safe (fun s : subimage f32 => sub_info s = Info sz sz (channels (info_of img)) (alpha (info_of img)))
       (get_neighborhood_2d p img x y sz).
Proof.
  intros HC. unfold get_neighborhood_2d. eapply safe_bind; [apply safe_check_xy|]. intros _ _.
  apply (safe_bind (fun _ => True)); [|intros d _; reflexivity].
  eapply safe_weaken; [apply (safe_mmap (fun _ => True))|auto]; intros k _.
  eapply safe_weaken; [apply (safe_mmap (fun _ => True))|auto]; intros j _.
  eapply safe_bind; [apply safe_nb_coord|]; intros c _. eapply safe_bind; [apply safe_nb_coord|]; intros c' _.
  eapply safe_weaken; [apply safe_get_pixel; lia|auto].
Qed.

Lemma safe_kernel_tap s k i out C : len out = C -> safe (fun o : list f32 => len o = C) (kernel_tap s k i out).
Proof.
  intros HC. unfold kernel_tap. apply safe_mfold; [exact HC|].
  intros o j Ho _. eapply safe_bind; [apply safe_vget|]. intros a _. eapply safe_bind; [apply safe_vget|]. intros px _.
  eapply safe_bind; [apply safe_vget|]. intros v _. eapply safe_bind; [apply safe_vget|]. intros o1 _.
  eapply safe_weaken; [apply safe_vset|]. unfold len in *. intros o2 ->. exact Ho.
Qed.

Definition odd_len (k : list f32) : Prop := Z.odd (len k) = true.

Lemma check_odd_ok p t v : lo t = 0 -> 2 <= hi t -> 0 <= v <= hi t ->
  check_odd p (num_int t) v = if Z.odd v then Ret tt else Fail InvalidArgError.
Proof.
  intros Hlo Hhi Hv. unfold check_odd, n_zero. cbn [n_rem n_of_u8 n_eqb num_int].
  rewrite irem_ok by (unfold in_ity; lia). cbn [bind].
  rewrite Zmod_odd.
  destruct (Z.odd v); reflexivity.
Qed.

Lemma apply_1d_safe p s k sz C : 0 <= C -> odd_len k -> len k = sz -> sz <= u32_max ->
  (exists a, sub_info s = Info 1 sz C a \/ sub_info s = Info sz 1 C a) ->
  apply_1d_kernel_par p s k = mfold (fun out i => kernel_tap s k i out) (zrange 0 sz) (repeat f32_0 (Z.to_nat C))
  /\ safe (fun o : list f32 => len o = C) (apply_1d_kernel_par p s k).
Proof.
  intros HC Ho Hk Hs [a Ha]. pose proof (len_nonneg k). unfold u32_max in *.
  assert (E : apply_1d_kernel_par p s k = mfold (fun out i => kernel_tap s k i out) (zrange 0 sz) (repeat f32_0 (Z.to_nat C))).
  { unfold apply_1d_kernel_par, size. unfold odd_len in Ho.
    destruct Ha as [-> | ->]; cbn [width height channels];
    rewrite imul_ok by ity_lia; cbn [bind];
    rewrite check_odd_ok, Ho by ity_lia; cbn [bind]; unfold check_equal_Z;
    rewrite (proj2 (Z.eqb_eq _ _)) by lia; cbn [bind]; rewrite ?Z.mul_1_r, ?Z.mul_1_l; reflexivity. }
  split; [exact E|]. rewrite E. apply safe_mfold; [unfold len; rewrite repeat_length; lia|].
  intros o i Hl _. apply safe_kernel_tap. exact Hl.
Qed.

Lemma apply_2d_safe p s k sz C : 0 <= C -> odd_len k -> len k = sz * sz -> 0 <= sz <= 65535 ->
  (exists a, sub_info s = Info sz sz C a) ->
  apply_2d_kernel_par p s k = mfold (fun out i => kernel_tap s k i out) (zrange 0 (sz * sz)) (repeat f32_0 (Z.to_nat C))
  /\ safe (fun o : list f32 => len o = C) (apply_2d_kernel_par p s k).
Proof.
  intros HC Ho Hk Hs [a Ha].
  assert (E : apply_2d_kernel_par p s k = mfold (fun out i => kernel_tap s k i out) (zrange 0 (sz * sz)) (repeat f32_0 (Z.to_nat C))).
  { assert (0 <= sz * sz <= 4294836225) by nia. unfold odd_len in Ho.
    unfold apply_2d_kernel_par. rewrite Ha. cbn [width channels].
    rewrite check_odd_ok, Ho by ity_lia. cbn [bind]. rewrite imul_ok by ity_lia. cbn [bind].
    unfold check_equal_Z. rewrite (proj2 (Z.eqb_eq _ _)) by lia. cbn [bind].
    apply apply_2d_flat. lia. }
  split; [exact E|]. rewrite E. apply safe_mfold; [unfold len; rewrite repeat_length; lia|].
  intros o i Hl _. apply safe_kernel_tap. exact Hl.
Qed.


Lemma unwrap_safe {A} (Q : A -> Prop) (m : outcome A) : safe Q m -> unwrap m = m.
Proof. destruct m; cbn; auto; contradiction. Qed.

(** both builds as one map over the pixels *)
Lemma scan_eq p b n (img : image f32) (nb : Z -> Z -> outcome (subimage f32)) (seq : subimage f32 -> list f32 -> outcome (list f32))
    (par : subimage f32 -> outcome (list f32)) (inf := info_of img) :
  wf img -> scheduled b inf ->
  (forall s o, seq s o = par s) ->
  (forall x y, 0 <= x < width inf -> 0 <= y < height inf ->
     safe (fun s : subimage f32 => safe (fun o : list f32 => len o = channels inf) (par s)) (nb x y)) ->
  (match b with
   | Seq =>
        let! output := blank p num_f32 inf in
        let! '(output, _) :=
          mfold (fun '(output, p_out) y => mfold (fun '(output, p_out) x =>
              let! s := nb x y in
              let! p_out := seq s p_out in
              let! output := set_pixel p output x y p_out in
              Ret (output, p_out)) (zrange 0 (width inf)) (output, p_out))
            (zrange 0 (height inf)) (output, []) in
        Ret output
   | Par sched =>
        let! sz := size p inf in
        let! d := par_collect (sched n) sz (fun i =>
            let! '(x, y) := get_2d_coords p i (width inf) in
            let! s := nb x y in
            unwrap (par s)) in
        from_vec_of_vec p (width inf) (height inf) (channels inf) (alpha inf) d
   end)
  = let! d := mmap (fun i => let! s := nb (i mod width inf) (i / width inf) in par s) (zrange 0 (width inf * height inf)) in
    Ret (Image inf (concat d)).
Proof.
  intros Hwf Hsch Hsp Hsafe. pose proof (wf_info_ok _ Hwf) as Hok. change (info_ok inf) in Hok. clearbody inf.
  assert (Hs : forall x y, 0 <= x < width inf -> 0 <= y < height inf ->
     safe (fun px : list f32 => len px = channels inf) (let! s := nb x y in par s)).
  { intros x y Hx Hy. eapply safe_bind; [apply Hsafe; assumption|]. auto. }
  destruct b as [|sched].
  - rewrite (blank_ok p num_f32 inf Hok), bind_Ret. pose proof (blank_wf num_f32 inf Hok) as Hw.
    set (o := Image inf (repeat (n_zero num_f32) (Z.to_nat (width inf * height inf * channels inf)))) in *.
    assert (Hi : info_of o = inf) by reflexivity.
    rewrite <- (loop_eq p inf (fun x y => let! s := nb x y in par s) o Hw Hi Hs).
    transitivity (bind (mfold (fun '(output, p_out) y => mfold (fun '(output, p_out) x =>
              let! s := nb x y in
              let! p_out := seq s p_out in
              let! output := set_pixel p output x y p_out in
              Ret (output, p_out)) (zrange 0 (width inf)) (output, p_out))
            (zrange 0 (height inf)) (o, [])) (fun r => Ret (fst r))).
    { apply bind_ext. intros [? ?] _. reflexivity. }
    apply mfold_fst. intros o1 q1 y.
    apply (mfold_fst (fun '(output, p_out) x =>
              let! s := nb x y in
              let! p_out := seq s p_out in
              let! output := set_pixel p output x y p_out in
              Ret (output, p_out))).
    intros o2 q2 x. destruct (nb x y) as [s| | |]; cbn [bind]; auto. rewrite Hsp.
    destruct (par s) as [px| | |]; cbn [bind]; auto.
    destruct (set_pixel p o2 x y px); reflexivity.
  - assert (Hsize : size p inf = Ret (width inf * height inf)).
    { destruct Hok as [? [? [? [? ?]]]]. unfold size. unfold u32_max in *. assert (0 <= width inf * height inf) by nia. apply imul_ok. ity_lia. }
    rewrite Hsize, bind_Ret.
    rewrite <- (par_loop_eq p (sched n) inf (fun x y => let! s := nb x y in par s) Hok (Hsch n) Hs).
    assert (Hpc : par_collect (sched n) (width inf * height inf) (fun i =>
            let! '(x, y) := get_2d_coords p i (width inf) in let! s := nb x y in unwrap (par s))
      = par_collect (sched n) (width inf * height inf) (fun i =>
            let! '(x, y) := get_2d_coords p i (width inf) in let! s := nb x y in par s)).
    { unfold par_collect. f_equal. apply mfold_ext. intros sl k Hk.
      apply (Permutation_in _ (Hsch n)), in_zrange in Hk. destruct Hok as [? [? [? [? ?]]]].
      assert (0 < width inf) by nia.
      rewrite get_2d_coords_ok by (unfold u32_max in *; lia). cbn [bind]. 
      destruct (pos_surj (width inf) (height inf) k) as [Hx [Hy _]]; try lia.
      specialize (Hsafe _ _ Hx Hy). destruct (nb _ _) as [s| | |]; cbn [bind]; auto. cbn [safe] in Hsafe.
      rewrite (unwrap_safe _ _ Hsafe). reflexivity. }
    rewrite Hpc. apply bind_ext. intros d _. unfold from_vec_of_vec.
    unfold size in Hsize. rewrite Hsize, bind_Ret. destruct Hok as [? [? [? [? ?]]]]. unfold u32_max in *.
    assert (0 <= width inf * height inf) by nia. assert (0 <= width inf * height inf * channels inf) by nia.
    rewrite imul_ok by ity_lia. cbn [bind]. f_equal. destruct inf as [w h c a]. cbn. f_equal.
    assert (forall (d : list (list f32)) acc, fold_left (fun acc v => acc ++ v) d acc = acc ++ concat d) as G.
    { induction d0 as [|v d0 IH]; intros acc; cbn; [rewrite app_nil_r; reflexivity|]. rewrite IH, app_assoc. reflexivity. }
    apply G.
Qed.

Definition nb_1d p (img : image f32) (k : list f32) v x y := get_neighborhood_1d p img x y (len k) v.

Lemma filter_1d_eq p b n (img : image f32) k v :
  wf img -> odd_len k -> len k <= u32_max -> scheduled b (info_of img) ->
  filter_1d p b n img k v
  = let! d := mmap (fun i => let! s := nb_1d p img k v (i mod width (info_of img)) (i / width (info_of img)) in apply_1d_kernel_par p s k)
                   (zrange 0 (width (info_of img) * height (info_of img))) in
    Ret (Image (info_of img) (concat d)).
Proof.
  intros Hwf Ho Hk Hsch. unfold filter_1d. pose proof (len_nonneg k). unfold u32_max in *.
  rewrite check_odd_ok by ity_lia. unfold odd_len in Ho. rewrite Ho. cbn [bind].
  rewrite cast_id by ity_lia.
  apply (scan_eq p b n img (nb_1d p img k v) (fun s o => apply_1d_kernel_seq p s o k) (fun s => apply_1d_kernel_par p s k)); auto.
  - intros s o. apply apply_1d_seq_par.
  - intros x y _ _. eapply safe_weaken; [apply safe_nb_1d; apply (wf_c _ Hwf)|].
    cbv beta. intros s Hs. pose proof (wf_c _ Hwf).
    apply (apply_1d_safe p s k (len k)); auto; try lia.
    exists (alpha (info_of img)). rewrite Hs. destruct v; auto.
Qed.

Lemma unseparable_eq p b n (img : image f32) k sz :
  wf img -> odd_len k -> len k = sz * sz -> 0 <= sz <= 65535 -> scheduled b (info_of img) ->
  check_square (f32_of_Z (len k)) = Ret tt -> kernel_side (len k) = sz ->
  unseparable_filter p b n img k
  = let! d := mmap (fun i => let! s := get_neighborhood_2d p img (i mod width (info_of img)) (i / width (info_of img)) sz in apply_2d_kernel_par p s k)
                   (zrange 0 (width (info_of img) * height (info_of img))) in
    Ret (Image (info_of img) (concat d)).
Proof.
  intros Hwf Ho Hk Hs Hsch Hsq Hside. unfold unseparable_filter.
  rewrite check_odd_ok by (cbn; nia). unfold odd_len in Ho. rewrite Ho. cbn [bind]. rewrite Hsq, Hside. cbn [bind].
  apply (scan_eq p b n img (fun x y => get_neighborhood_2d p img x y sz) (fun s o => apply_2d_kernel_seq p s o k) (fun s => apply_2d_kernel_par p s k)); auto.
  - intros s o. apply apply_2d_seq_par.
  - intros x y _ _. eapply safe_weaken; [apply safe_nb_2d; apply (wf_c _ Hwf)|].
    cbv beta. intros s Hs'. pose proof (wf_c _ Hwf).
    apply (apply_2d_safe p s k sz); auto; try lia. eauto.
Qed.

(** ** the values *)
Lemma fold_left_map {A B C} (f : A -> B -> A) (g : C -> B) l a :
  fold_left f (map g l) a = fold_left (fun a c => f a (g c)) l a.
Proof. revert a. induction l as [|c l IH]; intros a; cbn; auto. Qed.

Lemma scan_correlates (img : image f32) k (taps : list tap) (P : Z -> Z -> Z -> list f32) m (scan : Z -> Z -> outcome (list f32)) :
  wf img ->
  (forall x y, inside img x y -> scan x y = Ret (map (fun j => tap_value k (P x y) (zrange 0 m) j f32_0) (zrange 0 (channels (info_of img))))) ->
  taps = map (fun i => (weight k i, snd (fst (nth (Z.to_nat i) taps (f32_0, 0, 0))), snd (nth (Z.to_nat i) taps (f32_0, 0, 0)))) (zrange 0 m) ->
  (forall x y i, inside img x y -> 0 <= i < m -> let t := nth (Z.to_nat i) taps (f32_0, 0, 0) in
     P x y i = pixel_at img (padded (width (info_of img)) x (snd (fst t))) (padded (height (info_of img)) y (snd t))) ->
  exists out, (let! d := mmap (fun i => scan (i mod width (info_of img)) (i / width (info_of img)))
                   (zrange 0 (width (info_of img) * height (info_of img))) in
    Ret (Image (info_of img) (concat d))) = Ret out /\ correlates taps img out.
Proof.
  intros Hwf Hscan Ht HP. pose proof (wf_info_ok _ Hwf) as Hok. pose proof (wf_c _ Hwf).
  set (G := fun x y => map (fun j => tap_value k (P x y) (zrange 0 m) j f32_0) (zrange 0 (channels (info_of img)))).
  assert (HG : forall x y, len (G x y) = channels (info_of img)).
  { intros x y. unfold G. rewrite len_map, len_zrange by lia. lia. }
  exists (of_fun (info_of img) G). split.
  - rewrite (mmap_Ret _ (fun i => G (i mod width (info_of img)) (i / width (info_of img)))); [reflexivity|].
    intros i Hi. apply in_zrange in Hi. destruct Hok as [? [? [? [? ?]]]].
    assert (0 < width (info_of img)) by nia.
    destruct (pos_surj (width (info_of img)) (height (info_of img)) i) as [Hx [Hy _]]; try lia.
    apply Hscan. split; assumption.
  - split; [reflexivity|]. split; [apply of_fun_wf; auto|].
    intros x y c Hin Hc. unfold value at 1. pose proof Hin as [Hx Hy]. rewrite pixel_at_of_fun by auto.
    unfold G. rewrite nth_map_zrange by lia. rewrite Z.add_0_l.
    unfold correlation, weighted_sum. rewrite Ht, map_map, fold_left_map. cbn [fst snd]. unfold tap_value.
    assert (E : forall l a, (forall i, In i l -> 0 <= i < m) ->
      fold_left (fun acc i => f32_add acc (f32_mul (weight k i) (nth (Z.to_nat c) (P x y i) f32_0))) l a
      = fold_left (fun a i => f32_add a (f32_mul (weight k i)
          (value img (padded (width (info_of img)) x (snd (fst (nth (Z.to_nat i) taps (f32_0, 0, 0)))))
                     (padded (height (info_of img)) y (snd (nth (Z.to_nat i) taps (f32_0, 0, 0)))) c))) l a).
    { induction l as [|i l IH]; intros a Hl; cbn [fold_left]; [reflexivity|].
      rewrite IH by (intros; apply Hl; right; assumption). rewrite (HP x y i Hin (Hl i (or_introl eq_refl))). reflexivity. }
    rewrite E by (intros i; apply in_zrange). reflexivity.
Qed.

Lemma nb_padded c sz i bound : nb_spec c sz i bound = padded bound c (i - sz / 2).
Proof.
  unfold nb_spec, padded. cbv zeta. replace (c + (i - sz / 2)) with (c - sz / 2 + i) by lia.
  destruct ((c - sz / 2 + i <? 0) || (bound <=? c - sz / 2 + i)) eqn:E;
  destruct ((0 <=? c - sz / 2 + i) && (c - sz / 2 + i <? bound)) eqn:E'; lia.
Qed.
Lemma padded_0 bound c : padded bound c 0 = c.
Proof. unfold padded. destruct (_ && _); lia. Qed.
Lemma padded_range bound c d : 0 <= c < bound -> 0 <= padded bound c d < bound.
Proof. unfold padded. destruct (_ && _) eqn:E; lia. Qed.


Lemma filter_1d_correlates p b n (img : image f32) k (v : bool) :
  wf img -> small (info_of img) -> odd_len k -> len k <= 2 ^ 30 -> scheduled b (info_of img) ->
  exists out, filter_1d p b n img k v = Ret out /\ correlates (if v then column k else row k) img out.
Proof.
  intros Hwf [Hw Hh] Ho Hk Hsch. pose proof (len_nonneg k).
  rewrite filter_1d_eq; auto; [|unfold u32_max; lia].
  apply (scan_correlates img k _ (fun x y i => if v then pixel_at img x (nb_spec y (len k) i (height (info_of img)))
                       else pixel_at img (nb_spec x (len k) i (width (info_of img))) y) (len k)
      (fun x y => let! s := nb_1d p img k v x y in apply_1d_kernel_par p s k)); auto.
  - intros x y Hin. unfold nb_1d. rewrite nb_1d_ok by (auto; lia). rewrite bind_Ret. pose proof (wf_c _ Hwf).
    match goal with |- apply_1d_kernel_par p ?s k = _ =>
      rewrite (proj1 (apply_1d_safe p s k (len k) (channels (info_of img)) ltac:(lia) Ho eq_refl ltac:(unfold u32_max; lia)
        ltac:(exists (alpha (info_of img)); destruct v; [left|right]; reflexivity))) end.
    rewrite (taps_ok _ k (fun i => if v then pixel_at img x (nb_spec y (len k) i (height (info_of img)))
                       else pixel_at img (nb_spec x (len k) i (width (info_of img))) y) (channels (info_of img))).
    + f_equal. apply map_ext_in. intros j Hj. apply in_zrange in Hj. f_equal. symmetry. rewrite nth_repeat'; [reflexivity|lia].
    + intros i Hi. apply in_zrange in Hi. split; [lia|split].
      * unfold sub_index. cbn [sub_data]. rewrite (vget_ok _ i []) by (rewrite len_map, len_zrange; lia).
        rewrite nth_map_zrange by lia. rewrite Z.add_0_l. reflexivity.
      * destruct Hin as [? ?]. destruct v; apply pixel_at_len; auto; split; auto; apply nb_spec_range; lia.
    + unfold len. rewrite repeat_length. lia.
  - destruct v; unfold column, row; apply map_ext_in; intros i Hi; apply in_zrange in Hi;
    rewrite nth_map_zrange by lia; rewrite Z.add_0_l; reflexivity.
  - intros x y i Hin Hi. cbv zeta. destruct v; unfold column, row; rewrite nth_map_zrange by lia; rewrite Z.add_0_l;
    cbn [fst snd]; rewrite nb_padded, padded_0; reflexivity.
Qed.

Lemma unseparable_correlates p b n (img : image f32) k sz :
  wf img -> small (info_of img) -> odd_len k -> len k = sz * sz -> 0 <= sz <= 65535 -> scheduled b (info_of img) ->
  check_square (f32_of_Z (len k)) = Ret tt -> kernel_side (len k) = sz ->
  exists out, unseparable_filter p b n img k = Ret out /\ correlates (square sz k) img out.
Proof.
  intros Hwf [Hw Hh] Ho Hk Hsz Hsch Hsq Hside.
  rewrite (unseparable_eq p b n img k sz) by auto.
  set (PP := fun x y k0 => pixel_at img (nb_spec x sz (k0 mod sz) (width (info_of img))) (nb_spec y sz (k0 / sz) (height (info_of img)))).
  assert (0 <= sz * sz) by nia.
  apply (scan_correlates img k _ PP (sz * sz)
      (fun x y => let! s := get_neighborhood_2d p img x y sz in apply_2d_kernel_par p s k)); auto.
  - intros x y Hin. rewrite nb_2d_ok by (auto; lia). rewrite bind_Ret. pose proof (wf_c _ Hwf).
    match goal with |- apply_2d_kernel_par p ?s k = _ =>
      rewrite (proj1 (apply_2d_safe p s k sz (channels (info_of img)) ltac:(lia) Ho Hk Hsz
        ltac:(exists (alpha (info_of img)); reflexivity))) end.
    rewrite (taps_ok _ k (PP x y) (channels (info_of img))).
    + f_equal. apply map_ext_in. intros j Hj. apply in_zrange in Hj. f_equal. symmetry. rewrite nth_repeat'; [reflexivity|lia].
    + intros i Hi. apply in_zrange in Hi. split; [lia|split].
      * unfold sub_index. cbn [sub_data]. rewrite (vget_ok _ i []) by (rewrite len_map, len_zrange; lia).
        rewrite nth_map_zrange by lia. rewrite Z.add_0_l. reflexivity.
      * destruct Hin as [? ?]. apply pixel_at_len; auto; split; auto; apply nb_spec_range; lia.
    + unfold len. rewrite repeat_length. lia.
  - unfold square; apply map_ext_in; intros i Hi; apply in_zrange in Hi;
    rewrite nth_map_zrange by lia; rewrite Z.add_0_l; reflexivity.
  - intros x y i Hin Hi. cbv zeta. unfold square, PP; rewrite nth_map_zrange by lia; rewrite Z.add_0_l;
    cbn [fst snd]; rewrite !nb_padded; reflexivity.
Qed.
