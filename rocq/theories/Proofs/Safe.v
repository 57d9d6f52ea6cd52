(** Calls that can only return (with a property of the result) or panic: no error value, no UB. *)
From Verif.Proofs Require Export BaseL ImageL.
Open Scope Z_scope.

Definition safe {A} (Q : A -> Prop) (m : outcome A) : Prop :=
  match m with Ret a => Q a | Panic => True | _ => False end.

Lemma safe_bind {A B} (Q : A -> Prop) (R : B -> Prop) m (k : A -> outcome B) :
  safe Q m -> (forall a, Q a -> safe R (k a)) -> safe R (bind m k).
Proof. destruct m; cbn; auto; contradiction. Qed.

Lemma safe_weaken {A} (Q R : A -> Prop) m : safe Q m -> (forall a, Q a -> R a) -> safe R m.
Proof. destruct m; cbn; auto. Qed.

Lemma safe_arith p t x : safe (fun r => r = x \/ lo t <= r <= hi t \/ hi t < lo t) (arith p t x).
Proof.
  destruct (arith_cases p t x) as [[_ ->]|[_ ->]]; cbn; auto.
  destruct p; cbn; auto. destruct (Z_le_gt_dec (lo t) (hi t)); [|lia]. right. left. apply cast_range. assumption.
Qed.
Lemma safe_arith_range p t x : lo t <= hi t -> safe (fun r => lo t <= r <= hi t) (arith p t x).
Proof.
  intros H. destruct (arith_cases p t x) as [[? ->]|[_ ->]]; cbn; auto.
  destruct p; cbn; auto. apply cast_range. assumption.
Qed.

Lemma safe_vget {A} (v : list A) i : safe (fun _ => True) (vget v i).
Proof. unfold vget. destruct (_ && _); cbn; auto. destruct (nth_error _ _); cbn; auto. Qed.
Lemma safe_vset {A} (v : list A) i x : safe (fun v' => length v' = length v) (vset v i x).
Proof. unfold vset. destruct (_ && _); cbn; auto. apply upd_length. Qed.
Lemma safe_vslice {A} (v : list A) a b : safe (fun s => len s = b - a) (vslice v a b).
Proof.
  unfold vslice. destruct (_ && _) eqn:E; cbn; auto. unfold len in *. rewrite firstn_length, skipn_length. lia.
Qed.
Lemma safe_vcopy {A} (v : list A) a b s : safe (fun _ => True) (vcopy v a b s).
Proof. unfold vcopy. destruct (_ && _); cbn; auto. Qed.

Lemma safe_mfold {A S} (P : S -> Prop) (f : S -> A -> outcome S) l s :
  P s -> (forall s a, P s -> In a l -> safe P (f s a)) -> safe P (mfold f l s).
Proof.
  revert s. induction l as [|a l IH]; intros s Hs H; cbn; auto.
  apply (safe_bind P); [apply H; auto; left; reflexivity|].
  intros s' Hs'. apply IH; auto. intros; apply H; auto. right; assumption.
Qed.

Lemma safe_mmap {A B} (Q : B -> Prop) (f : A -> outcome B) l :
  (forall a, In a l -> safe Q (f a)) -> safe (fun bs => length bs = length l /\ Forall Q bs) (mmap f l).
Proof.
  induction l as [|a l IH]; intros H; cbn; auto.
  apply (safe_bind Q); [apply H; left; reflexivity|]. intros b Hb.
  apply (safe_bind (fun bs => length bs = length l /\ Forall Q bs)).
  - apply IH. intros; apply H; right; assumption.
  - intros bs [Hl Hf]. cbn. split; [lia|]. constructor; assumption.
Qed.

Lemma safe_check_xy x y w h : safe (fun _ => x < w /\ y < h) (check_xy x y w h).
Proof. unfold check_xy. destruct (w <=? x) eqn:E1; cbn; auto. destruct (h <=? y) eqn:E2; cbn; auto. lia. Qed.

Lemma safe_img_index p {T} (img : image T) i :
  channels (info_of img) <= 255 -> 0 <= channels (info_of img) ->
  safe (fun px => len px = channels (info_of img)) (img_index p img i).
Proof.
  intros HC1 HC0. unfold img_index.
  apply (safe_bind (fun r => lo USIZE <= r <= hi USIZE)); [apply safe_arith_range; ity_lia|]. intros a Ha.
  unfold iadd.
  destruct (arith_cases p USIZE (a + channels (info_of img))) as [[? ->]|[Hn ->]].
  - cbn [bind]. eapply safe_weaken; [apply safe_vslice|]. cbv beta. intros. lia.
  - destruct p; cbn [bind]; [exact I|].
    unfold vslice. destruct (_ && _) eqn:E; cbn; auto.
    exfalso. cbn in *. unfold cast in E. cbn in E.
    assert (a + channels (info_of img) - 0 = (a + channels (info_of img) - 18446744073709551616) + 1 * 18446744073709551616) as Hs by lia.
    rewrite Hs, Z.mod_add, Z.mod_small in E by lia. lia.
Qed.

Lemma safe_get_pixel p {T} (img : image T) x y :
  channels (info_of img) <= 255 -> 0 <= channels (info_of img) ->
  safe (fun px => len px = channels (info_of img)) (get_pixel p img x y).
Proof.
  intros HC1 HC0. unfold get_pixel. eapply safe_bind; [apply safe_check_xy|]. intros _ _.
  eapply safe_bind; [apply safe_arith|]. intros a _. eapply safe_bind; [apply safe_arith|]. intros b _.
  apply safe_img_index; assumption.
Qed.
Lemma safe_get_pixel_unchecked p {T} (img : image T) x y :
  channels (info_of img) <= 255 -> 0 <= channels (info_of img) ->
  safe (fun px => len px = channels (info_of img)) (get_pixel_unchecked p img x y).
Proof.
  intros HC1 HC0. unfold get_pixel_unchecked.
  eapply safe_bind; [apply safe_arith|]. intros a _. eapply safe_bind; [apply safe_arith|]. intros b _.
  apply safe_img_index; assumption.
Qed.
Lemma safe_set_pixel p {T} (img : image T) x y px : safe (fun im => info_of im = info_of img) (set_pixel p img x y px).
Proof.
  unfold set_pixel, check_channels. destruct (_ =? _); cbn [bind safe]; auto.
  eapply safe_bind; [apply safe_check_xy|]. intros _ _. unfold index.
  apply (safe_bind (fun _ => True)); [|intros s _].
  { eapply safe_bind; [apply safe_arith|]. intros a _. eapply safe_bind; [apply safe_arith|]. intros b _.
    eapply safe_weaken; [apply safe_arith|]. auto. }
  eapply safe_bind; [apply safe_arith|]. intros b _.
  eapply safe_bind; [apply safe_vcopy|]. intros d _. reflexivity.
Qed.

(** ** the parallel collect *)
From Verif.Model Require Import Par.

Lemma par_collect_eq {A} (sched : list Z) n (f : Z -> outcome A) :
  Permutation sched (zrange 0 n) ->
  (forall k, 0 <= k < n -> safe (fun _ => True) (f k)) ->
  par_collect sched n f = mmap f (zrange 0 n).
Proof.
  intros Hperm Hsafe.
  assert (Hin : forall k, In k sched <-> 0 <= k < n).
  { intros k. rewrite <- in_zrange. split; apply Permutation_in; [exact Hperm|symmetry; exact Hperm]. }
  assert (Hdec : (exists k, 0 <= k < n /\ f k = Panic) \/ (forall k, 0 <= k < n -> exists r, f k = Ret r)).
  { assert (forall l, (forall k, In k l -> 0 <= k < n) ->
       (exists k, In k l /\ f k = Panic) \/ (forall k, In k l -> exists r, f k = Ret r)) as H.
    { induction l as [|a l IH]; intros Hl; [right; intros k []|].
      pose proof (Hsafe a (Hl a (or_introl eq_refl))) as Ha.
      destruct (IH (fun k Hk => Hl k (or_intror Hk))) as [[k [Hk E]]|Hr].
      - left. exists k. split; [right; exact Hk|exact E].
      - destruct (f a) eqn:E; cbn in Ha; try contradiction.
        + right. intros k [->|Hk]; eauto.
        + left. exists a. split; [left; reflexivity|exact E]. }
    destruct (H (zrange 0 n)) as [[k [Hk E]]|Hr].
    - intros k. apply in_zrange.
    - left. exists k. split; [apply in_zrange; exact Hk|exact E].
    - right. intros k Hk. apply Hr. apply in_zrange. exact Hk. }
  unfold par_collect.
  destruct Hdec as [[k [Hk E]]|Hret].
  - rewrite (mfold_panic (fun s => length s = Z.to_nat n) _ _ _ k); auto.
    + cbn [bind]. symmetry. apply (mmap_panic _ _ k); [apply in_zrange; exact Hk|exact E|].
      intros b Hb. apply in_zrange in Hb. pose proof (Hsafe b Hb) as Hs.
      destruct (f b); cbn in Hs; try contradiction; eauto.
    + apply Hin. exact Hk.
    + apply repeat_length.
    + intros s b Hs Hb. apply Hin in Hb. pose proof (Hsafe b Hb) as Hsf.
      destruct (f b); cbn in Hsf; try contradiction; cbn [bind]; [|right; reflexivity].
      left. rewrite vset_ok by (unfold len; lia). eexists. split; [reflexivity|]. rewrite upd_length. exact Hs.
    + intros s _. rewrite E. reflexivity.
  - destruct (Z_le_gt_dec n 0) as [Hn|Hn].
    { rewrite (zrange_nil 0 n) in * by lia. apply Permutation_sym, Permutation_nil in Hperm. subst sched.
      replace (Z.to_nat n) with 0%nat by lia. reflexivity. }
    destruct (Hret 0 ltac:(lia)) as [a0 _].
    set (g := fun k => match f k with Ret r => r | _ => a0 end).
    assert (Hg : forall k, 0 <= k < n -> f k = Ret (g k)).
    { intros k Hk. unfold g. destruct (Hret k Hk) as [r ->]. reflexivity. }
    rewrite (mmap_Ret f g) by (intros k Hk; apply Hg; apply in_zrange; exact Hk).
    assert (Hloop : forall l s, (forall k, In k l -> 0 <= k < n) -> length s = Z.to_nat n ->
       exists s', mfold (fun slots k => let! r := f k in vset slots k (Some r)) l s = Ret s'
         /\ length s' = Z.to_nat n
         /\ forall j, (j < Z.to_nat n)%nat -> nth j s' None = if existsb (Z.eqb (Z.of_nat j)) l then Some (g (Z.of_nat j)) else nth j s None).
    { induction l as [|k l IH]; intros s Hl Hs; [exists s; cbn; auto|].
      cbn [mfold]. pose proof (Hl k (or_introl eq_refl)) as Hk. rewrite Hg by exact Hk. cbn [bind].
      rewrite vset_ok by (unfold len; lia). cbn [bind].
      destruct (IH (upd s (Z.to_nat k) (Some (g k)))) as [s' [E' [Hl' Hn']]].
      - intros; apply Hl; right; assumption.
      - rewrite upd_length. exact Hs.
      - exists s'. conj; auto. intros j Hj. rewrite Hn' by exact Hj. cbn [existsb].
        destruct (existsb (Z.eqb (Z.of_nat j)) l) eqn:Eb; [rewrite orb_true_r; reflexivity|].
        rewrite orb_false_r. rewrite nth_upd by lia.
        destruct (Z.eqb_spec (Z.of_nat j) k) as [Ejk|Ejk].
        + replace (Nat.eqb j (Z.to_nat k)) with true by (symmetry; apply Nat.eqb_eq; lia). congruence.
        + replace (Nat.eqb j (Z.to_nat k)) with false by (symmetry; apply Nat.eqb_neq; lia). reflexivity. }
    destruct (Hloop sched (repeat None (Z.to_nat n))) as [s' [E [Hl Hn']]].
    + intros k. apply Hin.
    + apply repeat_length.
    + rewrite E. cbn [bind].
      replace s' with (map (fun k => Some (g k)) (zrange 0 n)).
      * rewrite mmap_map. apply mmap_Ret. reflexivity.
      * apply (nth_ext _ _ None None).
        -- rewrite map_length, zrange_length, Hl. f_equal. lia.
        -- rewrite map_length, zrange_length. intros j Hj. rewrite Hn' by lia.
           replace (existsb (Z.eqb (Z.of_nat j)) sched) with true.
           ++ rewrite (nth_indep _ None (Some (g 0))) by (rewrite map_length, zrange_length; lia).
              rewrite (map_nth (fun k => Some (g k)) _ 0). do 2 f_equal.
              rewrite <- (Nat2Z.id j) at 1. rewrite nth_zrange by lia. reflexivity.
           ++ symmetry. apply existsb_exists. exists (Z.of_nat j). split; [apply Hin; lia|apply Z.eqb_refl].
Qed.
