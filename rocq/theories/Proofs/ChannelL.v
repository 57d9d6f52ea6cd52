(** * Two runs side by side: an image and some of its channels *)
From Verif.Model Require Import Base Float Image Par.
From Verif.Spec Require Import ImageS ChannelS.
From Verif.Proofs Require Import BaseL ImageL Safe TransformL LoopL.
Open Scope Z_scope.

(** if the first run returns, so does the second, with a related result *)
Definition osim {A B} (R : A -> B -> Prop) (o : outcome A) (o' : outcome B) : Prop :=
  forall a, o = Ret a -> exists b, o' = Ret b /\ R a b.

Lemma osim_ret {A B} (R : A -> B -> Prop) a b : R a b -> osim R (Ret a) (Ret b).
Proof. intros H x [= <-]. eauto. Qed.
Lemma osim_bind {A B A' B'} (R : A -> B -> Prop) (Q : A' -> B' -> Prop) m m' k k' :
  osim R m m' -> (forall a b, m = Ret a -> m' = Ret b -> R a b -> osim Q (k a) (k' b)) -> osim Q (bind m k) (bind m' k').
Proof.
  intros H1 H2 x E. destruct m as [a| | |] eqn:Em; try discriminate. destruct (H1 a eq_refl) as (b & -> & HR).
  cbn [bind] in *. exact (H2 a b eq_refl eq_refl HR x E).
Qed.
(** a step that is the same in both runs *)
Lemma osim_same {A A' B'} (Q : A' -> B' -> Prop) (m : outcome A) k k' :
  (forall a, m = Ret a -> osim Q (k a) (k' a)) -> osim Q (bind m k) (bind m k').
Proof. intros H x E. destruct m as [a| | |]; try discriminate. exact (H a eq_refl x E). Qed.
Lemma osim_refl {A} (R : A -> A -> Prop) (m : outcome A) : (forall a, m = Ret a -> R a a) -> osim R m m.
Proof. intros H a E. exists a. auto. Qed.
Lemma osim_mfold {A S S'} (R : S -> S' -> Prop) (f : S -> A -> outcome S) (f' : S' -> A -> outcome S') l :
  (forall a s s', In a l -> R s s' -> osim R (f s a) (f' s' a)) ->
  forall s s', R s s' -> osim R (mfold f l s) (mfold f' l s').
Proof.
  induction l as [|a l IH]; intros H s s' HR; cbn [mfold].
  - apply osim_ret. exact HR.
  - apply (osim_bind R).
    + apply H; [left; reflexivity|exact HR].
    + intros t t' _ _ Ht. apply IH; [|exact Ht]. intros; apply H; [right|]; assumption.
Qed.
Lemma osim_mmap {A B C} (R : B -> C -> Prop) (f : A -> outcome B) (f' : A -> outcome C) l :
  (forall a, In a l -> osim R (f a) (f' a)) -> osim (Forall2 R) (mmap f l) (mmap f' l).
Proof.
  induction l as [|a l IH]; intros H; cbn [mmap].
  - apply osim_ret. constructor.
  - apply (osim_bind R); [apply H; left; reflexivity|]. intros b c _ _ Hb.
    apply (osim_bind (Forall2 R)); [apply IH; intros; apply H; right; assumption|].
    intros bs cs _ _ Hs. apply osim_ret. constructor; assumption.
Qed.

Lemma nth_error_zr c k : Z.of_nat k < c -> nth_error (zrange 0 c) k = Some (Z.of_nat k).
Proof. intros H. pose proof (nth_error_zrange 0 c (Z.of_nat k) ltac:(lia)) as E. rewrite Nat2Z.id in E. exact E. Qed.
Lemma Forall2_len {A B} (R : A -> B -> Prop) (l : list A) (l' : list B) : Forall2 R l l' -> length l = length l'.
Proof. induction 1; cbn [length]; congruence. Qed.

(** ** picks *)
Section Picks.
  Context {A : Type} (ks : list nat).
  Lemma picks_len (px px' : list A) : picks ks px px' -> len px' = len ks.
  Proof. intros H. apply (f_equal (@length _)) in H. rewrite !map_length in H. unfold len. lia. Qed.
  Lemma picks_nth (px px' : list A) j k : picks ks px px' -> nth_error ks j = Some k -> nth_error px' j = nth_error px k.
  Proof.
    intros H E. apply (f_equal (fun l => nth_error l j)) in H. rewrite !nth_error_map, E in H. cbn in H.
    destruct (nth_error px' j); cbn in H; congruence.
  Qed.
  Lemma picks_map {B} (f : A -> B) (px px' : list A) : picks ks px px' -> picks ks (map f px) (map f px').
  Proof.
    unfold picks. intros H. rewrite map_map. rewrite (map_ext _ (fun x => option_map f (Some x)) (fun x => eq_refl)).
    rewrite <- (map_map Some (option_map f)), H, map_map. apply map_ext. intros k. rewrite nth_error_map. reflexivity.
  Qed.
  Lemma picks_intro (px px' : list A) : length px' = length ks ->
    (forall j k, nth_error ks j = Some k -> exists a, nth_error px k = Some a /\ nth_error px' j = Some a) -> picks ks px px'.
  Proof.
    intros L H. unfold picks. revert px' L H. induction ks as [|k l IH]; intros [|a px'] L H; try discriminate; [reflexivity|].
    cbn [map]. f_equal.
    - destruct (H O k eq_refl) as (b & E1 & E2). cbn in E2. congruence.
    - apply IH; [cbn in L; congruence|]. intros j k' E. apply (H (S j) k' E).
  Qed.
  Lemma picks_repeat (a : A) n : Forall (fun k => (k < n)%nat) ks -> picks ks (repeat a n) (repeat a (length ks)).
  Proof.
    intros H. apply picks_intro; [apply repeat_length|]. intros j k E.
    rewrite Forall_forall in H. pose proof (nth_error_In _ _ E) as Hin. apply H in Hin.
    assert ((j < length ks)%nat) by (apply nth_error_Some; congruence).
    exists a. rewrite !nth_error_repeat by assumption. auto.
  Qed.
  Lemma picks_zrange (f : Z -> A) (f' : Z -> A) (c : Z) : Forall (fun k => Z.of_nat k < c) ks ->
    (forall j k, nth_error ks j = Some k -> f' (Z.of_nat j) = f (Z.of_nat k)) ->
    picks ks (map f (zrange 0 c)) (map f' (zrange 0 (len ks))).
  Proof.
    intros H E. apply picks_intro.
    - rewrite map_length, zrange_length. unfold len. lia.
    - intros j k Ek. exists (f (Z.of_nat k)). pose proof (nth_error_In _ _ Ek) as Hin. rewrite Forall_forall in H. apply H in Hin.
      assert ((j < length ks)%nat) by (apply nth_error_Some; congruence).
      rewrite !nth_error_map. rewrite !nth_error_zr by (unfold len; lia). cbn [option_map].
      split; [reflexivity|]. f_equal. apply E. exact Ek.
  Qed.
End Picks.

Lemma nth_error_nth'_eq {A} (l l' : list A) n n' d : nth_error l n = nth_error l' n' -> nth n l d = nth n' l' d.
Proof.
  intros E. destruct (nth_error l' n') as [a|] eqn:E'.
  - rewrite (nth_error_nth _ _ d E), (nth_error_nth _ _ d E'). reflexivity.
  - apply nth_error_None in E. apply nth_error_None in E'. rewrite !nth_overflow by assumption. reflexivity.
Qed.

(** ** pixel access *)
Section Access.
  Context {T : Type} (p : profile) (ks : list nat).
  Lemma sel_inside (a a' : image T) x y : selection ks a a' -> inside a x y <-> inside a' x y.
  Proof. intros H. unfold inside. rewrite (sl_w _ _ _ H), (sl_h _ _ _ H). reflexivity. Qed.

  Lemma get_pixel_inside (a : image T) x y px : wf a -> 0 <= x -> 0 <= y -> get_pixel p a x y = Ret px -> inside a x y /\ px = pixel_at a x y.
  Proof.
    intros Hw Hx Hy E. destruct (Z_lt_le_dec x (width (info_of a))); [destruct (Z_lt_le_dec y (height (info_of a)))|].
    - assert (Hin : inside a x y) by (split; lia). rewrite get_pixel_ok in E by assumption. split; [exact Hin|congruence].
    - rewrite get_pixel_panic in E; auto; [discriminate|]. unfold inside. lia.
    - rewrite get_pixel_panic in E; auto; [discriminate|]. unfold inside. lia.
  Qed.
  Lemma get_pixel_sim (a a' : image T) x y : selection ks a a' -> 0 <= x -> 0 <= y ->
    osim (picks ks) (get_pixel p a x y) (get_pixel p a' x y).
  Proof.
    intros H Hx Hy px E. apply get_pixel_inside in E as [Hin ->]; auto; [|apply (sl_wf _ _ _ H)].
    exists (pixel_at a' x y). split; [|apply (sl_px _ _ _ H); exact Hin].
    apply get_pixel_ok; [apply (sl_wf' _ _ _ H)|]. apply (sel_inside a a' x y H). exact Hin.
  Qed.

  Lemma img_index_range (a : image T) i px : wf a -> 0 < channels (info_of a) -> 0 <= i <= u32_max -> img_index p a i = Ret px ->
    0 <= i < width (info_of a) * height (info_of a).
  Proof.
    intros Hw Hc Hi E. split; [lia|]. destruct Hw as [? ? ? ? ? Hd]. unfold img_index, u32_max in *.
    rewrite imul_ok in E by (cbn; nia). cbn [bind] in E. rewrite iadd_ok in E by (cbn; nia). cbn [bind] in E.
    destruct (Z_lt_le_dec i (width (info_of a) * height (info_of a))) as [L|L]; [exact L|].
    rewrite vslice_panic in E; [discriminate|]. intros [_ B]. rewrite Hd in B. nia.
  Qed.
  Lemma img_index_sim (a a' : image T) i : selection ks a a' -> 0 <= i <= u32_max ->
    osim (picks ks) (img_index p a i) (img_index p a' i).
  Proof.
    intros H Hi px E. pose proof (sl_wf _ _ _ H) as Hw. pose proof (sl_le _ _ _ H).
    pose proof (img_index_range a i px Hw ltac:(lia) Hi E) as Hr.
    assert (0 < width (info_of a)) by (destruct Hw; nia).
    assert (E0 : width (info_of a') * height (info_of a') = width (info_of a) * height (info_of a)) by (rewrite (sl_w _ _ _ H), (sl_h _ _ _ H); reflexivity).
    rewrite img_index_ok in E by assumption. rewrite img_index_ok by (try rewrite E0; try assumption; apply (sl_wf' _ _ _ H)).
    eexists. split; [reflexivity|]. injection E as <-. rewrite !pixel_i_at by (rewrite ?(sl_w _ _ _ H); assumption).
    rewrite (sl_w _ _ _ H). apply (sl_px _ _ _ H). destruct (pos_surj (width (info_of a)) (height (info_of a)) i) as (A & B & _); try lia. split; assumption.
  Qed.
  Lemma u32_arith x y : arith p U32 x = Ret y -> 0 <= y <= u32_max.
  Proof. intros E. pose proof (safe_arith_range p U32 x ltac:(cbn; lia)) as S. rewrite E in S. cbn in S. unfold u32_max. lia. Qed.
  Lemma get_pixel_unchecked_sim (a a' : image T) x y : selection ks a a' ->
    osim (picks ks) (get_pixel_unchecked p a x y) (get_pixel_unchecked p a' x y).
  Proof.
    intros H. unfold get_pixel_unchecked. rewrite (sl_w _ _ _ H). apply osim_same. intros u _. apply osim_same. intros v Ev.
    apply img_index_sim; auto. exact (u32_arith _ _ Ev).
  Qed.

  Lemma set_pixel_inv (a b : image T) x y px : wf a -> 0 <= x -> 0 <= y -> set_pixel p a x y px = Ret b ->
    inside a x y /\ len px = channels (info_of a) /\ b = put a (y * width (info_of a) + x) px.
  Proof.
    intros Hw Hx Hy E.
    assert (D : inside a x y /\ len px = channels (info_of a)).
    { destruct (Z.eq_dec (len px) (channels (info_of a))); [destruct (Z_lt_le_dec x (width (info_of a))); [destruct (Z_lt_le_dec y (height (info_of a)))|]|];
        [repeat split; lia|exfalso..]; rewrite set_pixel_panic in E; auto; try discriminate; unfold inside; lia. }
    destruct D as [D1 D2]. rewrite set_pixel_ok in E by assumption. conj; auto. congruence.
  Qed.
  Lemma put_sim (a a' : image T) x y px px' : selection ks a a' -> inside a x y -> len px = channels (info_of a) -> picks ks px px' ->
    selection ks (put a (y * width (info_of a) + x) px) (put a' (y * width (info_of a') + x) px').
  Proof.
    intros H Hin Hl Hp. pose proof (picks_len ks px px' Hp) as Hl'. pose proof (proj1 (sel_inside a a' x y H) Hin) as Hin'.
    pose proof (sl_wf _ _ _ H) as Hw. pose proof (sl_wf' _ _ _ H) as Hw'.
    assert (B : forall b : image T, wf b -> inside b x y -> 0 <= y * width (info_of b) + x < width (info_of b) * height (info_of b)).
    { intros b Wb [Bx By]. destruct (pos_bound (width (info_of b)) (height (info_of b)) (channels (info_of b)) x y); try lia. apply Wb. }
    pose proof (sl_c _ _ _ H) as Hc. destruct H as [_ _ Ew Eh _ Hle Hks Hpx]. constructor; cbn [put info_of]; auto.
    - apply put_wf; auto.
    - apply put_wf; auto. lia.
    - intros x1 y1 I1. change (inside a x1 y1) in I1. rewrite pixel_at_put by assumption.
      assert (I1' : inside a' x1 y1) by (unfold inside in *; rewrite Ew, Eh; exact I1).
      rewrite pixel_at_put by (auto; lia). destruct (_ && _); auto.
  Qed.
  Lemma set_pixel_sim (a a' : image T) x y px px' : selection ks a a' -> 0 <= x -> 0 <= y -> picks ks px px' ->
    osim (selection ks) (set_pixel p a x y px) (set_pixel p a' x y px').
  Proof.
    intros H Hx Hy Hp b E. apply set_pixel_inv in E as (Hin & Hl & ->); auto; [|apply (sl_wf _ _ _ H)].
    exists (put a' (y * width (info_of a') + x) px'). split; [|apply put_sim; assumption].
    apply set_pixel_ok; [apply (sl_wf' _ _ _ H)|apply (sel_inside a a' x y H); exact Hin|].
    rewrite (picks_len ks px px' Hp), (sl_c _ _ _ H). reflexivity.
  Qed.

  Lemma info_ok_less (i i' : info) : info_ok i -> width i' = width i -> height i' = height i -> 0 <= channels i' <= channels i -> info_ok i'.
  Proof. intros (A & B & C & D & E) Ew Eh Hc. unfold info_ok. rewrite Ew, Eh. repeat split; try lia. nia. Qed.
  Lemma blank_sim (N : number T) (i i' : info) : info_ok i -> width i' = width i -> height i' = height i -> channels i' = len ks ->
    0 < len ks <= channels i -> Forall (fun k => Z.of_nat k < channels i) ks ->
    osim (fun b b' => selection ks b b' /\ info_of b = i /\ info_of b' = i') (blank p N i) (blank p N i').
  Proof.
    intros Hok Ew Eh Ec Hle Hks. assert (Hok' : info_ok i') by (apply (info_ok_less i); auto; lia).
    rewrite !blank_ok by assumption. apply osim_ret. split; [|split; reflexivity]. constructor; cbn [info_of]; auto.
    - apply blank_wf. exact Hok.
    - apply blank_wf. exact Hok'.
    - intros x y [Hx Hy]. cbn [info_of] in Hx, Hy. rewrite !pixel_at_blank by (auto; rewrite ?Ew, ?Eh; auto). rewrite Ec. unfold len. rewrite Nat2Z.id.
      apply picks_repeat. eapply Forall_impl; [|exact Hks]. cbv beta. intros k Hk. lia.
  Qed.

  (** lists of pixels *)
  Lemma par_collect_sim {A B} (R : A -> B -> Prop) sched n (f : Z -> outcome A) (f' : Z -> outcome B) :
    (forall k, 0 <= k < n -> osim R (f k) (f' k)) -> osim (Forall2 R) (par_collect sched n f) (par_collect sched n f').
  Proof.
    intros H. unfold par_collect.
    set (Q := fun (u : option A) (v : option B) => match u, v with None, None => True | Some a, Some b => R a b | _, _ => False end).
    destruct (Z_lt_le_dec 0 n) as [Hn|Hn].
    2: { replace (Z.to_nat n) with O by lia. cbn [repeat]. destruct sched as [|k sched].
         - cbn. apply osim_ret. constructor.
         - cbn [mfold]. intros a E. apply bind_inv in E as (s & E & _). apply bind_inv in E as (s1 & E & _).
           apply bind_inv in E as (r & _ & E). rewrite vset_panic in E by (unfold len; cbn [length]; lia). discriminate. }
    apply (osim_bind (fun s s' => Forall2 Q s s' /\ length s = Z.to_nat n)).
    - apply osim_mfold.
      + intros k s s' Hk [HR HL] t E. apply bind_inv in E as (a & Ea & E).
        assert (Hr : 0 <= k < n). { destruct (Z_lt_le_dec k 0) as [K|K]; [rewrite vset_panic in E by lia; discriminate|].
          destruct (Z_lt_le_dec k n) as [K'|K']; [lia|]. rewrite vset_panic in E by (unfold len; lia). discriminate. }
        destruct (H k Hr a Ea) as (b & -> & Hab). cbn [bind]. unfold vset, len in *. rewrite <- (Forall2_len _ _ _ HR).
        destruct (_ && _); [|discriminate].
        eexists. split; [reflexivity|]. injection E as <-. rewrite upd_length. split; [|exact HL]. clear HL. generalize (Z.to_nat k). induction HR; intros [|m]; cbn [upd]; constructor; auto.
      + split; [|apply repeat_length]. induction (Z.to_nat n); constructor; auto. exact I.
    - intros s s' _ _ [HR _]. induction HR as [|u v s s' Huv HR IH]; cbn [mmap].
      + apply osim_ret. constructor.
      + destruct u, v; try contradiction; [|intros a E; discriminate]. cbn [bind].
        apply (osim_bind (Forall2 R) _ _ _ _ _ IH). intros l l' _ _ Hl. apply osim_ret. constructor; assumption.
  Qed.
  Lemma par_collect_facts {A} (P : A -> Prop) sched n (f : Z -> outcome A) d :
    (forall k a, 0 <= k < n -> f k = Ret a -> P a) -> par_collect sched n f = Ret d -> length d = Z.to_nat n /\ Forall P d.
  Proof.
    intros H E. split.
    - unfold par_collect in E. apply bind_inv in E as (s & Es & E). apply mmap_length in E. rewrite E. clear E d H.
      assert (G : forall l s0 s1, length s0 = Z.to_nat n -> mfold (fun slots k => let! r := f k in vset slots k (Some r)) l s0 = Ret s1 -> length s1 = Z.to_nat n).
      { induction l as [|k l IH]; intros s0 s1 L E; cbn [mfold] in E; [congruence|].
        apply bind_inv in E as (s2 & E2 & E). apply (IH s2); [|exact E]. apply bind_inv in E2 as (r & _ & E2).
        unfold vset in E2. destruct (_ && _); [|discriminate]. injection E2 as <-. rewrite upd_length. exact L. }
      apply (G sched _ s (repeat_length _ _) Es).
    - assert (S : osim (Forall2 (fun (a b : A) => P a)) (par_collect sched n f) (par_collect sched n f)).
      { apply par_collect_sim. intros k Hk. apply osim_refl. intros a Ea. exact (H k a Hk Ea). }
      destruct (S d E) as (d1 & _ & F). clear S E. induction F; constructor; auto.
  Qed.
  (** a vector of pixels made into an image *)
  Lemma concat_sim (i i' : info) (d d' : list (list T)) : info_ok i -> width i' = width i -> height i' = height i -> channels i' = len ks ->
    0 < len ks <= channels i -> Forall (fun k => Z.of_nat k < channels i) ks ->
    len d = width i * height i -> Forall (fun px => len px = channels i) d -> Forall2 (picks ks) d d' ->
    selection ks (Image i (concat d)) (Image i' (concat d')).
  Proof.
    intros Hok Ew Eh Ec Hle Hks Hl Hpx HR. assert (Hok' : info_ok i') by (apply (info_ok_less i); auto; lia).
    assert (Hl' : len d' = width i' * height i') by (rewrite Ew, Eh, <- Hl; unfold len; rewrite (Forall2_len _ _ _ HR); reflexivity).
    rewrite Forall_forall in Hpx.
    assert (Hpx' : forall px', In px' d' -> len px' = channels i').
    { rewrite Ec. clear -HR. induction HR as [|u v l l' Huv HR IH]; intros px' []; [subst px'; eapply picks_len; exact Huv|auto]. }
    constructor; cbn [info_of]; auto.
    - apply concat_wf; auto.
    - apply concat_wf; auto.
    - intros x y [Hx Hy]. cbn [info_of] in Hx, Hy. pose proof Hok as (? & ? & ? & ? & ?).
      destruct (pos_bound (width i) (height i) (channels i) x y) as [Hb _]; try lia.
      rewrite (pixel_at_concat i d x y []) by (auto; lia).
      rewrite (pixel_at_concat i' d' x y []) by (auto; try lia; rewrite ?Ew, ?Eh; lia).
      rewrite Ew. assert (Hn : (Z.to_nat (y * width i + x) < length d)%nat) by (unfold len in Hl; lia).
      revert Hn. generalize (Z.to_nat (y * width i + x)). clear -HR. intros n. revert n. induction HR as [|u v l l' Huv HR IH]; intros [|n] Hn; cbn [nth length] in *; try lia; auto.
      apply IH. lia.
  Qed.

  (** sample by sample updates of a vector *)
  Lemma each_sample (g : T -> T -> T) (px out : list T) (d : T) : len px = len out ->
    mfold (fun o j => let! v := vget px j in let! u := vget o j in vset o j (g v u)) (zrange 0 (len out)) out
    = Ret (map (fun j => g (nth (Z.to_nat j) px d) (nth (Z.to_nat j) out d)) (zrange 0 (len out))).
  Proof.
    intros Hl.
    transitivity (mmap (fun j => Ret (g (nth (Z.to_nat j) px d) (nth (Z.to_nat j) out d))) (zrange 0 (len out))).
    - rewrite <- (LoopL.fill_loop (fun j o => Ret (g (nth (Z.to_nat j) px d) o))).
      apply (mfold_ext_inv (fun o => len o = len out)); [reflexivity| |].
      + intros o j Ho Hj. apply in_zrange in Hj. rewrite (vget_ok px j d) by lia. cbn [bind].
        rewrite (vget_ok o j d) by lia. cbn [bind]. rewrite vset_ok by lia. reflexivity.
      + intros o j o' Ho Hj E. cbn [bind] in E. injection E as <-. rewrite len_upd. exact Ho.
    - apply mmap_Ret. reflexivity.
  Qed.
  Lemma each_sample_sim (c : Z) (g : T -> T -> T) (px px' out out' : list T) (d : T) :
    Forall (fun k => Z.of_nat k < c) ks -> len px = c -> len out = c -> picks ks px px' -> picks ks out out' ->
    osim (fun o o' => len o = c /\ picks ks o o')
      (mfold (fun o j => let! v := vget px j in let! u := vget o j in vset o j (g v u)) (zrange 0 c) out)
      (mfold (fun o j => let! v := vget px' j in let! u := vget o j in vset o j (g v u)) (zrange 0 (len ks)) out').
  Proof.
    intros Hks Hp Ho Pp Po. pose proof (picks_len ks px px' Pp) as Hp'. pose proof (picks_len ks out out' Po) as Ho'.
    rewrite <- Ho, <- Ho'. rewrite !(each_sample g _ _ d) by congruence. apply osim_ret. pose proof (len_nonneg out). split.
    - rewrite len_map, len_zrange; lia.
    - rewrite Ho', Ho. apply picks_zrange; [exact Hks|]. intros j k Ek. rewrite !Nat2Z.id.
      pose proof (picks_nth ks px px' j k Pp Ek) as E1. pose proof (picks_nth ks out out' j k Po Ek) as E2.
      f_equal; apply nth_error_nth'_eq; assumption.
  Qed.
End Access.
