(** Lemmas about Model/Base.v. *)
From Verif.Model Require Export Base.
From Coq Require Export Permutation.
Open Scope Z_scope.

Ltac Zify.zify_post_hook ::= idtac.

(** unfolding of the integer types before lia *)
Ltac ity_lia := cbn [lo hi U8 U16 U32 U64 U128 USIZE I8 I16 I32] in *; lia.

Ltac conj := repeat match goal with |- _ /\ _ => split end.

(** ** outcomes *)
Lemma bind_Ret {A B} (a : A) (k : A -> outcome B) : bind (Ret a) k = k a.
Proof. reflexivity. Qed.

Lemma bind_assoc {A B C} (m : outcome A) (f : A -> outcome B) (g : B -> outcome C) :
  bind (bind m f) g = bind m (fun a => bind (f a) g).
Proof. destruct m; reflexivity. Qed.

Lemma bind_ext {A B} (m : outcome A) (f g : A -> outcome B) :
  (forall a, m = Ret a -> f a = g a) -> bind m f = bind m g.
Proof. destruct m; cbn; auto. Qed.

Lemma bind_inv {A B} (m : outcome A) (k : A -> outcome B) b :
  bind m k = Ret b -> exists a, m = Ret a /\ k a = Ret b.
Proof. destruct m; cbn; intros H; try discriminate. eauto. Qed.

(** ** integers *)
Lemma in_ity_true t x : lo t <= x <= hi t -> in_ity t x = true.
Proof. unfold in_ity. lia. Qed.
Lemma in_ity_spec t x : in_ity t x = true <-> lo t <= x <= hi t.
Proof. unfold in_ity. lia. Qed.

Lemma arith_ok p t x : lo t <= x <= hi t -> arith p t x = Ret x.
Proof. intros H. unfold arith. rewrite in_ity_true by exact H. reflexivity. Qed.
Lemma iadd_ok p t a b : lo t <= a + b <= hi t -> iadd p t a b = Ret (a + b).
Proof. apply arith_ok. Qed.
Lemma isub_ok p t a b : lo t <= a - b <= hi t -> isub p t a b = Ret (a - b).
Proof. apply arith_ok. Qed.
Lemma imul_ok p t a b : lo t <= a * b <= hi t -> imul p t a b = Ret (a * b).
Proof. apply arith_ok. Qed.
Lemma arith_debug_panic t x : ~ (lo t <= x <= hi t) -> arith Debug t x = Panic.
Proof. intros H. unfold arith. destruct (in_ity t x) eqn:E; [apply in_ity_spec in E; tauto|reflexivity]. Qed.

Lemma arith_cases p t x :
  (lo t <= x <= hi t /\ arith p t x = Ret x)
  \/ (~ (lo t <= x <= hi t) /\ arith p t x = match p with Debug => Panic | Release => Ret (cast t x) end).
Proof.
  unfold arith. destruct (in_ity t x) eqn:E.
  - left. apply in_ity_spec in E. auto.
  - right. split; [|reflexivity]. intros H. apply in_ity_true in H. congruence.
Qed.

Lemma cast_id t x : lo t <= x <= hi t -> cast t x = x.
Proof. intros H. unfold cast. rewrite Z.mod_small by lia. lia. Qed.
Lemma cast_range t x : lo t <= hi t -> lo t <= cast t x <= hi t.
Proof.
  intros H. unfold cast. pose proof (Z.mod_pos_bound (x - lo t) (hi t - lo t + 1)). lia.
Qed.

Lemma idiv_ok t a b : 0 <= a -> 0 < b -> lo t <= 0 -> a <= hi t -> idiv t a b = Ret (a / b).
Proof.
  intros Ha Hb Hlo Hhi. unfold idiv.
  rewrite Z.quot_div_nonneg by lia.
  assert (0 <= a / b <= a) by (split; [apply Z.div_pos; lia | apply Z.div_le_upper_bound; nia]).
  rewrite in_ity_true by lia.
  replace (b =? 0) with false by lia. reflexivity.
Qed.
Lemma irem_ok t a b : 0 <= a -> 0 < b -> lo t <= 0 -> a <= hi t -> irem t a b = Ret (a mod b).
Proof.
  intros Ha Hb Hlo Hhi. unfold irem.
  rewrite Z.quot_div_nonneg, Z.rem_mod_nonneg by lia.
  assert (0 <= a / b <= a) by (split; [apply Z.div_pos; lia | apply Z.div_le_upper_bound; nia]).
  rewrite in_ity_true by lia.
  replace (b =? 0) with false by lia. reflexivity.
Qed.

(** run every checked operation whose result fits *)
Ltac ari_side := cbn [lo hi U8 U16 U32 U64 U128 USIZE I8 I16 I32]; nia.
Ltac ari :=
  repeat first
    [ rewrite bind_Ret
    | rewrite iadd_ok by ari_side
    | rewrite isub_ok by ari_side
    | rewrite imul_ok by ari_side
    | rewrite arith_ok by ari_side ].

(** ** ranges *)
Lemma zrange_nil a b : b <= a -> zrange a b = [].
Proof. intros H. unfold zrange. replace (Z.to_nat (b - a)) with 0%nat by lia. reflexivity. Qed.

Lemma zrange_cons a b : a < b -> zrange a b = a :: zrange (a + 1) b.
Proof.
  intros H. unfold zrange.
  replace (Z.to_nat (b - a)) with (S (Z.to_nat (b - (a + 1)))) by lia.
  cbn [seq map]. rewrite <- seq_shift, map_map. f_equal; [lia|].
  apply map_ext. intros k. lia.
Qed.

Lemma zrange_app a b c : a <= b <= c -> zrange a c = zrange a b ++ zrange b c.
Proof.
  intros H. unfold zrange.
  replace (Z.to_nat (c - a)) with (Z.to_nat (b - a) + Z.to_nat (c - b))%nat by lia.
  rewrite seq_app, map_app. f_equal.
  replace (0 + Z.to_nat (b - a))%nat with (Z.to_nat (b - a) + 0)%nat by lia.
  generalize 0%nat as s. intros s.
  set (n := Z.to_nat (c - b)). clearbody n. revert s.
  induction n as [|n IH]; intros s; cbn; [reflexivity|].
  f_equal; [lia|]. replace (S (Z.to_nat (b - a) + s)) with (Z.to_nat (b - a) + S s)%nat by lia. apply IH.
Qed.

Lemma zrange_snoc a b : a <= b -> zrange a (b + 1) = zrange a b ++ [b].
Proof.
  intros H. rewrite (zrange_app a b (b + 1)) by lia. f_equal.
  rewrite zrange_cons by lia. rewrite zrange_nil by lia. reflexivity.
Qed.

Lemma in_zrange a b x : In x (zrange a b) <-> a <= x < b.
Proof.
  unfold zrange. rewrite in_map_iff. split.
  - intros [k [Hk Hin]]. apply in_seq in Hin. lia.
  - intros H. exists (Z.to_nat (x - a)). split; [lia|]. apply in_seq. lia.
Qed.

Lemma zrange_length a b : length (zrange a b) = Z.to_nat (b - a).
Proof. unfold zrange. rewrite map_length, seq_length. reflexivity. Qed.
Lemma len_zrange a b : a <= b -> len (zrange a b) = b - a.
Proof. intros H. unfold len. rewrite zrange_length. lia. Qed.

Lemma NoDup_zrange a b : NoDup (zrange a b).
Proof.
  unfold zrange. apply FinFun.Injective_map_NoDup; [|apply seq_NoDup].
  intros x y H. lia.
Qed.

Lemma nth_zrange a b k d : 0 <= k < b - a -> nth (Z.to_nat k) (zrange a b) d = a + k.
Proof.
  intros H. unfold zrange.
  rewrite (nth_indep _ d (a + Z.of_nat 0)) by (rewrite map_length, seq_length; lia).
  rewrite (map_nth (fun k0 => a + Z.of_nat k0) _ 0%nat).
  rewrite seq_nth by lia. lia.
Qed.

Lemma nth_error_zrange a b k : 0 <= k < b - a -> nth_error (zrange a b) (Z.to_nat k) = Some (a + k).
Proof.
  intros H. rewrite (nth_error_nth' _ 0) by (rewrite zrange_length; lia).
  rewrite nth_zrange by lia. reflexivity.
Qed.

Lemma zrange_shift a b : zrange a b = map (fun k => a + k) (zrange 0 (b - a)).
Proof.
  unfold zrange. rewrite map_map. replace (b - a - 0) with (b - a) by lia.
  apply map_ext. intros. lia.
Qed.

Lemma zrange_ind (P : Z -> Prop) a b :
  a <= b -> P a -> (forall k, a <= k < b -> P k -> P (k + 1)) -> P b.
Proof.
  intros Hab Ha Hs.
  assert (forall n, a + Z.of_nat n <= b -> P (a + Z.of_nat n)) as H.
  { induction n as [|n IH]; intros Hn; [replace (a + Z.of_nat 0) with a by lia; exact Ha|].
    replace (a + Z.of_nat (S n)) with (a + Z.of_nat n + 1) by lia. apply Hs; [lia|]. apply IH. lia. }
  specialize (H (Z.to_nat (b - a))).
  replace (a + Z.of_nat (Z.to_nat (b - a))) with b in H by lia. apply H. lia.
Qed.

(** ** folds *)
Lemma mfold_app {A S} (f : S -> A -> outcome S) l1 l2 s :
  mfold f (l1 ++ l2) s = bind (mfold f l1 s) (mfold f l2).
Proof.
  revert s. induction l1 as [|a l1 IH]; intros s; cbn; [reflexivity|].
  destruct (f s a); cbn; auto.
Qed.

Lemma mfold_ext {A S} (f g : S -> A -> outcome S) l s :
  (forall s a, In a l -> f s a = g s a) -> mfold f l s = mfold g l s.
Proof.
  revert s. induction l as [|a l IH]; intros s H; cbn; [reflexivity|].
  rewrite (H s a) by (left; reflexivity). destruct (g s a); cbn; auto.
  apply IH. intros. apply H. right. assumption.
Qed.

(** extensionality under an invariant of the state *)
Lemma mfold_ext_inv {A S} (P : S -> Prop) (f g : S -> A -> outcome S) l s :
  P s ->
  (forall s a, P s -> In a l -> f s a = g s a) ->
  (forall s a s', P s -> In a l -> g s a = Ret s' -> P s') ->
  mfold f l s = mfold g l s.
Proof.
  revert s. induction l as [|a l IH]; intros s Hs H Hp; cbn; [reflexivity|].
  rewrite (H s a) by (auto; left; reflexivity). destruct (g s a) as [s'| | |] eqn:E; cbn; auto.
  apply IH; [eapply Hp; eauto; left; reflexivity | |].
  - intros. apply H; [assumption|right; assumption].
  - intros s1 a1 s2 H1 H2 H3. eapply Hp; eauto. right; assumption.
Qed.

Lemma mfold_map {A B S} (h : B -> A) (f : S -> A -> outcome S) l s :
  mfold f (map h l) s = mfold (fun s b => f s (h b)) l s.
Proof. revert s. induction l as [|b l IH]; intros s; cbn; [reflexivity|]. destruct (f s (h b)); cbn; auto. Qed.

Lemma mfold_flat_map {A B S} (h : B -> list A) (f : S -> A -> outcome S) l s :
  mfold f (flat_map h l) s = mfold (fun s b => mfold f (h b) s) l s.
Proof.
  revert s. induction l as [|b l IH]; intros s; cbn; [reflexivity|].
  rewrite mfold_app. destruct (mfold f (h b) s); cbn; auto.
Qed.

Lemma mfold_inv {A S} (P : S -> Prop) (f : S -> A -> outcome S) l s :
  P s -> (forall s a, P s -> In a l -> exists s', f s a = Ret s' /\ P s') ->
  exists s', mfold f l s = Ret s' /\ P s'.
Proof.
  revert s. induction l as [|a l IH]; intros s Hs H; cbn; [eauto|].
  destruct (H s a Hs (or_introl eq_refl)) as [s1 [E Hs1]]. rewrite E. cbn.
  apply IH; [exact Hs1|]. intros. apply H; [assumption|right; assumption].
Qed.

(** an invariant indexed by the position in a range *)
Lemma mfold_zrange_inv {S} (P : Z -> S -> Prop) (f : S -> Z -> outcome S) a b s :
  a <= b -> P a s ->
  (forall k s, a <= k < b -> P k s -> exists s', f s k = Ret s' /\ P (k + 1) s') ->
  exists s', mfold f (zrange a b) s = Ret s' /\ P b s'.
Proof.
  intros Hab Hs Hstep.
  apply (zrange_ind (fun k => exists s', mfold f (zrange a k) s = Ret s' /\ P k s') a b Hab).
  - rewrite zrange_nil by lia. cbn. eauto.
  - intros k Hk [s1 [E Hs1]]. rewrite zrange_snoc by lia. rewrite mfold_app, E. cbn.
    destruct (Hstep k s1 Hk Hs1) as [s2 [E2 Hs2]]. rewrite E2. cbn. eauto.
Qed.

(** the first panicking element makes the fold panic *)
Lemma mfold_panic {A S} (P : S -> Prop) (f : S -> A -> outcome S) l s a :
  In a l -> P s ->
  (forall s b, P s -> In b l -> (exists s', f s b = Ret s' /\ P s') \/ f s b = Panic) ->
  (forall s, P s -> f s a = Panic) ->
  mfold f l s = Panic.
Proof.
  revert s. induction l as [|b l IH]; intros s Hin Hs Hstep Ha; [destruct Hin|].
  cbn. destruct Hin as [->|Hin].
  - rewrite Ha by exact Hs. reflexivity.
  - destruct (Hstep s b Hs (or_introl eq_refl)) as [[s' [E Hs']]|E]; rewrite E; cbn; [|reflexivity].
    apply IH; auto. intros. apply Hstep; [assumption|right; assumption].
Qed.

Lemma mmap_Ret {A B} (f : A -> outcome B) (g : A -> B) l :
  (forall a, In a l -> f a = Ret (g a)) -> mmap f l = Ret (map g l).
Proof.
  induction l as [|a l IH]; intros H; cbn; [reflexivity|].
  rewrite (H a) by (left; reflexivity). cbn. rewrite IH by (intros; apply H; right; assumption).
  reflexivity.
Qed.

Lemma mmap_pure {A B} (g : A -> B) l : mmap (fun a => Ret (g a)) l = Ret (map g l).
Proof. apply mmap_Ret. reflexivity. Qed.

Lemma mmap_ext {A B} (f g : A -> outcome B) l :
  (forall a, In a l -> f a = g a) -> mmap f l = mmap g l.
Proof.
  induction l as [|a l IH]; intros H; cbn; [reflexivity|].
  rewrite (H a) by (left; reflexivity). rewrite IH by (intros; apply H; right; assumption). reflexivity.
Qed.

Lemma mmap_map {A B C} (h : C -> A) (f : A -> outcome B) l :
  mmap f (map h l) = mmap (fun c => f (h c)) l.
Proof. induction l as [|c l IH]; cbn; [reflexivity|]. rewrite IH. reflexivity. Qed.

Lemma mmap_app {A B} (f : A -> outcome B) l1 l2 :
  mmap f (l1 ++ l2) = (let! a := mmap f l1 in let! b := mmap f l2 in Ret (a ++ b)).
Proof.
  induction l1 as [|a l1 IH]; cbn.
  - destruct (mmap f l2); reflexivity.
  - destruct (f a); cbn; auto. rewrite IH. destruct (mmap f l1); cbn; auto.
    destruct (mmap f l2); reflexivity.
Qed.

Lemma mmap_Forall2 {A B} (f : A -> outcome B) l bs :
  mmap f l = Ret bs <-> Forall2 (fun a b => f a = Ret b) l bs.
Proof.
  revert bs. induction l as [|a l IH]; intros bs; cbn.
  - split; [intros H; injection H as <-; constructor | intros H; inversion H; reflexivity].
  - split.
    + intros H. apply bind_inv in H as [b [Hb H]]. apply bind_inv in H as [bs' [Hbs H]].
      injection H as <-. constructor; [exact Hb|]. apply IH. exact Hbs.
    + intros H. inversion H as [|a' b l' bs' Hb Hbs]; subst. rewrite Hb. cbn.
      apply IH in Hbs. rewrite Hbs. reflexivity.
Qed.

Lemma mmap_panic {A B} (f : A -> outcome B) l a :
  In a l -> f a = Panic -> (forall b, In b l -> (exists c, f b = Ret c) \/ f b = Panic) ->
  mmap f l = Panic.
Proof.
  induction l as [|b l IH]; intros Hin Ha H; [destruct Hin|]. cbn.
  destruct Hin as [->|Hin].
  - rewrite Ha. reflexivity.
  - destruct (H b (or_introl eq_refl)) as [[c E]|E]; rewrite E; cbn; [|reflexivity].
    rewrite IH; auto. intros. apply H. right. assumption.
Qed.

Lemma mmap_length {A B} (f : A -> outcome B) l bs : mmap f l = Ret bs -> length bs = length l.
Proof.
  intros H. apply mmap_Forall2 in H. induction H; cbn; auto.
Qed.

(** mmap as a fold pushing onto a vector *)
Lemma mfold_push {A B} (f : A -> outcome B) l acc :
  mfold (fun acc a => let! b := f a in Ret (acc ++ [b])) l acc
  = (let! bs := mmap f l in Ret (acc ++ bs)).
Proof.
  revert acc. induction l as [|a l IH]; intros acc; cbn; [rewrite app_nil_r; reflexivity|].
  destruct (f a); cbn; auto. rewrite IH. destruct (mmap f l); cbn; auto.
  rewrite <- app_assoc. reflexivity.
Qed.

(** ** vectors *)
Lemma len_nonneg {A} (v : list A) : 0 <= len v.
Proof. unfold len. lia. Qed.
Lemma len_app {A} (u v : list A) : len (u ++ v) = len u + len v.
Proof. unfold len. rewrite app_length. lia. Qed.
Lemma len_map {A B} (f : A -> B) v : len (map f v) = len v.
Proof. unfold len. rewrite map_length. reflexivity. Qed.
Lemma len_repeat {A} (x : A) n : len (repeat x n) = Z.of_nat n.
Proof. unfold len. rewrite repeat_length. reflexivity. Qed.

Lemma vget_ok {A} (v : list A) i d : 0 <= i < len v -> vget v i = Ret (nth (Z.to_nat i) v d).
Proof.
  intros H. unfold vget. replace ((0 <=? i) && (i <? len v)) with true by lia.
  rewrite (nth_error_nth' v d) by (unfold len in H; lia). reflexivity.
Qed.
Lemma vget_panic {A} (v : list A) i : ~ (0 <= i < len v) -> vget v i = Panic.
Proof. intros H. unfold vget. replace ((0 <=? i) && (i <? len v)) with false by lia. reflexivity. Qed.
Lemma vget_inv {A} (v : list A) i x : vget v i = Ret x -> 0 <= i < len v /\ nth_error v (Z.to_nat i) = Some x.
Proof.
  unfold vget. destruct ((0 <=? i) && (i <? len v)) eqn:E; [|discriminate].
  destruct (nth_error v (Z.to_nat i)) eqn:E2; [|discriminate].
  intros H. injection H as ->. split; [lia|reflexivity].
Qed.
Lemma vget_nth_error {A} (v : list A) i x :
  0 <= i -> nth_error v (Z.to_nat i) = Some x -> vget v i = Ret x.
Proof.
  intros Hi H. assert (nth_error v (Z.to_nat i) <> None) as Hn by congruence.
  apply nth_error_Some in Hn.
  unfold vget. rewrite H. replace ((0 <=? i) && (i <? len v)) with true by (unfold len; lia). reflexivity.
Qed.

Lemma upd_length {A} (v : list A) i x : length (upd v i x) = length v.
Proof. revert i. induction v as [|a v IH]; intros [|i]; cbn; auto. Qed.
Lemma nth_upd {A} (v : list A) i x j d :
  (i < length v)%nat -> nth j (upd v i x) d = if Nat.eqb j i then x else nth j v d.
Proof.
  revert i j. induction v as [|a v IH]; intros [|i] [|j] H; cbn in *; try lia; auto.
  apply IH. lia.
Qed.
Lemma upd_app {A} (u v : list A) x y : upd (u ++ x :: v) (length u) y = u ++ y :: v.
Proof. induction u as [|a u IH]; cbn; [reflexivity|]. f_equal. exact IH. Qed.
Lemma upd_map {A B} (f : A -> B) v i x : map f (upd v i x) = upd (map f v) i (f x).
Proof. revert i. induction v as [|a v IH]; intros [|i]; cbn; auto. f_equal; auto. Qed.

Lemma vset_ok {A} (v : list A) i x : 0 <= i < len v -> vset v i x = Ret (upd v (Z.to_nat i) x).
Proof. intros H. unfold vset. replace ((0 <=? i) && (i <? len v)) with true by lia. reflexivity. Qed.
Lemma vset_panic {A} (v : list A) i x : ~ (0 <= i < len v) -> vset v i x = Panic.
Proof. intros H. unfold vset. replace ((0 <=? i) && (i <? len v)) with false by lia. reflexivity. Qed.
Lemma len_upd {A} (v : list A) i x : len (upd v i x) = len v.
Proof. unfold len. rewrite upd_length. reflexivity. Qed.

Lemma vslice_ok {A} (v : list A) a b : 0 <= a <= b -> b <= len v ->
  vslice v a b = Ret (firstn (Z.to_nat (b - a)) (skipn (Z.to_nat a) v)).
Proof.
  intros H1 H2. unfold vslice.
  replace ((0 <=? a) && (a <=? b) && (b <=? len v)) with true by lia. reflexivity.
Qed.
Lemma vslice_panic {A} (v : list A) a b : ~ (0 <= a <= b /\ b <= len v) -> vslice v a b = Panic.
Proof.
  intros H. unfold vslice.
  replace ((0 <=? a) && (a <=? b) && (b <=? len v)) with false by lia. reflexivity.
Qed.
Lemma vcopy_ok {A} (v : list A) a b src : 0 <= a <= b -> b <= len v -> len src = b - a ->
  vcopy v a b src = Ret (firstn (Z.to_nat a) v ++ src ++ skipn (Z.to_nat b) v).
Proof.
  intros H1 H2 H3. unfold vcopy.
  replace ((0 <=? a) && (a <=? b) && (b <=? len v) && (len src =? b - a)) with true by lia. reflexivity.
Qed.
Lemma vcopy_panic {A} (v : list A) a b src :
  ~ (0 <= a <= b /\ b <= len v /\ len src = b - a) -> vcopy v a b src = Panic.
Proof.
  intros H. unfold vcopy.
  replace ((0 <=? a) && (a <=? b) && (b <=? len v) && (len src =? b - a)) with false by lia. reflexivity.
Qed.

Lemma nth_firstn {A} (v : list A) n i d : (i < n)%nat -> nth i (firstn n v) d = nth i v d.
Proof.
  revert v i. induction n as [|n IH]; intros v i H; [lia|].
  destruct v as [|a v]; [reflexivity|]. destruct i as [|i]; cbn; [reflexivity|]. apply IH. lia.
Qed.
Lemma nth_skipn {A} (v : list A) n i d : nth i (skipn n v) d = nth (n + i) v d.
Proof.
  revert v. induction n as [|n IH]; intros v; [reflexivity|].
  destruct v as [|a v]; cbn; [destruct i; reflexivity|]. apply IH.
Qed.
Lemma nth_repeat' {A} (x d : A) n i : (i < n)%nat -> nth i (repeat x n) d = x.
Proof. revert i. induction n as [|n IH]; intros [|i] H; cbn; try lia; auto. apply IH. lia. Qed.

(** lists are equal when their lengths and all entries agree *)
Lemma list_ext {A} (u v : list A) d :
  length u = length v -> (forall i, (i < length u)%nat -> nth i u d = nth i v d) -> u = v.
Proof. intros H1 H2. apply (nth_ext u v d d H1 H2). Qed.

Lemma map_zrange_nth {A} (v : list A) d :
  map (fun i => nth (Z.to_nat i) v d) (zrange 0 (len v)) = v.
Proof.
  apply (list_ext _ _ d).
  - rewrite map_length, zrange_length. unfold len. lia.
  - intros i Hi. rewrite map_length, zrange_length in Hi.
    rewrite (nth_indep _ d ((fun i => nth (Z.to_nat i) v d) 0)) by (rewrite map_length, zrange_length; lia).
    rewrite (map_nth (fun i => nth (Z.to_nat i) v d)).
    replace i with (Z.to_nat (Z.of_nat i)) at 1 by lia.
    rewrite nth_zrange by lia. f_equal. lia.
Qed.

Lemma nth_map_zrange {A} (f : Z -> A) a b k d :
  0 <= k < b - a -> nth (Z.to_nat k) (map f (zrange a b)) d = f (a + k).
Proof.
  intros H. rewrite (nth_indep _ d (f 0)) by (rewrite map_length, zrange_length; lia).
  rewrite map_nth, nth_zrange by lia. reflexivity.
Qed.

(** ** concatenation of equal-length pieces *)
Lemma length_concat_const {A} (l : list (list A)) n :
  (forall x, In x l -> length x = n) -> length (concat l) = (length l * n)%nat.
Proof.
  induction l as [|x l IH]; intros H; cbn; [reflexivity|].
  rewrite app_length, (H x) by (left; reflexivity). rewrite IH by (intros; apply H; right; assumption). lia.
Qed.

Lemma slice_concat_const {A} (l : list (list A)) n i :
  (forall x, In x l -> length x = n) -> (i < length l)%nat ->
  firstn n (skipn (i * n) (concat l)) = nth i l [].
Proof.
  revert i. induction l as [|x l IH]; intros i H Hi; cbn in *; [lia|].
  assert (length x = n) as Hx by (apply H; auto).
  destruct i as [|i]; cbn.
  - rewrite firstn_app, Hx, Nat.sub_diag. cbn. rewrite app_nil_r. apply firstn_all2. lia.
  - rewrite skipn_app. rewrite (skipn_all2 x) by (rewrite Hx; lia). cbn.
    replace (n + i * n - length x)%nat with (i * n)%nat by lia. apply IH; [auto|lia].
Qed.

Lemma fold_left_app_concat {A} (l : list (list A)) acc :
  fold_left (fun acc v => acc ++ v) l acc = acc ++ concat l.
Proof.
  revert acc. induction l as [|x l IH]; intros acc; cbn; [rewrite app_nil_r; reflexivity|].
  rewrite IH, <- app_assoc. reflexivity.
Qed.

Lemma skipn_skipn' {A} a b (l : list A) : skipn a (skipn b l) = skipn (b + a) l.
Proof.
  revert l. induction b as [|b IHb]; intros l; [reflexivity|].
  destruct l as [|x l]; [rewrite !skipn_nil; reflexivity|]. cbn. apply IHb.
Qed.

(** a list of length n*k is the concatenation of its k-slices *)
Lemma concat_slices {A} (v : list A) n k :
  length v = (n * k)%nat ->
  concat (map (fun i => firstn k (skipn (i * k) v)) (seq 0 n)) = v.
Proof.
  revert v. induction n as [|n IH]; intros v H; cbn [Nat.mul] in *.
  - destruct v; [reflexivity|discriminate].
  - cbn [seq map concat]. rewrite <- seq_shift, map_map. cbn [Nat.mul skipn].
    transitivity (firstn k v ++ skipn k v); [|apply firstn_skipn]. f_equal.
    etransitivity; [|apply (IH (skipn k v)); rewrite skipn_length; lia].
    f_equal. apply map_ext. intros i. rewrite skipn_skipn'. reflexivity.
Qed.
