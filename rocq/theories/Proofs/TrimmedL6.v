(** Lemmas about Model/Trimmed.v: every row, one window at a time. *)
From Verif.Model Require Import Base Float Image Median Trimmed.
From Verif.Spec Require Import ImageS SumS MedianS TrimmedS TrimmedRowsS.
From Verif.Proofs Require Import BaseL ImageL ImageOps SumL LoopL MedianL MedianL2 MedianL3 MeanL TrimmedL TrimmedL2 TrimmedL3.
Open Scope Z_scope.

Lemma arith_inv_I32 p z x : arith p I32 z = Ret x -> x = wrap32 z.
Proof.
  unfold arith, wrap32. destruct (in_ity I32 z) eqn:E.
  - intros Ex. injection Ex as <-. unfold in_ity in E. cbn [lo hi I32] in E. apply andb_prop in E as [E1 E2].
    rewrite Z.mod_small by lia. lia.
  - destruct p; [discriminate|]. intros Ex. injection Ex as <-. reflexivity.
Qed.
Lemma wrap32_range z : - 2 ^ 31 <= wrap32 z < 2 ^ 31.
Proof. unfold wrap32. pose proof (Z.mod_pos_bound (z + 2 ^ 31) (2 ^ 32) ltac:(lia)). lia. Qed.

Lemma item_vget l i (x : Z) : vget l i = Ret x -> item l i = Some x.
Proof.
  unfold vget, item. destruct ((0 <=? i) && (i <? len l)); [|discriminate]. destruct (nth_error l (Z.to_nat i)); [|discriminate].
  intros E. injection E as ->. reflexivity.
Qed.
Lemma part_start {A} (l : list A) i : part l 0 i = firstn (Z.to_nat i) l.
Proof. unfold part. cbn [Z.to_nat skipn]. f_equal. f_equal. lia. Qed.
Lemma part_end {A} (l : list A) i : 0 <= i -> part l i (len l) = skipn (Z.to_nat i) l.
Proof. intros Hi. unfold part. apply firstn_all2. rewrite skipn_length. unfold len. lia. Qed.
Lemma without_inv l i l' : vremove l i = Ret l' -> without l i = Some l' /\ len l' = len l - 1.
Proof.
  unfold vremove, without. destruct (Z.leb_spec 0 i) as [H0|]; [|discriminate]. destruct (Z.ltb_spec i (len l)) as [H1|]; [|discriminate].
  cbn [andb]. intros E. injection E as <-. rewrite part_start, part_end by lia. split; [reflexivity|].
  unfold len in *. rewrite app_length, firstn_length, skipn_length. lia.
Qed.
Lemma with_item_inv l i v l' : vinsert l i v = Ret l' -> with_item l i v = Some l' /\ len l' = len l + 1.
Proof.
  unfold vinsert, with_item. destruct (Z.leb_spec 0 i) as [H0|]; [|discriminate]. destruct (Z.leb_spec i (len l)) as [H1|]; [|discriminate].
  cbn [andb]. intros E. injection E as <-. rewrite part_start, part_end by lia. split; [reflexivity|].
  unfold len in *. rewrite app_length. cbn [length]. rewrite firstn_length, skipn_length. lia.
Qed.

Lemma leading_bounds v l : 0 <= leading v l <= len l.
Proof. induction l as [|x l IH]; [unfold len; cbn; lia|]. cbn [leading]. unfold len in *. cbn [length]. destruct (x =? v); lia. Qed.
Lemma trailing_bounds v l : 0 <= trailing v l <= len l.
Proof. pose proof (leading_bounds v (rev l)) as H. unfold trailing. unfold len in *. rewrite rev_length in H. exact H. Qed.

Lemma drop_run_ok p x : forall l c, Z.abs c + len l <= 2 ^ 30 -> drop_run p l x c = Ret (c - leading x l).
Proof.
  induction l as [|j l IH]; intros c Hc; cbn [drop_run leading]; [f_equal; lia|].
  rewrite len_cons in Hc. pose proof (len_nonneg l). destruct (j =? x); [|f_equal; lia].
  rewrite isub_ok by (cbn [lo hi I32]; lia). rewrite bind_Ret, IH by lia. f_equal. lia.
Qed.

Lemma occ_cnt q row a b : len (filter q (map row (zrange a b))) = cnt q row a b.
Proof.
  unfold cnt, Zsum. generalize (zrange a b). intros l. induction l as [|k l IH]; [reflexivity|].
  cbn [map filter fold_right]. rewrite <- IH. unfold b2z. destruct (q (row k)); [rewrite len_cons|]; lia.
Qed.

Lemma first_key_ok p nc d n f : forall keys, (forall k, In k keys -> get_count p nc d k n = Ret (f k)) ->
  first_key p nc d n keys = Ret (find (fun k => 0 <? f k) keys).
Proof.
  induction keys as [|k keys IH]; intros H; [reflexivity|]. cbn [first_key find]. rewrite (H k (or_introl eq_refl)), bind_Ret.
  destruct (0 <? f k); [reflexivity|]. apply IH. intros k' Hk'. apply H. right. exact Hk'.
Qed.

Lemma mfold_zrange_Ret {S} (P : Z -> S -> Prop) (f : S -> Z -> outcome S) a b : a <= b ->
  (forall i s s', a <= i < b -> P i s -> f s i = Ret s' -> P (i + 1) s') ->
  forall s s', P a s -> mfold f (zrange a b) s = Ret s' -> P b s'.
Proof.
  intros Hab Hf.
  assert (G : forall m i, a <= i <= b -> m = Z.to_nat (b - i) -> forall s s', P i s -> mfold f (zrange i b) s = Ret s' -> P b s').
  { induction m as [|m IH]; intros i Hi Em s s' Hs E.
    - rewrite zrange_nil in E by lia. cbn [mfold] in E. injection E as <-. replace b with i by lia. exact Hs.
    - rewrite zrange_cons in E by lia. cbn [mfold] in E. apply bind_inv in E as [s1 [E1 E2]].
      apply (IH (i + 1) ltac:(lia) ltac:(lia) s1 s'); [|exact E2]. apply (Hf i s s1); [lia|exact Hs|exact E1]. }
  intros s s' Hs E. exact (G _ a ltac:(lia) eq_refl s s' Hs E).
Qed.

Definition set_at (st : Z -> window_state) (n : Z) (w : window_state) : Z -> window_state := fun m => if m =? n then w else st m.

Section Column.
  Context (p : profile) (bs : search) (r nc alpha : Z).
  Hypothesis Hr : 0 <= r <= 127.
  Hypothesis Hnc : 0 < nc < 2 ^ 31.
  Hypothesis Hodd : nc mod 2 = 1.
  Notation sz := (ksize r).
  Notation nh := (n_half nc).
  Hypothesis Ha : 2 <= alpha <= 65025.
  Notation t := (alpha / 2).

  Definition Kmax : Z := 1000000.
  Definition dat (d : phist) (K : Z -> Z -> Z) : Prop := rep nc d (fun n v => if n =? nh then K n v else K n v - K nh v).
  Definition Kok (K : Z -> Z -> Z) : Prop := forall n v, 0 <= n < nc -> 0 <= v < 256 -> Z.abs (K n v) <= Kmax.
  Definition wok (w : window_state) : Prop :=
    - 2 ^ 31 <= ws_sum w <= 2 ^ 31 /\ len (ws_low w) <= t /\ len (ws_high w) <= t /\
    (forall s, In s (ws_low w) -> 0 <= s < 256) /\ (forall s, In s (ws_high w) -> 0 <= s < 256).

  (** the lists of the histogram hold the states st *)
  Definition hrel (h : meanhist) (K : Z -> Z -> Z) (st : Z -> window_state) : Prop :=
    dat (th_data h) K /\ len (th_sums h) = nc /\ len (th_lower h) = nc /\ len (th_upper h) = nc /\
    forall n, 0 <= n < nc -> nth (Z.to_nat n) (th_sums h) 0 = ws_sum (st n) /\ nth (Z.to_nat n) (th_lower h) [] = ws_low (st n) /\
      nth (Z.to_nat n) (th_upper h) [] = ws_high (st n) /\ wok (st n).

  Lemma hrel_ext h K st st' : hrel h K st -> (forall n, 0 <= n < nc -> st n = st' n) -> hrel h K st'.
  Proof.
    intros (A & B & C & D & E) G. split; [exact A|]. split; [exact B|]. split; [exact C|]. split; [exact D|].
    intros n Hn. rewrite <- (G n Hn). apply E. exact Hn.
  Qed.
  Lemma hrel_start h K st n : hrel h K st -> hrel h K (set_at st n (st n)).
  Proof. intros H. eapply hrel_ext; [exact H|]. intros m _. unfold set_at. destruct (Z.eqb_spec m n) as [->|]; reflexivity. Qed.

  Lemma get_count_dat d K i key : dat d K -> Kok K -> 0 <= i < nc -> 0 <= key < 256 -> get_count p nc d key i = Ret (K i key).
  Proof.
    intros [Hl H] HK Hi Hk. pose proof (nh_in nc Hnc Hodd) as Hn. unfold get_count.
    rewrite (vget_ok d nh []) by lia. rewrite bind_Ret. destruct (H nh Hn) as [A C].
    rewrite (vget_ok _ key 0) by lia. rewrite bind_Ret, C by lia. rewrite Z.eqb_refl.
    destruct (Z.eqb_spec i nh) as [->|N]; cbn [negb]; [reflexivity|].
    rewrite (vget_ok d i []) by lia. rewrite bind_Ret. destruct (H i Hi) as [A' C'].
    rewrite (vget_ok _ key 0) by lia. rewrite bind_Ret, C' by lia.
    destruct (Z.eqb_spec i nh); [lia|]. pose proof (HK i key Hi Hk) as B1. unfold Kmax in B1.
    rewrite iadd_ok by (cbn [lo hi I32]; lia). f_equal. lia.
  Qed.

  (** ** the small updates *)
  Lemma edit_lower_inv h K st n w f h' : hrel h K (set_at st n w) -> 0 <= n < nc -> edit_lower h n f = Ret h' ->
    exists l', f (ws_low w) = Ret l' /\ (len l' <= t -> (forall s, In s l' -> 0 <= s < 256) ->
      hrel h' K (set_at st n (WindowState (ws_sum w) l' (ws_high w)))).
  Proof.
    intros (A & B & C & D & E) Hn Eq. unfold edit_lower in Eq. rewrite (vget_ok _ n []) in Eq by lia. rewrite bind_Ret in Eq.
    pose proof (E n Hn) as E0. unfold set_at in E0. rewrite Z.eqb_refl in E0. destruct E0 as (E1 & E2 & E3 & E4).
    rewrite E2 in Eq. apply bind_inv in Eq as [l' [F Eq]]. exists l'. split; [exact F|]. intros Hl Hb.
    rewrite vset_ok in Eq by lia. rewrite bind_Ret in Eq. injection Eq as <-.
    split; [exact A|]. cbn [th_sums th_lower th_upper]. rewrite len_upd. split; [exact B|]. split; [exact C|]. split; [exact D|].
    intros m Hm. rewrite nth_upd by (unfold len in C; lia). specialize (E m Hm). unfold set_at in *.
    destruct (Z.eqb_spec m n) as [Emn|N]; [subst m|].
    - rewrite Nat.eqb_refl. cbn [ws_sum ws_low ws_high]. split; [exact E1|]. split; [reflexivity|]. split; [exact E3|].
      destruct E4 as (G1 & G2 & G3 & G4 & G5). unfold wok. cbn [ws_sum ws_low ws_high]. tauto.
    - destruct (Nat.eqb_spec (Z.to_nat m) (Z.to_nat n)); [lia|]. exact E.
  Qed.
  Lemma edit_upper_inv h K st n w f h' : hrel h K (set_at st n w) -> 0 <= n < nc -> edit_upper h n f = Ret h' ->
    exists l', f (ws_high w) = Ret l' /\ (len l' <= t -> (forall s, In s l' -> 0 <= s < 256) ->
      hrel h' K (set_at st n (WindowState (ws_sum w) (ws_low w) l'))).
  Proof.
    intros (A & B & C & D & E) Hn Eq. unfold edit_upper in Eq. rewrite (vget_ok _ n []) in Eq by lia. rewrite bind_Ret in Eq.
    pose proof (E n Hn) as E0. unfold set_at in E0. rewrite Z.eqb_refl in E0. destruct E0 as (E1 & E2 & E3 & E4).
    rewrite E3 in Eq. apply bind_inv in Eq as [l' [F Eq]]. exists l'. split; [exact F|]. intros Hl Hb.
    rewrite vset_ok in Eq by lia. rewrite bind_Ret in Eq. injection Eq as <-.
    split; [exact A|]. cbn [th_sums th_lower th_upper]. rewrite len_upd. split; [exact B|]. split; [exact C|]. split; [exact D|].
    intros m Hm. rewrite nth_upd by (unfold len in D; lia). specialize (E m Hm). unfold set_at in *.
    destruct (Z.eqb_spec m n) as [Emn|N]; [subst m|].
    - rewrite Nat.eqb_refl. cbn [ws_sum ws_low ws_high]. split; [exact E1|]. split; [exact E2|]. split; [reflexivity|].
      destruct E4 as (G1 & G2 & G3 & G4 & G5). unfold wok. cbn [ws_sum ws_low ws_high]. tauto.
    - destruct (Nat.eqb_spec (Z.to_nat m) (Z.to_nat n)); [lia|]. exact E.
  Qed.
  Lemma put_sum_inv h K st n w (f : Z -> Z) h' : hrel h K (set_at st n w) -> 0 <= n < nc ->
    (let! s := vget (th_sums h) n in let! s := arith p I32 (f s) in
     let! ss := vset (th_sums h) n s in Ret (MeanHist (th_data h) ss (th_lower h) (th_upper h))) = Ret h' ->
    hrel h' K (set_at st n (WindowState (wrap32 (f (ws_sum w))) (ws_low w) (ws_high w))).
  Proof.
    intros (A & B & C & D & E) Hn Eq. rewrite (vget_ok _ n 0) in Eq by lia. rewrite bind_Ret in Eq.
    pose proof (E n Hn) as E0. unfold set_at in E0. rewrite Z.eqb_refl in E0. destruct E0 as (E1 & E2 & E3 & E4).
    rewrite E1 in Eq. apply bind_inv in Eq as [s' [F Eq]]. apply arith_inv_I32 in F. subst s'.
    rewrite vset_ok in Eq by lia. rewrite bind_Ret in Eq. injection Eq as <-.
    split; [exact A|]. cbn [th_sums th_lower th_upper]. rewrite len_upd. split; [exact B|]. split; [exact C|]. split; [exact D|].
    intros m Hm. rewrite nth_upd by (unfold len in B; lia). specialize (E m Hm). unfold set_at in *.
    destruct (Z.eqb_spec m n) as [Emn|N]; [subst m|].
    - rewrite Nat.eqb_refl. cbn [ws_sum ws_low ws_high]. split; [reflexivity|]. split; [exact E2|]. split; [exact E3|].
      destruct E4 as (G1 & G2 & G3 & G4 & G5). unfold wok. cbn [ws_sum ws_low ws_high]. pose proof (wrap32_range (f (ws_sum w))). split; [lia|]. tauto.
    - destruct (Nat.eqb_spec (Z.to_nat m) (Z.to_nat n)); [lia|]. exact E.
  Qed.
  Lemma add_sum_inv h K st n w v h' : hrel h K (set_at st n w) -> 0 <= n < nc -> add_sum p h n v = Ret h' ->
    hrel h' K (set_at st n (WindowState (wrap32 (ws_sum w + v)) (ws_low w) (ws_high w))).
  Proof. intros H Hn E. apply (put_sum_inv h K st n w (fun s => s + v) h' H Hn E). Qed.
  Lemma sub_sum_inv h K st n w v h' : hrel h K (set_at st n w) -> 0 <= n < nc -> sub_sum p h n v = Ret h' ->
    hrel h' K (set_at st n (WindowState (wrap32 (ws_sum w - v)) (ws_low w) (ws_high w))).
  Proof. intros H Hn E. apply (put_sum_inv h K st n w (fun s => s - v) h' H Hn E). Qed.

  Lemma t_bounds : 1 <= t /\ t <= 32512.
  Proof. split; [apply Z.div_le_lower_bound; lia|]. apply Z.lt_succ_r. apply Z.div_lt_upper_bound; lia. Qed.

  Lemma get_lower_inv h K st n w l : hrel h K (set_at st n w) -> 0 <= n < nc -> get_lower p alpha h n = Ret l ->
    item (ws_low w) (t - 1) = Some l /\ vget (th_lower h) n = Ret (ws_low w) /\ 0 <= l < 256.
  Proof.
    intros (A & B & C & D & E) Hn Eq. unfold get_lower in Eq. rewrite (vget_ok _ n []) in Eq by lia. rewrite bind_Ret in Eq.
    specialize (E n Hn). unfold set_at in E. rewrite Z.eqb_refl in E. destruct E as (E1 & E2 & E3 & E4). rewrite E2 in Eq.
    pose proof t_bounds. unfold trim in Eq. rewrite isub_ok in Eq by ity_lia. rewrite bind_Ret in Eq.
    split; [apply item_vget; exact Eq|]. split; [rewrite (vget_ok _ n []) by lia; rewrite E2; reflexivity|].
    apply vget_inv in Eq as [_ Eq]. apply nth_error_In in Eq. apply E4 in Eq. exact Eq.
  Qed.
  Lemma get_upper_inv h K st n w l : hrel h K (set_at st n w) -> 0 <= n < nc -> get_upper p alpha h n = Ret l ->
    item (ws_high w) (t - 1) = Some l /\ vget (th_upper h) n = Ret (ws_high w) /\ 0 <= l < 256.
  Proof.
    intros (A & B & C & D & E) Hn Eq. unfold get_upper in Eq. rewrite (vget_ok _ n []) in Eq by lia. rewrite bind_Ret in Eq.
    specialize (E n Hn). unfold set_at in E. rewrite Z.eqb_refl in E. destruct E as (E1 & E2 & E3 & E4). rewrite E3 in Eq.
    pose proof t_bounds. unfold trim in Eq. rewrite isub_ok in Eq by ity_lia. rewrite bind_Ret in Eq.
    split; [apply item_vget; exact Eq|]. split; [rewrite (vget_ok _ n []) by lia; rewrite E3; reflexivity|].
    apply vget_inv in Eq as [_ Eq]. apply nth_error_In in Eq. apply E4 in Eq. exact Eq.
  Qed.
  Lemma hrel_wok h K st n w : hrel h K (set_at st n w) -> 0 <= n < nc -> wok w.
  Proof. intros (A & B & C & D & E) Hn. specialize (E n Hn). unfold set_at in E. rewrite Z.eqb_refl in E. tauto. Qed.

  Lemma part_in {A} (l : list A) a b s : In s (part l a b) -> In s l.
  Proof.
    unfold part. intros H. rewrite <- (firstn_skipn (Z.to_nat a) l). apply in_or_app. right.
    rewrite <- (firstn_skipn (Z.to_nat (b - a)) (skipn (Z.to_nat a) l)). apply in_or_app. left. exact H.
  Qed.
  Lemma without_in l i l' s : without l i = Some l' -> In s l' -> In s l.
  Proof.
    unfold without. destruct (_ && _); [|discriminate]. intros E. injection E as <-. intros H. apply in_app_or in H as [H|H]; eapply part_in; exact H.
  Qed.
  Lemma with_item_in l i v l' s : with_item l i v = Some l' -> In s l' -> s = v \/ In s l.
  Proof.
    unfold with_item. destruct (_ && _); [|discriminate]. intros E. injection E as <-. intros H. apply in_app_or in H as [H|[H|H]]; [right|left|right]; try (eapply part_in; exact H). symmetry. exact H.
  Qed.

  (** ** one sample comes in *)
  Lemma add_one_inv h K st n w p_in c row i h' : hrel h K (set_at st n w) -> rowok r nc p_in c row -> 0 <= n < nc -> n <= i < n + sz ->
    add_one p bs alpha p_in c n h i = Ret h' ->
    exists w', enter bs t (row i) w = Some w' /\ hrel h' K (set_at st n w').
  Proof.
    intros HR Hrow Hn Hi E. pose proof t_bounds as [T1 T2]. unfold add_one in E.
    destruct (Hrow i) as [Hv [px [E1 E2]]]; [unfold ksize in Hi; lia|]. rewrite E1, bind_Ret, E2, bind_Ret in E.
    apply bind_inv in E as [l [El E]]. apply bind_inv in E as [u [Eu E]].
    destruct (get_lower_inv _ _ _ _ _ _ HR Hn El) as (L1 & L2 & L3). destruct (get_upper_inv _ _ _ _ _ _ HR Hn Eu) as (U1 & U2 & U3).
    pose proof (hrel_wok _ _ _ _ _ HR Hn) as (W1 & W2 & W3 & W4 & W5).
    destruct w as [s low high]. cbn [ws_sum ws_low ws_high] in *. unfold enter. rewrite L1, U1. unfold trim in E.
    destruct (row i <? l).
    - rewrite isub_ok in E by ity_lia. rewrite bind_Ret in E.
      apply bind_inv in E as [h1 [E3 E]]. destruct (edit_lower_inv _ _ _ _ _ _ _ HR Hn E3) as [low' [F1 G1]]. cbn [ws_sum ws_low ws_high] in *.
      apply without_inv in F1 as [F1 F2]. rewrite F1. specialize (G1 ltac:(lia) ltac:(intros s' Hs'; apply W4; eapply without_in; eassumption)).
      apply bind_inv in E as [h2 [E4 E]]. pose proof (add_sum_inv _ _ _ _ _ _ _ G1 Hn E4) as G2. cbn [ws_sum ws_low ws_high] in G2.
      destruct (edit_lower_inv _ _ _ _ _ _ _ G2 Hn E) as [low'' [F3 G3]]. cbn [ws_sum ws_low ws_high] in *.
      unfold search_up, pos_of in F3. apply with_item_inv in F3 as [F3 F4]. unfold place. rewrite F3.
      eexists. split; [reflexivity|]. apply G3; [lia|]. intros s' Hs'. destruct (with_item_in _ _ _ _ _ F3 Hs') as [->|Hs2]; [lia|]. apply W4. eapply without_in; eassumption.
    - destruct (u <? row i).
      + rewrite isub_ok in E by ity_lia. rewrite bind_Ret in E.
        apply bind_inv in E as [h1 [E3 E]]. destruct (edit_upper_inv _ _ _ _ _ _ _ HR Hn E3) as [high' [F1 G1]]. cbn [ws_sum ws_low ws_high] in *.
        apply without_inv in F1 as [F1 F2]. rewrite F1. specialize (G1 ltac:(lia) ltac:(intros s' Hs'; apply W5; eapply without_in; eassumption)).
        apply bind_inv in E as [h2 [E4 E]]. pose proof (add_sum_inv _ _ _ _ _ _ _ G1 Hn E4) as G2. cbn [ws_sum ws_low ws_high] in G2.
        apply bind_inv in E as [lw [E5 E]].
        assert (Elw : lw = low).
        { destruct G2 as (_ & _ & C2 & _ & G2). specialize (G2 n Hn). unfold set_at in G2. rewrite Z.eqb_refl in G2. destruct G2 as (_ & G2 & _).
          rewrite (vget_ok _ n []) in E5 by lia. rewrite G2 in E5. injection E5 as <-. reflexivity. }
        subst lw.
        destruct (edit_upper_inv _ _ _ _ _ _ _ G2 Hn E) as [high'' [F3 G3]]. cbn [ws_sum ws_low ws_high] in *.
        unfold search_down, pos_of in F3. apply with_item_inv in F3 as [F3 F4]. unfold place. rewrite F3.
        eexists. split; [reflexivity|]. apply G3; [lia|]. intros s' Hs'. destruct (with_item_in _ _ _ _ _ F3 Hs') as [->|Hs2]; [lia|]. apply W5. eapply without_in; eassumption.
      + eexists. split; [reflexivity|]. exact (add_sum_inv _ _ _ _ _ _ _ HR Hn E).
  Qed.

  Lemma add_all_inv K st n p_in c row h : forall i w h', hrel h K (set_at st n w) -> rowok r nc p_in c row -> 0 <= n < nc -> n <= i <= n + sz ->
    mfold (add_one p bs alpha p_in c n) (zrange i (n + sz)) h = Ret h' ->
    exists w', enter_all bs t (map row (zrange i (n + sz))) w = Some w' /\ hrel h' K (set_at st n w').
  Proof.
    intros i w h' HR Hrow Hn Hi. remember (Z.to_nat (n + sz - i)) as m eqn:Em. revert i h w HR Hi Em.
    induction m as [|m IH]; intros i h w HR Hi Em E.
    - rewrite zrange_nil in * by lia. cbn [mfold map enter_all] in *. injection E as <-. eexists. split; [reflexivity|exact HR].
    - rewrite zrange_cons in * by lia. cbn [mfold map enter_all] in *. apply bind_inv in E as [h1 [E1 E2]].
      destruct (add_one_inv h K st n w p_in c row i h1 HR Hrow Hn ltac:(lia) E1) as [w1 [F1 G1]]. rewrite F1.
      apply (IH (i + 1) h1 w1 G1 ltac:(lia) ltac:(lia) E2).
  Qed.

  (** ** one sample goes out *)
  Lemma count_rest_ok p_in c row l u : rowok r nc p_in c row -> forall i e lc uc, 0 <= i <= e -> e <= nc + 2 * r -> e - i <= 255 ->
    Z.abs lc <= 10000000 -> Z.abs uc <= 10000000 ->
    mfold (count_rest p p_in c l u) (zrange i e) (lc, uc) =
    Ret (lc + occurrences l (map row (zrange i e)), uc + (if l =? u then 0 else occurrences u (map row (zrange i e)))).
  Proof.
    intros Hrow i e lc uc Hi He Hd Hlc Huc. unfold occurrences. rewrite !occ_cnt.
    destruct (mfold_zrange_inv (fun k st => st = (lc + cnt (fun s => s =? l) row i k, uc + (if l =? u then 0 else cnt (fun s => s =? u) row i k)))
      (count_rest p p_in c l u) i e (lc, uc)) as [st [E ->]].
    - lia.
    - rewrite !cnt_nil by lia. f_equal; [lia|]. destruct (l =? u); lia.
    - intros k st Hk ->. unfold count_rest. destruct (Hrow k) as [_ [px [E1 E2]]]; [lia|]. rewrite E1, bind_Ret, E2, bind_Ret.
      pose proof (cnt_bounds (fun s => s =? l) row i k ltac:(lia)) as B1. pose proof (cnt_bounds (fun s => s =? u) row i k ltac:(lia)) as B2.
      rewrite !cnt_snoc by lia. unfold b2z.
      destruct (Z.eqb_spec (row k) l) as [E3|E3].
      + rewrite iadd_ok by (cbn [lo hi I32]; lia). rewrite bind_Ret. eexists. split; [reflexivity|]. f_equal; [lia|].
        destruct (Z.eqb_spec l u); [reflexivity|]. destruct (Z.eqb_spec (row k) u); lia.
      + destruct (Z.eqb_spec (row k) u) as [E4|E4].
        * destruct (Z.eqb_spec l u); [lia|]. rewrite iadd_ok by (cbn [lo hi I32]; lia). rewrite bind_Ret. eexists. split; [reflexivity|]. f_equal; lia.
        * eexists. split; [reflexivity|]. f_equal; [lia|]. destruct (l =? u); lia.
    - exact E.
  Qed.

  Lemma get_next_lower_inv h K st n w lc l h' : hrel h K (set_at st n w) -> Kok K -> 0 <= n < nc -> 0 <= l < 256 -> len (ws_low w) <= t - 1 ->
    get_next_lower p nc h n lc l = Ret h' -> hrel h' K (set_at st n (refill_low (K n) (0 <? lc) l w)).
  Proof.
    intros HR HK Hn Hl Hlen E. pose proof (hrel_wok _ _ _ _ _ HR Hn) as (W1 & W2 & W3 & W4 & W5).
    unfold get_next_lower in E. destruct w as [s low high]. cbn [ws_sum ws_low ws_high refill_low] in *.
    assert (PushOK : forall k h0, 0 <= k < 256 -> (let! h := edit_lower h n (fun l => Ret (l ++ [k])) in sub_sum p h n k) = Ret h0 ->
      hrel h0 K (set_at st n (WindowState (wrap32 (s - k)) (low ++ [k]) high))).
    { intros k h0 Hk E0. apply bind_inv in E0 as [h1 [E3 E0]]. destruct (edit_lower_inv _ _ _ _ _ _ _ HR Hn E3) as [low' [F1 G1]]. cbn [ws_sum ws_low ws_high] in *.
      injection F1 as <-. rewrite len_app in G1. change (len [k]) with 1 in G1.
      specialize (G1 ltac:(lia) ltac:(intros s' Hs'; apply in_app_or in Hs' as [Hs'|[<-|[]]]; [apply W4; exact Hs'|exact Hk])).
      exact (sub_sum_inv _ _ _ _ _ _ _ G1 Hn E0). }
    destruct (0 <? lc); [apply PushOK; [exact Hl|exact E]|].
    apply bind_inv in E as [a [E1 E]].
    assert (Ea : a = (l + 1) mod 256).
    { unfold iadd, arith in E1. destruct (in_ity U8 (l + 1)) eqn:Eu.
      - injection E1 as <-. unfold in_ity in Eu. cbn [lo hi U8] in Eu. rewrite Z.mod_small by lia. reflexivity.
      - destruct p; [discriminate|]. injection E1 as <-. unfold cast. cbn [lo hi U8]. rewrite Z.sub_0_r, Z.add_0_r. reflexivity. }
    subst a. pose proof (Z.mod_pos_bound (l + 1) 256 ltac:(lia)) as Hm.
    rewrite (first_key_ok p nc (th_data h) n (K n)) in E.
    2:{ intros k Hk. apply in_zrange in Hk. apply get_count_dat; [apply HR|exact HK|exact Hn|lia]. }
    rewrite bind_Ret in E. destruct (find (fun k => 0 <? K n k) (zrange ((l + 1) mod 256) 256)) as [k|] eqn:Ef.
    - apply find_some in Ef as [Ef _]. apply in_zrange in Ef. apply PushOK; [lia|exact E].
    - injection E as <-. exact HR.
  Qed.
  Lemma get_next_upper_inv h K st n w uc u h' : hrel h K (set_at st n w) -> Kok K -> 0 <= n < nc -> 0 <= u < 256 -> len (ws_high w) <= t - 1 ->
    get_next_upper p nc h n uc u = Ret h' -> hrel h' K (set_at st n (refill_high (K n) (0 <? uc) u w)).
  Proof.
    intros HR HK Hn Hl Hlen E. pose proof (hrel_wok _ _ _ _ _ HR Hn) as (W1 & W2 & W3 & W4 & W5).
    unfold get_next_upper in E. destruct w as [s low high]. cbn [ws_sum ws_low ws_high refill_high] in *.
    assert (PushOK : forall k h0, 0 <= k < 256 -> (let! h := edit_upper h n (fun l => Ret (l ++ [k])) in sub_sum p h n k) = Ret h0 ->
      hrel h0 K (set_at st n (WindowState (wrap32 (s - k)) low (high ++ [k])))).
    { intros k h0 Hk E0. apply bind_inv in E0 as [h1 [E3 E0]]. destruct (edit_upper_inv _ _ _ _ _ _ _ HR Hn E3) as [low' [F1 G1]]. cbn [ws_sum ws_low ws_high] in *.
      injection F1 as <-. rewrite len_app in G1. change (len [k]) with 1 in G1.
      specialize (G1 ltac:(lia) ltac:(intros s' Hs'; apply in_app_or in Hs' as [Hs'|[<-|[]]]; [apply W5; exact Hs'|exact Hk])).
      exact (sub_sum_inv _ _ _ _ _ _ _ G1 Hn E0). }
    destruct (0 <? uc); [apply PushOK; [exact Hl|exact E]|].
    rewrite (first_key_ok p nc (th_data h) n (K n)) in E.
    2:{ intros k Hk. rewrite <- in_rev in Hk. apply in_zrange in Hk. apply get_count_dat; [apply HR|exact HK|exact Hn|lia]. }
    rewrite bind_Ret in E. destruct (find (fun k => 0 <? K n k) (rev (zrange 0 u))) as [k|] eqn:Ef.
    - apply find_some in Ef as [Ef _]. rewrite <- in_rev in Ef. apply in_zrange in Ef. apply PushOK; [lia|exact E].
    - injection E as <-. exact HR.
  Qed.

  Lemma remove_one_inv h K st n w p_in c row i h' : hrel h K (set_at st n w) -> Kok K -> rowok r nc p_in c row -> 0 <= n < nc -> n <= i < n + sz ->
    remove_one p bs r nc alpha p_in c n h i = Ret h' ->
    exists w', leave bs t (K n) (row i) (map row (zrange i (n + sz))) w = Some w' /\ hrel h' K (set_at st n w').
  Proof.
    intros HR HK Hrow Hn Hi E. pose proof t_bounds as [T1 T2]. unfold remove_one in E.
    destruct (Hrow i) as [Hv [px [E1 E2]]]; [unfold ksize in Hi; lia|]. rewrite E1, bind_Ret, E2, bind_Ret in E.
    apply bind_inv in E as [l [El E]]. apply bind_inv in E as [u [Eu E]].
    destruct (get_lower_inv _ _ _ _ _ _ HR Hn El) as (L1 & L2 & L3). destruct (get_upper_inv _ _ _ _ _ _ HR Hn Eu) as (U1 & U2 & U3).
    pose proof (hrel_wok _ _ _ _ _ HR Hn) as (W1 & W2 & W3 & W4 & W5).
    destruct w as [s low high]. cbn [ws_sum ws_low ws_high] in *. unfold leave. rewrite L1, U1. unfold trim in E.
    rewrite (get_count_dat (th_data h) K n l) in E by (try assumption; apply HR). rewrite bind_Ret in E.
    rewrite (get_count_dat (th_data h) K n u) in E by (try assumption; apply HR). rewrite bind_Ret in E.
    pose proof (HK n l Hn L3) as B1. pose proof (HK n u Hn U3) as B2. unfold Kmax in B1, B2.
    assert (Hsz : 1 <= sz <= 255) by (unfold ksize; lia).
    rewrite (count_rest_ok p_in c row l u Hrow) in E by (unfold ksize in *; lia). rewrite bind_Ret in E. cbv beta iota in E.
    rewrite L2, bind_Ret in E. set (rest := map row (zrange i (n + sz))) in *.
    assert (Or : forall x, 0 <= occurrences x rest <= 255).
    { intros x. unfold occurrences, rest. rewrite occ_cnt. pose proof (cnt_bounds (fun s => s =? x) row i (n + sz) ltac:(lia)). lia. }
    pose proof (Or l) as O1. pose proof (Or u) as O2.
    assert (Lr : forall q : list Z, len (rev q) = len q) by (intros q; unfold len; rewrite rev_length; reflexivity).
    rewrite (drop_run_ok p l (rev low)) in E by (rewrite Lr; lia). rewrite bind_Ret in E.
    rewrite U2, bind_Ret in E. rewrite (drop_run_ok p u (rev high)) in E by (rewrite Lr; destruct (l =? u); lia). rewrite bind_Ret in E.
    change (leading l (rev low)) with (trailing l low) in E. change (leading u (rev high)) with (trailing u high) in E. cbv zeta.
    set (kl := K n l + occurrences l rest - trailing l low) in *. set (kh := K n u + (if l =? u then 0 else occurrences u rest) - trailing u high) in *.
    destruct ((row i =? l) && (kl =? 0)) eqn:C1.
    { apply andb_prop in C1 as [_ C1]. apply Z.eqb_eq in C1.
      rewrite isub_ok in E by ity_lia. rewrite bind_Ret in E.
      apply bind_inv in E as [h1 [E3 E]]. destruct (edit_lower_inv _ _ _ _ _ _ _ HR Hn E3) as [low' [F1 G1]]. cbn [ws_sum ws_low ws_high] in *.
      apply without_inv in F1 as [F1 F2]. rewrite F1. specialize (G1 ltac:(lia) ltac:(intros s' Hs'; apply W4; eapply without_in; eassumption)).
      eexists. split; [reflexivity|]. pose proof (get_next_lower_inv h1 K st n (WindowState s low' high) _ l h' G1 HK Hn L3 ltac:(cbn [ws_low]; lia) E) as G2.
      rewrite C1 in G2. exact G2. }
    destruct (row i <? l).
    { unfold search_up in E. destruct (bs low (fun e : Z => e ?= row i)) as [q|q].
      - apply bind_inv in E as [h1 [E3 E]]. destruct (edit_lower_inv _ _ _ _ _ _ _ HR Hn E3) as [low' [F1 G1]]. cbn [ws_sum ws_low ws_high] in *.
        apply without_inv in F1 as [F1 F2]. rewrite F1. specialize (G1 ltac:(lia) ltac:(intros s' Hs'; apply W4; eapply without_in; eassumption)).
        eexists. split; [reflexivity|]. exact (get_next_lower_inv h1 K st n (WindowState s low' high) _ l h' G1 HK Hn L3 ltac:(cbn [ws_low]; lia) E).
      - eexists. split; [reflexivity|]. exact (sub_sum_inv _ _ _ _ _ _ _ HR Hn E). }
    destruct ((row i =? u) && (kh =? 0)) eqn:C2.
    { apply andb_prop in C2 as [_ C2]. apply Z.eqb_eq in C2.
      rewrite isub_ok in E by ity_lia. rewrite bind_Ret in E.
      apply bind_inv in E as [h1 [E3 E]]. destruct (edit_upper_inv _ _ _ _ _ _ _ HR Hn E3) as [high' [F1 G1]]. cbn [ws_sum ws_low ws_high] in *.
      apply without_inv in F1 as [F1 F2]. rewrite F1. specialize (G1 ltac:(lia) ltac:(intros s' Hs'; apply W5; eapply without_in; eassumption)).
      eexists. split; [reflexivity|]. pose proof (get_next_upper_inv h1 K st n (WindowState s low high') _ u h' G1 HK Hn U3 ltac:(cbn [ws_high]; lia) E) as G2.
      rewrite C2 in G2. exact G2. }
    destruct (u <? row i).
    { unfold search_down in E. destruct (bs low (fun e : Z => row i ?= e)) as [q|q].
      - apply bind_inv in E as [h1 [E3 E]]. destruct (edit_upper_inv _ _ _ _ _ _ _ HR Hn E3) as [high' [F1 G1]]. cbn [ws_sum ws_low ws_high] in *.
        apply without_inv in F1 as [F1 F2]. rewrite F1. specialize (G1 ltac:(lia) ltac:(intros s' Hs'; apply W5; eapply without_in; eassumption)).
        eexists. split; [reflexivity|]. exact (get_next_upper_inv h1 K st n (WindowState s low high') _ u h' G1 HK Hn U3 ltac:(cbn [ws_high]; lia) E).
      - eexists. split; [reflexivity|]. exact (sub_sum_inv _ _ _ _ _ _ _ HR Hn E). }
    eexists. split; [reflexivity|]. exact (sub_sum_inv _ _ _ _ _ _ _ HR Hn E).
  Qed.

  Lemma remove_all_inv K st n p_in c row h : forall i w h', hrel h K (set_at st n w) -> Kok K -> rowok r nc p_in c row -> 0 <= n < nc -> n <= i <= n + sz ->
    mfold (remove_one p bs r nc alpha p_in c n) (zrange i (n + sz)) h = Ret h' ->
    exists w', leave_all bs t (K n) (map row (zrange i (n + sz))) w = Some w' /\ hrel h' K (set_at st n w').
  Proof.
    intros i w h' HR HK Hrow Hn Hi. remember (Z.to_nat (n + sz - i)) as m eqn:Em. revert i h w HR Hi Em.
    induction m as [|m IH]; intros i h w HR Hi Em E.
    - rewrite zrange_nil in * by lia. cbn [mfold map leave_all] in *. injection E as <-. eexists. split; [reflexivity|exact HR].
    - pose proof (zrange_cons i (n + sz) ltac:(lia)) as Ez. rewrite Ez in E. cbn [mfold] in E. apply bind_inv in E as [h1 [E1 E2]].
      destruct (remove_one_inv h K st n w p_in c row i h1 HR HK Hrow Hn ltac:(lia) E1) as [w1 [F1 G1]].
      rewrite Ez in *. cbn [map] in *. cbn [leave_all]. rewrite F1.
      apply (IH (i + 1) h1 w1 G1 ltac:(lia) ltac:(lia) E2).
  Qed.

  (** ** a row: all columns *)
  Section AllColumns.
    Context (step : Z -> meanhist -> Z -> outcome meanhist) (next : Z -> window_state -> option window_state) (K : Z -> Z -> Z).
    Hypothesis Hstep : forall h st n w h', hrel h K (set_at st n w) -> 0 <= n < nc -> mfold (step n) (zrange n (n + sz)) h = Ret h' ->
      exists w', next n w = Some w' /\ hrel h' K (set_at st n w').
    Definition moved_to (st : Z -> window_state) (n : Z) : window_state := match next n (st n) with Some w => w | None => st n end.
    Lemma columns_inv h st h' : hrel h K st -> mfold (fun h n => mfold (step n) (zrange n (n + sz)) h) (zrange 0 nc) h = Ret h' ->
      (forall n, 0 <= n < nc -> next n (st n) = Some (moved_to st n)) /\ hrel h' K (moved_to st).
    Proof.
      intros HR E.
      pose proof (mfold_zrange_Ret (fun m h => (forall n, 0 <= n < m -> next n (st n) = Some (moved_to st n)) /\
         hrel h K (fun n => if n <? m then moved_to st n else st n)) (fun h n => mfold (step n) (zrange n (n + sz)) h) 0 nc ltac:(lia)) as G.
      destruct (fun A => G A h h') as [G1 G2].
      - clear - Hstep. intros m h h' Hm [A1 A2] E. 
        destruct (Hstep h (fun n => if n <? m then moved_to st n else st n) m (st m) h') as [w' [F1 F2]].
        + eapply hrel_ext; [exact A2|]. intros n _. unfold set_at. cbn beta. destruct (Z.eqb_spec n m) as [->|]; [rewrite Z.ltb_irrefl|]; reflexivity.
        + exact Hm.
        + exact E.
        + assert (Ew : next m (st m) = Some (moved_to st m)) by (unfold moved_to; rewrite F1; reflexivity).
          split.
          * intros n Hn. destruct (Z.eq_dec n m) as [->|]; [exact Ew|apply A1; lia].
          * eapply hrel_ext; [exact F2|]. intros n _. unfold set_at. rewrite F1 in Ew. injection Ew as Ew.
            destruct (Z.eqb_spec n m) as [Enm|]; [subst n; destruct (Z.ltb_spec m (m + 1)); [exact Ew|lia]|].
            destruct (Z.ltb_spec n m); destruct (Z.ltb_spec n (m + 1)); try lia; reflexivity.
      - split; [intros n Hn; lia|]. eapply hrel_ext; [exact HR|]. intros n Hn. cbn beta. destruct (Z.ltb_spec n 0); [lia|reflexivity].
      - exact E.
      - split; [exact G1|]. eapply hrel_ext; [exact G2|]. intros n Hn. cbn beta. destruct (Z.ltb_spec n nc); [reflexivity|lia].
    Qed.
  End AllColumns.

  Definition Kmoved (K : Z -> Z -> Z) (add : bool) (row : Z -> Z) (n v : Z) : Z :=
    K n v + (if add then 1 else -1) * occurrences v (map row (zrange n (n + sz))).

  Lemma dat_update d K p_in c row add : dat d K -> Kok K -> rowok r nc p_in c row ->
    exists d', phist_update p r nc d p_in c add = Ret d' /\ dat d' (Kmoved K add row).
  Proof.
    intros Hd HK Hrow. pose proof (nh_in nc Hnc Hodd) as Hn.
    destruct (phist_update_ok p r nc ltac:(lia) Hnc Hodd d _ p_in c row add (2 * Kmax) Hd Hrow) as [d' [E H]].
    - intros n v Hnn Hv. cbn beta. pose proof (HK n v Hnn Hv). pose proof (HK nh v Hn Hv). destruct (n =? nh); lia.
    - unfold Kmax, ksize. cbn [hi I32]. lia.
    - exists d'. split; [exact E|]. eapply rep_ext; [exact H|]. intros n v Hnn Hv. cbn beta. unfold Kmoved, wdiff, occurrences. rewrite !occ_cnt.
      destruct (Z.eqb_spec n nh) as [->|]; destruct add; lia.
  Qed.

  Lemma update_enter h K st p_in c row h' : hrel h K st -> Kok K -> rowok r nc p_in c row ->
    meanhist_update p bs r nc alpha h p_in c true = Ret h' ->
    exists st', (forall n, 0 <= n < nc -> enter_all bs t (map row (zrange n (n + sz))) (st n) = Some (st' n)) /\ hrel h' (Kmoved K true row) st'.
  Proof.
    intros HR HK Hrow E. unfold meanhist_update in E. assert (Hl : len (th_sums h) = nc) by apply HR.
    destruct (Z.eqb_spec (len (th_sums h)) 0) as [Hz|_]; [lia|]. cbn [negb] in E.
    apply bind_inv in E as [h1 [E1 E]]. 
    destruct (columns_inv (add_one p bs alpha p_in c) (fun n w => enter_all bs t (map row (zrange n (n + sz))) w) K) with (h := h) (st := st) (h' := h1) as [A1 A2].
    - intros h0 st0 n w h0' HR0 Hn E0. apply (add_all_inv K st0 n p_in c row h0 n w h0' HR0 Hrow Hn); [unfold ksize; lia|exact E0].
    - exact HR.
    - exact E1.
    - destruct (dat_update (th_data h1) K p_in c row true) as [d' [F1 F2]]; [apply A2|exact HK|exact Hrow|].
      rewrite F1, bind_Ret in E. injection E as <-. eexists. split; [exact A1|].
      destruct A2 as (_ & B). split; [exact F2|exact B].
  Qed.

  Lemma update_leave h K st p_in c row h' : hrel h K st -> Kok K -> rowok r nc p_in c row -> Kok (Kmoved K false row) ->
    meanhist_update p bs r nc alpha h p_in c false = Ret h' ->
    exists st', (forall n, 0 <= n < nc -> leave_all bs t (Kmoved K false row n) (map row (zrange n (n + sz))) (st n) = Some (st' n)) /\ hrel h' (Kmoved K false row) st'.
  Proof.
    intros HR HK Hrow HK' E. unfold meanhist_update in E. assert (Hl : len (th_sums h) = nc) by apply HR.
    destruct (Z.eqb_spec (len (th_sums h)) 0) as [Hz|_]; [lia|]. cbn [negb] in E.
    destruct (dat_update (th_data h) K p_in c row false) as [d' [F1 F2]]; [apply HR|exact HK|exact Hrow|].
    rewrite F1, bind_Ret in E.
    assert (HR' : hrel (set_data h d') (Kmoved K false row) st) by (destruct HR as (_ & B); split; [exact F2|exact B]).
    destruct (columns_inv (remove_one p bs r nc alpha p_in c) (fun n w => leave_all bs t (Kmoved K false row n) (map row (zrange n (n + sz))) w) (Kmoved K false row))
      with (h := set_data h d') (st := st) (h' := h') as [A1 A2].
    - intros h0 st0 n w h0' HR0 Hn E0. apply (remove_all_inv _ st0 n p_in c row h0 n w h0' HR0 HK' Hrow Hn); [unfold ksize; lia|exact E0].
    - exact HR'.
    - exact E.
    - eexists. split; [exact A1|exact A2].
  Qed.
End Column.
