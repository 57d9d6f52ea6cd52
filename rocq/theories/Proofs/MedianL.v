(** Lemmas about Model/Median.v: one histogram. *)
From Verif.Model Require Import Base Image Median.
From Verif.Spec Require Import ImageS SumS MedianS.
From Verif.Proofs Require Import BaseL SumL LoopL.
Open Scope Z_scope.

Definition b2z (b : bool) : Z := if b then 1 else 0.

(** number of k in [a, b) with q (row k) *)
Definition cnt (q : Z -> bool) (row : Z -> Z) (a b : Z) : Z := Zsum (fun k => b2z (q (row k))) a b.

Lemma cnt_bounds q row a b : a <= b -> 0 <= cnt q row a b <= b - a.
Proof.
  intros Hab. unfold cnt. split.
  - apply Zsum_nonneg. intros. unfold b2z. destruct (q _); lia.
  - pose proof (Zsum_upper (fun k => b2z (q (row k))) a b 1 Hab) as H. rewrite Z.mul_1_l in H. apply H.
    intros. unfold b2z. destruct (q _); lia.
Qed.
Lemma cnt_app q row a b c : a <= b <= c -> cnt q row a c = cnt q row a b + cnt q row b c.
Proof. apply Zsum_app. Qed.
Lemma cnt_snoc q row a b : a <= b -> cnt q row a (b + 1) = cnt q row a b + b2z (q (row b)).
Proof. apply Zsum_snoc. Qed.
Lemma cnt_nil q row a b : b <= a -> cnt q row a b = 0.
Proof. apply Zsum_nil. Qed.

Section Hist.
  Context (p : profile) (r nc : Z).
  Hypothesis Hr : 0 <= r < 2 ^ 14.
  Hypothesis Hnc : 0 < nc < 2 ^ 31.
  Hypothesis Hodd : nc mod 2 = 1.
  Notation nh := (n_half nc).
  Notation sz := (ksize r).

  Lemma nh_eq : nc = 2 * nh + 1.
  Proof. unfold n_half. pose proof (Z.div_mod nc 2). lia. Qed.

  (** the histogram data hold R *)
  Definition rep (d : phist) (R : Z -> Z -> Z) : Prop :=
    len d = nc /\ forall n, 0 <= n < nc ->
      len (nth (Z.to_nat n) d []) = 256 /\
      forall v, 0 <= v < 256 -> nth (Z.to_nat v) (nth (Z.to_nat n) d []) 0 = R n v.

  Lemma rep_ext d R R' : rep d R -> (forall n v, 0 <= n < nc -> 0 <= v < 256 -> R n v = R' n v) -> rep d R'.
  Proof.
    intros [Hl H] E. split; [exact Hl|]. intros n Hn. destruct (H n Hn) as [H1 H2]. split; [exact H1|].
    intros v Hv. rewrite H2 by exact Hv. apply E; assumption.
  Qed.

  (** the row of pixels p_in shows [row] in channel c *)
  Definition rowok (p_in : list (list Z)) (c : Z) (row : Z -> Z) : Prop :=
    forall k, 0 <= k < nc + 2 * r ->
      0 <= row k < 256 /\ exists px, vget p_in k = Ret px /\ vget px c = Ret (row k).

  Lemma bump_ok d R n p_in i c row inc : rep d R -> 0 <= n < nc -> rowok p_in c row -> 0 <= i < nc + 2 * r ->
    lo I32 <= R n (row i) + inc <= hi I32 ->
    exists d', bump p d n p_in i c inc = Ret d' /\
      rep d' (fun n' v' => R n' v' + (if n' =? n then inc * b2z (row i =? v') else 0)).
  Proof.
    intros [Hl H] Hn Hrow Hi HB. destruct (Hrow i Hi) as [Hv [px [E1 E2]]].
    destruct (H n Hn) as [Hhl Hh]. unfold bump. rewrite E1, bind_Ret, E2, bind_Ret.
    rewrite (vget_ok d n []) by lia. rewrite bind_Ret.
    rewrite (vget_ok _ (row i) 0) by lia. rewrite bind_Ret, Hh by lia.
    rewrite iadd_ok by exact HB. rewrite bind_Ret. rewrite vset_ok by lia. rewrite bind_Ret.
    rewrite vset_ok by lia. eexists. split; [reflexivity|]. split; [rewrite len_upd; exact Hl|].
    assert (Hd : length d = Z.to_nat nc) by (unfold len in Hl; lia).
    assert (Hhl' : length (nth (Z.to_nat n) d []) = 256%nat) by (unfold len in Hhl; lia).
    intros n' Hn'. rewrite nth_upd by lia. destruct (Nat.eqb_spec (Z.to_nat n') (Z.to_nat n)) as [E|E].
    - assert (n' = n) as -> by lia. rewrite len_upd. split; [exact Hhl|]. intros v' Hv'. rewrite Z.eqb_refl.
      rewrite nth_upd by lia. unfold b2z.
      destruct (Nat.eqb_spec (Z.to_nat v') (Z.to_nat (row i))) as [E'|E']; destruct (Z.eqb_spec (row i) v') as [E''|E'']; try lia.
      + rewrite E''. lia.
      + rewrite Hh by lia. lia.
    - destruct (Z.eqb_spec n' n); [lia|]. destruct (H n' Hn') as [A B]. split; [exact A|]. intros v' Hv'. rewrite B by lia. lia.
  Qed.

  Lemma unbump_bump d n p_in i c inc : unbump p d n p_in i c inc = bump p d n p_in i c (- inc).
  Proof. unfold unbump, bump, isub, iadd. reflexivity. Qed.

  (** difference of two windows of length sz *)
  Definition wdiff (row : Z -> Z) (v a b : Z) : Z := cnt (fun s => s =? v) row a (a + sz) - cnt (fun s => s =? v) row b (b + sz).

  Lemma wdiff_bound row v a b : - sz <= wdiff row v a b <= sz.
  Proof.
    unfold wdiff. assert (0 <= sz) by (unfold ksize; lia).
    pose proof (cnt_bounds (fun s => s =? v) row a (a + sz)). pose proof (cnt_bounds (fun s => s =? v) row b (b + sz)). lia.
  Qed.

  (** moving the second window by one *)
  Lemma wdiff_step row v a i : wdiff row v a (i + 1) = wdiff row v a i + b2z (row i =? v) - b2z (row (i + sz) =? v).
  Proof.
    unfold wdiff. assert (0 < sz) by (unfold ksize; lia).
    assert (E : cnt (fun s => s =? v) row i (i + 1 + sz) = cnt (fun s => s =? v) row i (i + sz) + b2z (row (i + sz) =? v)).
    { replace (i + 1 + sz) with (i + sz + 1) by lia. rewrite cnt_snoc by lia. reflexivity. }
    rewrite (cnt_app _ _ i (i + 1)) in E by lia.
    rewrite (cnt_snoc (fun s => s =? v) row i i) in E by lia. rewrite cnt_nil in E by lia. lia.
  Qed.
  Lemma wdiff_same row v a : wdiff row v a a = 0.
  Proof. unfold wdiff. lia. Qed.

  Lemma phist_update_ok d R p_in c row add B : rep d R -> rowok p_in c row ->
    (forall n v, 0 <= n < nc -> 0 <= v < 256 -> - B <= R n v <= B) -> B + sz + 1 <= hi I32 ->
    exists d', phist_update p r nc d p_in c add = Ret d' /\
      rep d' (fun n v => R n v + (if add then 1 else -1) *
        (if n =? nh then cnt (fun s => s =? v) row nh (nh + sz) else wdiff row v n nh)).
  Proof.
    intros Hd Hrow HR HB. pose proof nh_eq as Hnh. assert (Hsz : sz = 2 * r + 1) by reflexivity.
    cbn [hi I32] in HB. unfold phist_update. set (inc := if add then 1 else -1).
    assert (Hinc : inc = 1 \/ inc = -1) by (unfold inc; destruct add; auto).
    assert (Hlen : 0 <= nh) by lia.
    (* outer loop *)
    destruct (mfold_zrange_inv (fun n d => rep d (fun n' v => R n' v + inc *
        (if (n' <? n) || (nc - 1 - n <? n') then wdiff row v n' nh else 0)))
      (fun d n => let! n_upper := isub p USIZE (nc - n) 1 in
          mfold (fun d i =>
            let! d := bump p d n p_in i c inc in
            let! d := unbump p d n p_in (i + ksize r) c inc in
            let! i_upper := isub p USIZE (nc + 2 * r - i) 1 in
            let! i_lower := isub p USIZE i_upper (ksize r) in
            let! d := unbump p d n_upper p_in i_lower c inc in
            bump p d n_upper p_in i_upper c inc) (zrange n (n_half nc)) d) 0 nh d) as [d1 [E1 H1]].
    { lia. }
    { eapply rep_ext; [exact Hd|]. intros n v Hn Hv. cbn beta.
      destruct (Z.ltb_spec n 0); [lia|]. destruct (Z.ltb_spec (nc - 1 - 0) n); [lia|]. cbn. lia. }
    { intros n d1 Hn H1. rewrite isub_ok by ity_lia. rewrite bind_Ret.
      set (nu := nc - n - 1). assert (Hnu : nh < nu < nc) by (unfold nu; lia).
      (* inner loop *)
      destruct (mfold_zrange_inv (fun i d => rep d (fun n' v => R n' v + inc *
          (if (n' <? n) || (nc - 1 - n <? n') then wdiff row v n' nh else
           if n' =? n then wdiff row v n i else if n' =? nu then wdiff row v nu (nc - 1 - i) else 0)))
        (fun d i =>
            let! d := bump p d n p_in i c inc in
            let! d := unbump p d n p_in (i + ksize r) c inc in
            let! i_upper := isub p USIZE (nc + 2 * r - i) 1 in
            let! i_lower := isub p USIZE i_upper (ksize r) in
            let! d := unbump p d nu p_in i_lower c inc in
            bump p d nu p_in i_upper c inc) n nh d1) as [d2 [E2 H2]].
      { lia. }
      { eapply rep_ext; [exact H1|]. intros n' v Hn' Hv. cbn beta.
        destruct ((n' <? n) || (nc - 1 - n <? n')); [reflexivity|].
        destruct (Z.eqb_spec n' n) as [->|]; [rewrite wdiff_same; lia|].
        destruct (Z.eqb_spec n' nu) as [->|]; [|lia]. replace (nc - 1 - n) with nu by (unfold nu; lia). rewrite wdiff_same. lia. }
      { clear d1 H1 d Hd. intros i d Hi Hd.
        assert (Fn : (n <? n) || (nc - 1 - n <? n) = false)
          by (apply orb_false_iff; split; apply Z.ltb_ge; unfold nu in Hnu; lia).
        assert (Fu : (nu <? n) || (nc - 1 - n <? nu) = false)
          by (apply orb_false_iff; split; apply Z.ltb_ge; unfold nu in *; lia).
        assert (Nun : nu =? n = false) by (apply Z.eqb_neq; lia).
        pose proof (fun v => wdiff_bound row v n i) as Bn.
        pose proof (fun v => wdiff_bound row v nu (nc - 1 - i)) as Bu.
        pose proof (fun v => wdiff_bound row v n (i + 1)) as Bn'.
        pose proof (fun v => wdiff_bound row v nu (nc - 1 - (i + 1))) as Bu'.
        assert (Sn := fun v => wdiff_step row v n i).
        assert (Su : forall v, wdiff row v nu (nc - 1 - (i + 1)) =
                       wdiff row v nu (nc - 1 - i) - b2z (row (nc + 2 * r - i - 1 - sz) =? v) + b2z (row (nc + 2 * r - i - 1) =? v)).
        { intros v. pose proof (wdiff_step row v nu (nc - 1 - (i + 1))) as S.
          replace (nc - 1 - (i + 1) + 1) with (nc - 1 - i) in S by lia.
          replace (nc + 2 * r - i - 1 - sz) with (nc - 1 - (i + 1)) by lia.
          replace (nc + 2 * r - i - 1) with (nc - 1 - (i + 1) + sz) by lia. lia. }
        assert (Hb : forall k v, 0 <= b2z (row k =? v) <= 1) by (intros k v; unfold b2z; destruct (row k =? v); lia).
        assert (Hrb : forall k, 0 <= k < nc + 2 * r -> 0 <= row k < 256) by (intros k Hk; destruct (Hrow k Hk); assumption).
        (* 1 *)
        destruct (bump_ok d _ n p_in i c row inc Hd) as [da [Ea Ha]]; [lia|exact Hrow|lia| |].
        { cbn beta. rewrite Fn, Z.eqb_refl. pose proof (HR n (row i) ltac:(lia) ltac:(apply Hrb; lia)).
          specialize (Bn (row i)). cbn [lo hi I32]. destruct Hinc as [-> | ->]; lia. }
        rewrite Ea, bind_Ret. clear Ea Hd d. rewrite unbump_bump.
        (* 2 *)
        destruct (bump_ok da _ n p_in (i + sz) c row (- inc) Ha) as [db [Eb Hb']]; [lia|exact Hrow|lia| |].
        { cbn beta. rewrite Fn, Z.eqb_refl. pose proof (HR n (row (i + sz)) ltac:(lia) ltac:(apply Hrb; lia)).
          specialize (Bn (row (i + sz))). pose proof (Hb i (row (i + sz))). cbn [lo hi I32]. destruct Hinc as [-> | ->]; lia. }
        rewrite Eb, bind_Ret. clear Eb Ha da.
        rewrite isub_ok by ity_lia. rewrite bind_Ret. rewrite isub_ok by ity_lia. rewrite bind_Ret. rewrite unbump_bump.
        (* 3 *)
        destruct (bump_ok db _ nu p_in (nc + 2 * r - i - 1 - sz) c row (- inc) Hb') as [dc [Ec Hc]]; [lia|exact Hrow|lia| |].
        { cbn beta. rewrite Fu, Nun, Z.eqb_refl. set (q := row _).
          pose proof (HR nu q ltac:(lia) ltac:(apply Hrb; lia)).
          specialize (Bu q). cbn [lo hi I32]. destruct Hinc as [-> | ->]; lia. }
        rewrite Ec, bind_Ret. clear Ec Hb' db.
        (* 4 *)
        destruct (bump_ok dc _ nu p_in (nc + 2 * r - i - 1) c row inc Hc) as [de [Ee He]]; [lia|exact Hrow|lia| |].
        { cbn beta. rewrite Fu, Nun, Z.eqb_refl. set (q := row (nc + 2 * r - i - 1)).
          pose proof (HR nu q ltac:(lia) ltac:(apply Hrb; lia)).
          specialize (Bu q). pose proof (Hb (nc + 2 * r - i - 1 - sz) q). cbn [lo hi I32]. destruct Hinc as [-> | ->]; lia. }
        rewrite Ee. eexists. split; [reflexivity|]. eapply rep_ext; [exact He|]. intros n' v Hn' Hv. cbn beta.
        destruct (Z.eqb_spec n' n) as [->|Nn].
        - rewrite Fn. assert (n =? nu = false) as -> by (apply Z.eqb_neq; lia). rewrite Sn. destruct Hinc as [-> | ->]; lia.
        - destruct (Z.eqb_spec n' nu) as [->|Nu].
          + rewrite Fu, Su. destruct Hinc as [-> | ->]; lia.
          + lia. }
      rewrite E2. exists d2. split; [reflexivity|]. eapply rep_ext; [exact H2|]. intros n' v Hn' Hv. cbn beta.
      replace (nc - 1 - nh) with nh by lia.
      assert (Tn : (n' <? n + 1) || (nc - 1 - (n + 1) <? n') = ((n' <? n) || (nc - 1 - n <? n')) || (n' =? n) || (n' =? nu)).
      { unfold nu. apply eq_true_iff_eq. rewrite !orb_true_iff, !Z.ltb_lt, !Z.eqb_eq. lia. }
      rewrite Tn. destruct ((n' <? n) || (nc - 1 - n <? n')); [reflexivity|].
      destruct (Z.eqb_spec n' n) as [->|]; [reflexivity|]. destruct (Z.eqb_spec n' nu) as [->|]; reflexivity. }
    rewrite E1, bind_Ret.
    (* central histogram *)
    destruct (mfold_zrange_inv (fun i d => rep d (fun n' v => R n' v + inc *
        (if n' =? nh then cnt (fun s => s =? v) row nh i else wdiff row v n' nh)))
      (fun d i => bump p d nh p_in i c inc) nh (nh + sz) d1) as [d2 [E2 H2]].
    { lia. }
    { eapply rep_ext; [exact H1|]. intros n v Hn Hv. cbn beta. destruct (Z.eqb_spec n nh) as [->|Nn].
      - rewrite cnt_nil by lia. destruct (Z.ltb_spec nh nh); [lia|]. destruct (Z.ltb_spec (nc - 1 - nh) nh); [lia|]. reflexivity.
      - assert ((n <? nh) || (nc - 1 - nh <? n) = true) as -> by (apply orb_true_iff; rewrite !Z.ltb_lt; lia). reflexivity. }
    { intros i d2 Hi H2. assert (Hri : 0 <= row i < 256) by (apply (Hrow i); lia).
      destruct (bump_ok d2 _ nh p_in i c row inc H2) as [d3 [E3 H3]]; [lia|exact Hrow|lia| |].
      { cbn beta. rewrite Z.eqb_refl. pose proof (HR nh (row i) ltac:(lia) Hri).
        pose proof (cnt_bounds (fun s => s =? row i) row nh i ltac:(lia)). cbn [lo hi I32]. destruct Hinc as [-> | ->]; lia. }
      rewrite E3. eexists. split; [reflexivity|]. eapply rep_ext; [exact H3|]. intros n v Hn Hv. cbn beta.
      destruct (Z.eqb_spec n nh) as [->|]; [|lia]. rewrite cnt_snoc by lia. lia. }
    rewrite E2. exists d2. split; [reflexivity|exact H2].
  Qed.

  (** ** One histogram: [L n t] is the number of values below t in the window of column n *)
  Record Lok (L : Z -> Z -> Z) (B : Z) : Prop := {
    L0 : forall n, 0 <= n < nc -> L n 0 = 0;
    Lmono : forall n t, 0 <= n < nc -> 0 <= t < 256 -> L n t <= L n (t + 1);
    LB : forall n, 0 <= n < nc -> L n 256 <= B }.

  Lemma Lle L B n s t : Lok L B -> 0 <= n < nc -> 0 <= s <= t -> t <= 256 -> L n s <= L n t.
  Proof.
    intros [_ HM _] Hn Hs Ht. replace t with (s + (t - s)) in * by lia. assert (Hk : 0 <= t - s) by lia. revert Hk Ht.
    generalize (t - s). intros k Hk. pattern k. apply natlike_ind; [| |exact Hk].
    - intros. replace (s + 0) with s by lia. lia.
    - intros j Hj IH Ht. specialize (HM n (s + j) Hn ltac:(lia)). replace (s + Z.succ j) with (s + j + 1) by lia. specialize (IH ltac:(lia)). lia.
  Qed.
  Lemma Lrange L B n t : Lok L B -> 0 <= n < nc -> 0 <= t <= 256 -> 0 <= L n t <= B.
  Proof.
    intros HL Hn Ht. pose proof (Lle L B n 0 t HL Hn ltac:(lia) ltac:(lia)). pose proof (Lle L B n t 256 HL Hn ltac:(lia) ltac:(lia)).
    pose proof (L0 L B HL n Hn). pose proof (LB L B HL n Hn). lia.
  Qed.

  Definition datrep (d : phist) (L : Z -> Z -> Z) : Prop :=
    rep d (fun n v => if n =? nh then L nh (v + 1) - L nh v else (L n (v + 1) - L n v) - (L nh (v + 1) - L nh v)).
  Definition sumrep (h : medhist) (L : Z -> Z -> Z) (P : Z -> Z) : Prop :=
    len (mh_sums h) = nc /\ len (mh_pivots h) = nc /\
    forall n, 0 <= n < nc -> nth (Z.to_nat n) (mh_pivots h) 0 = P n /\ nth (Z.to_nat n) (mh_sums h) 0 = L n (P n).

  Lemma datrep_ext d L L' : datrep d L -> (forall n t, 0 <= n < nc -> 0 <= t <= 256 -> L n t = L' n t) -> datrep d L'.
  Proof.
    intros H E. eapply rep_ext; [exact H|]. intros n v Hn Hv. cbn beta. pose proof nh_eq.
    rewrite !(E n) by lia. rewrite !(E nh) by lia. reflexivity.
  Qed.

  Lemma nh_in : 0 <= nh < nc.
  Proof. pose proof nh_eq. lia. Qed.

  Lemma get_count_ok d L B i key : datrep d L -> Lok L B -> B <= hi I32 -> 0 <= i < nc -> 0 <= key < 256 ->
    get_count p nc d key i = Ret (L i (key + 1) - L i key).
  Proof.
    intros [Hl H] HL HB Hi Hk. pose proof nh_in as Hn. unfold get_count.
    rewrite (vget_ok d nh []) by lia. rewrite bind_Ret. destruct (H nh Hn) as [A C].
    rewrite (vget_ok _ key 0) by lia. rewrite bind_Ret, C by lia. rewrite Z.eqb_refl.
    destruct (Z.eqb_spec i nh) as [->|N]; cbn [negb]; [reflexivity|].
    rewrite (vget_ok d i []) by lia. rewrite bind_Ret. destruct (H i Hi) as [A' C'].
    rewrite (vget_ok _ key 0) by lia. rewrite bind_Ret, C' by lia.
    destruct (Z.eqb_spec i nh); [lia|].
    pose proof (Lmono L B HL i key Hi Hk). pose proof (Lrange L B i key HL Hi ltac:(lia)). pose proof (Lrange L B i (key + 1) HL Hi ltac:(lia)).
    rewrite iadd_ok by (cbn [lo hi I32] in *; lia). f_equal. lia.
  Qed.

  (** values below v + 1 = values below v + values equal to v *)
  Lemma cnt_lt_succ row v a b : cnt (fun s => s <? v + 1) row a b = cnt (fun s => s <? v) row a b + cnt (fun s => s =? v) row a b.
  Proof.
    unfold cnt. rewrite <- Zsum_add. apply Zsum_ext. intros k _. unfold b2z.
    destruct (Z.ltb_spec (row k) (v + 1)); destruct (Z.ltb_spec (row k) v); destruct (Z.eqb_spec (row k) v); lia.
  Qed.

  Definition moved (L : Z -> Z -> Z) (add : bool) (row : Z -> Z) (n t : Z) : Z :=
    L n t + (if add then 1 else -1) * cnt (fun s => s <? t) row n (n + sz).

  Lemma data_update_ok d L B p_in c row add : datrep d L -> Lok L B -> B + sz + 1 <= hi I32 -> rowok p_in c row ->
    exists d', phist_update p r nc d p_in c add = Ret d' /\ datrep d' (moved L add row).
  Proof.
    intros Hd HL HB Hrow. pose proof nh_in as Hn.
    destruct (phist_update_ok d _ p_in c row add B Hd Hrow) as [d' [E H]]; [|exact HB|].
    - intros n v Hnn Hv. cbn beta.
      pose proof (Lmono L B HL n v Hnn Hv). pose proof (Lrange L B n v HL Hnn ltac:(lia)). pose proof (Lrange L B n (v + 1) HL Hnn ltac:(lia)).
      pose proof (Lmono L B HL nh v Hn Hv). pose proof (Lrange L B nh v HL Hn ltac:(lia)). pose proof (Lrange L B nh (v + 1) HL Hn ltac:(lia)).
      destruct (n =? nh); lia.
    - exists d'. split; [exact E|]. eapply rep_ext; [exact H|]. intros n v Hnn Hv. cbn beta. unfold moved, wdiff.
      rewrite !cnt_lt_succ. destruct (Z.eqb_spec n nh) as [->|]; destruct add; lia.
  Qed.

  Lemma sums_update_ok sums L P B p_in c row (pv : list Z) inc :
    (inc = 1 \/ inc = -1) -> rowok p_in c row -> len sums = nc -> len pv = nc -> B + sz <= hi I32 ->
    (forall n, 0 <= n < nc -> nth (Z.to_nat n) pv 0 = P n) ->
    (forall n, 0 <= n < nc -> nth (Z.to_nat n) sums 0 = L n) -> (forall n, 0 <= n < nc -> 0 <= L n <= B) ->
    exists sums', mfold (fun sums n => mfold (fun sums i =>
              let! px := vget p_in i in
              let! v := vget px c in
              let! pv := vget pv n in
              if v <? pv then
                let! s := vget sums n in
                let! s := iadd p I32 s inc in
                vset sums n s
              else Ret sums) (zrange n (n + sz)) sums) (zrange 0 nc) sums = Ret sums' /\
      len sums' = nc /\
      forall n, 0 <= n < nc -> nth (Z.to_nat n) sums' 0 = L n + inc * cnt (fun s => s <? P n) row n (n + sz).
  Proof.
    intros Hinc Hrow Hls Hlp HB HP HS HLB. cbn [hi I32] in HB. assert (Hsz : sz = 2 * r + 1) by reflexivity.
    destruct (mfold_zrange_inv (fun n sums => len sums = nc /\ forall n', 0 <= n' < nc -> nth (Z.to_nat n') sums 0 =
       L n' + (if n' <? n then inc * cnt (fun s => s <? P n') row n' (n' + sz) else 0))
     (fun sums n => mfold (fun sums i =>
              let! px := vget p_in i in
              let! v := vget px c in
              let! pv := vget pv n in
              if v <? pv then
                let! s := vget sums n in
                let! s := iadd p I32 s inc in
                vset sums n s
              else Ret sums) (zrange n (n + sz)) sums) 0 nc sums) as [s' [E [H1 H2]]].
    { lia. }
    { split; [exact Hls|]. intros n' Hn'. rewrite HS by exact Hn'. destruct (Z.ltb_spec n' 0); lia. }
    { clear sums Hls HS. intros n sums Hn [Hls HS].
      destruct (mfold_zrange_inv (fun i sums => len sums = nc /\ forall n', 0 <= n' < nc -> nth (Z.to_nat n') sums 0 =
       L n' + (if n' <? n then inc * cnt (fun s => s <? P n') row n' (n' + sz) else if n' =? n then inc * cnt (fun s => s <? P n) row n i else 0))
       (fun sums i =>
              let! px := vget p_in i in
              let! v := vget px c in
              let! pv := vget pv n in
              if v <? pv then
                let! s := vget sums n in
                let! s := iadd p I32 s inc in
                vset sums n s
              else Ret sums) n (n + sz) sums) as [s' [E [H1 H2]]].
      { lia. }
      { split; [exact Hls|]. intros n' Hn'. rewrite HS by exact Hn'. destruct (n' <? n); [reflexivity|].
        destruct (Z.eqb_spec n' n) as [->|]; [|reflexivity]. rewrite cnt_nil by lia. lia. }
      { clear sums Hls HS. intros i sums Hi [Hls HS]. destruct (Hrow i ltac:(lia)) as [_ [px [E1 E2]]].
        rewrite E1, bind_Ret, E2, bind_Ret. rewrite (vget_ok pv n 0) by lia. rewrite bind_Ret, HP by lia.
        destruct (Z.ltb_spec (row i) (P n)) as [Hlt|Hge].
        - rewrite (vget_ok sums n 0) by lia. rewrite bind_Ret, HS by lia.
          destruct (Z.ltb_spec n n); [lia|]. rewrite Z.eqb_refl.
          pose proof (cnt_bounds (fun s => s <? P n) row n i ltac:(lia)) as CB. pose proof (HLB n Hn).
          rewrite iadd_ok by (cbn [lo hi I32]; destruct Hinc as [-> | ->]; lia). rewrite bind_Ret.
          rewrite vset_ok by lia. eexists. split; [reflexivity|]. split; [rewrite len_upd; exact Hls|]. intros n' Hn'.
          rewrite nth_upd by (unfold len in Hls; lia).
          destruct (Nat.eqb_spec (Z.to_nat n') (Z.to_nat n)) as [E|E].
          + assert (n' = n) as -> by lia. destruct (Z.ltb_spec n n); [lia|]. rewrite Z.eqb_refl, cnt_snoc by lia.
            unfold b2z. destruct (Z.ltb_spec (row i) (P n)); [|lia]. lia.
          + rewrite HS by lia. destruct (n' <? n); [reflexivity|]. destruct (Z.eqb_spec n' n); [lia|reflexivity].
        - eexists. split; [reflexivity|]. split; [exact Hls|]. intros n' Hn'. rewrite HS by lia.
          destruct (n' <? n); [reflexivity|]. destruct (Z.eqb_spec n' n) as [->|]; [|reflexivity].
          rewrite cnt_snoc by lia. unfold b2z. destruct (Z.ltb_spec (row i) (P n)); lia. }
      rewrite E. eexists. split; [reflexivity|]. split; [exact H1|]. intros n' Hn'. rewrite H2 by exact Hn'.
      destruct (Z.ltb_spec n' n); destruct (Z.ltb_spec n' (n + 1)); destruct (Z.eqb_spec n' n) as [->|]; try lia. }
    exists s'. split; [exact E|]. split; [exact H1|]. intros n Hn. rewrite H2 by exact Hn. destruct (Z.ltb_spec n nc); [reflexivity|lia].
  Qed.

  (** before the pivots are initialised *)
  Lemma medhist_update_init h L B p_in c row add : datrep (mh_data h) L -> mh_pivots h = [] -> Lok L B -> B + sz + 1 <= hi I32 ->
    rowok p_in c row ->
    exists h', medhist_update p r nc h p_in c add = Ret h' /\ datrep (mh_data h') (moved L add row) /\
      mh_pivots h' = [] /\ mh_sums h' = mh_sums h.
  Proof.
    intros Hd Hp HL HB Hrow. destruct (data_update_ok _ L B p_in c row add Hd HL HB Hrow) as [d' [E H]].
    unfold medhist_update. rewrite E, bind_Ret, Hp. cbn [len length Z.of_nat Z.eqb negb]. rewrite bind_Ret.
    eexists. split; [reflexivity|]. cbn. auto.
  Qed.

  Lemma medhist_update_ok h L P B p_in c row add : datrep (mh_data h) L -> sumrep h L P ->
    (forall n, 0 <= n < nc -> 0 <= P n < 256) -> Lok L B -> B + sz + 1 <= hi I32 -> rowok p_in c row ->
    exists h', medhist_update p r nc h p_in c add = Ret h' /\ datrep (mh_data h') (moved L add row) /\
      sumrep h' (moved L add row) P.
  Proof.
    intros Hd [Hls [Hlp HS]] HP HL HB Hrow. destruct (data_update_ok _ L B p_in c row add Hd HL HB Hrow) as [d' [E H]].
    unfold medhist_update. rewrite E, bind_Ret. destruct (Z.eqb_spec (len (mh_pivots h)) 0) as [Hz|Hz]; [lia|]. cbn [negb].
    destruct (sums_update_ok (mh_sums h) (fun n => L n (P n)) P B p_in c row (mh_pivots h) (if add then 1 else -1)) as [s' [E' [H1 H2]]].
    - destruct add; auto.
    - exact Hrow.
    - exact Hls.
    - exact Hlp.
    - lia.
    - intros n Hn. apply HS. exact Hn.
    - intros n Hn. apply HS. exact Hn.
    - intros n Hn. apply Lrange; [exact HL|exact Hn|]. specialize (HP n Hn). lia.
    - rewrite E', bind_Ret. eexists. split; [reflexivity|]. cbn. split; [exact H|]. split; [exact H1|]. split; [exact Hlp|].
      cbn. intros n Hn. split; [apply HS; exact Hn|]. rewrite H2 by exact Hn. reflexivity.
  Qed.

  (** ** Scans *)
  Context (center : Z).

  (** the least key with at least [center] values not above it *)
  Definition medf (l : Z -> Z) : Z :=
    match find (fun m => center <=? l (m + 1)) (zrange 0 256) with Some m => m | None => 0 end.

  Lemma medf_unique L B n m : Lok L B -> 0 <= n < nc -> 0 <= m < 256 -> L n m < center <= L n (m + 1) -> medf (L n) = m.
  Proof.
    intros HL Hn Hm [H1 H2]. unfold medf. rewrite (zrange_app 0 m 256) by lia.
    assert (F : forall l, (forall k, In k l -> (center <=? L n (k + 1)) = false) -> forall l', find (fun m => center <=? L n (m + 1)) (l ++ l') = find (fun m => center <=? L n (m + 1)) l').
    { induction l as [|a l IH]; intros Hl l'; [reflexivity|]. cbn [app find]. rewrite Hl by (left; reflexivity). apply IH. intros; apply Hl; right; assumption. }
    rewrite F.
    - rewrite zrange_cons by lia. cbn [find]. destruct (Z.leb_spec center (L n (m + 1))); [reflexivity|lia].
    - intros k Hk%in_zrange. apply Z.leb_gt. pose proof (Lle L B n (k + 1) m HL Hn ltac:(lia) ltac:(lia)). lia.
  Qed.

  Lemma scan_up_ok d L B i k : datrep d L -> Lok L B -> B <= hi I32 -> 0 <= i < nc -> 0 <= k <= 256 ->
    L i k < center <= L i 256 ->
    exists m, k <= m < 256 /\ L i m < center <= L i (m + 1) /\
      scan_up p nc d i center (zrange k 256) (L i k) = Ret (Some (m, L i m)).
  Proof.
    intros Hd HL HB Hi Hk [H1 H2].
    assert (G : forall j, 0 <= j -> forall k, k = 256 - j -> 0 <= k -> L i k < center ->
       exists m, k <= m < 256 /\ L i m < center <= L i (m + 1) /\ scan_up p nc d i center (zrange k 256) (L i k) = Ret (Some (m, L i m))).
    { apply (natlike_ind (fun j => forall k, k = 256 - j -> 0 <= k -> L i k < center ->
       exists m, k <= m < 256 /\ L i m < center <= L i (m + 1) /\ scan_up p nc d i center (zrange k 256) (L i k) = Ret (Some (m, L i m)))).
      - intros k' -> _ Hc. exfalso. replace (256 - 0) with 256 in Hc by lia. lia.
      - intros j Hj IH k' -> H0 Hc. rewrite zrange_cons by lia. cbn [scan_up]. set (q := 256 - Z.succ j) in *.
        rewrite (get_count_ok d L B) by (try assumption; lia). rewrite bind_Ret.
        pose proof (Lrange L B i (q + 1) HL Hi ltac:(lia)).
        rewrite iadd_ok by (cbn [lo hi I32] in *; lia). rewrite bind_Ret.
        replace (L i q + (L i (q + 1) - L i q)) with (L i (q + 1)) by lia.
        destruct (Z.leb_spec center (L i (q + 1))).
        + exists q. split; [lia|]. split; [lia|reflexivity].
        + destruct (IH (q + 1) ltac:(lia) ltac:(lia) ltac:(lia)) as [m [A [C D]]]. exists m. split; [lia|]. split; [exact C|exact D]. }
    destruct (Z.eq_dec k 256) as [->|]; [lia|]. apply (G (256 - k)); lia.
  Qed.

  Lemma scan_down_ok d L B i k : datrep d L -> Lok L B -> B <= hi I32 -> 0 <= i < nc -> 0 <= k <= 256 ->
    0 < center <= L i k ->
    exists m, 0 <= m < k /\ L i m < center <= L i (m + 1) /\
      scan_down p nc d i center (rev (zrange 0 k)) (L i k) = Ret (Some (m, L i m)).
  Proof.
    intros Hd HL HB Hi [Hk Hk']. revert Hk'. pattern k. apply natlike_ind; [| |exact Hk].
    - intros _ H. rewrite (L0 L B HL i Hi) in H. lia.
    - intros j Hj IH Hj' Hc. replace (Z.succ j) with (j + 1) in * by lia. rewrite zrange_snoc, rev_app_distr by lia. cbn [rev app scan_down].
      rewrite (get_count_ok d L B) by (try assumption; lia). rewrite bind_Ret.
      pose proof (Lrange L B i j HL Hi ltac:(lia)).
      rewrite isub_ok by (cbn [lo hi I32] in *; lia). rewrite bind_Ret.
      replace (L i (j + 1) - (L i (j + 1) - L i j)) with (L i j) by lia.
      destruct (Z.ltb_spec (L i j) center).
      + exists j. split; [lia|]. split; [lia|reflexivity].
      + destruct (IH ltac:(lia) ltac:(lia)) as [m [A [C D]]]. exists m. split; [lia|]. split; [exact C|exact D].
  Qed.

  (** the new pivot *)
  Definition newpiv (l : Z -> Z) (old : Z) : Z := if l old =? center then old else medf l.

  Definition with_sum (h : medhist) (i s : Z) : medhist := MedHist (mh_data h) (upd (mh_sums h) (Z.to_nat i) s) (mh_pivots h).

  Lemma first_step_ok h L B i : datrep (mh_data h) L -> Lok L B -> B <= hi I32 -> 0 <= i < nc -> len (mh_sums h) = nc ->
    0 < center <= L i 256 ->
    0 <= medf (L i) < 256 /\ L i (medf (L i)) < center <= L i (medf (L i) + 1) /\
    first_step p nc center i h = Ret (with_sum h i (L i (medf (L i))), [medf (L i)]).
  Proof.
    intros Hd HL HB Hi Hls Hc. destruct (scan_up_ok (mh_data h) L B i 0 Hd HL HB Hi) as [m [A [C D]]]; [lia|rewrite (L0 L B HL) by exact Hi; lia|].
    assert (E : medf (L i) = m) by (apply (medf_unique L B); auto). rewrite E. split; [lia|]. split; [exact C|].
    unfold first_step. rewrite (L0 L B HL) in D by exact Hi. rewrite D, bind_Ret. cbn [found].
    unfold set_sum. rewrite vset_ok by lia. reflexivity.
  Qed.

  Lemma next_step_ok h L P B i : datrep (mh_data h) L -> sumrep h L P -> Lok L B -> B <= hi I32 -> 0 <= i < nc ->
    0 <= P i < 256 -> 0 < center <= L i 256 ->
    let m := newpiv (L i) (P i) in
    0 <= m < 256 /\ (if L i (P i) =? center then m = P i else L i m < center <= L i (m + 1)) /\
    next_step p nc center i h = Ret (with_sum h i (L i m), [m]).
  Proof.
    intros Hd [Hls [Hlp HS]] HL HB Hi HP Hc m. destruct (HS i Hi) as [S1 S2].
    unfold next_step. rewrite (vget_ok _ i 0) by lia. rewrite bind_Ret, S1. rewrite (vget_ok _ i 0) by lia. rewrite bind_Ret, S2.
    unfold m, newpiv. destruct (Z.compare_spec (L i (P i)) center) as [E|E|E].
    - rewrite E, Z.eqb_refl. split; [lia|]. split; [reflexivity|]. f_equal. f_equal. unfold with_sum.
      rewrite <- S2. rewrite upd_same by (unfold len in Hls; lia). destruct h; reflexivity.
    - destruct (Z.eqb_spec (L i (P i)) center); [lia|].
      destruct (scan_up_ok (mh_data h) L B i (P i) Hd HL HB Hi) as [q [A [C D]]]; [lia|lia|].
      assert (E' : medf (L i) = q) by (apply (medf_unique L B); auto; lia). rewrite E'. split; [lia|]. split; [exact C|].
      rewrite D, bind_Ret. cbn [found]. unfold set_sum. rewrite vset_ok by lia. reflexivity.
    - destruct (Z.eqb_spec (L i (P i)) center); [lia|].
      destruct (scan_down_ok (mh_data h) L B i (P i) Hd HL HB Hi) as [q [A [C D]]]; [lia|lia|].
      assert (E' : medf (L i) = q) by (apply (medf_unique L B); auto; lia). rewrite E'. split; [lia|]. split; [exact C|].
      rewrite D, bind_Ret. cbn [found]. unfold set_sum. rewrite vset_ok by lia. reflexivity.
  Qed.
End Hist.
