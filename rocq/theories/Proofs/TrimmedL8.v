(** Lemmas about Model/Trimmed.v: the release build returns an image when no window gets stuck. *)
From Verif.Model Require Import Base Float Image Median Trimmed.
From Verif.Spec Require Import ImageS SumS MedianS TrimmedS TrimmedRowsS.
From Verif.Proofs Require Import BaseL ImageL ImageOps SumL LoopL MedianL MedianL2 MedianL3 MeanL TrimmedL TrimmedL2 TrimmedL3 TrimmedL6 TrimmedL7.
Open Scope Z_scope.

Lemma item_ret l i (x : Z) : item l i = Some x -> vget l i = Ret x.
Proof. unfold vget, item. destruct ((0 <=? i) && (i <? len l)); [|discriminate]. intros ->. reflexivity. Qed.
Lemma without_ret l i l' : without l i = Some l' -> vremove l i = Ret l'.
Proof.
  intros E. destruct (vremove l i) as [l0| | |] eqn:Ev.
  - apply without_inv in Ev as [Ev _]. congruence.
  - unfold vremove in Ev. destruct (_ && _) in Ev; discriminate.
  - unfold vremove, without in *. destruct (_ && _); discriminate.
  - unfold vremove in Ev. destruct (_ && _) in Ev; discriminate.
Qed.
Lemma with_item_ret l i v l' : with_item l i v = Some l' -> vinsert l i v = Ret l'.
Proof.
  intros E. destruct (vinsert l i v) as [l0| | |] eqn:Ev.
  - apply with_item_inv in Ev as [Ev _]. congruence.
  - unfold vinsert in Ev. destruct (_ && _) in Ev; discriminate.
  - unfold vinsert, with_item in *. destruct (_ && _); discriminate.
  - unfold vinsert in Ev. destruct (_ && _) in Ev; discriminate.
Qed.
Lemma arith_release ty z : exists s, arith Release ty z = Ret s.
Proof. unfold arith. destruct (in_ity ty z); eexists; reflexivity. Qed.

Section Column.
  Context (bs : search) (r nc alpha : Z).
  Notation p := Release.
  Hypothesis Hr : 0 <= r <= 127.
  Hypothesis Hnc : 0 < nc < 2 ^ 31.
  Hypothesis Hodd : nc mod 2 = 1.
  Notation sz := (ksize r).
  Hypothesis Ha : 2 <= alpha <= 65025.
  Notation t := (alpha / 2).
  Notation hrel := (hrel nc alpha).

  Lemma edit_lower_fwd h K st n w f l' : hrel h K (set_at st n w) -> 0 <= n < nc -> f (ws_low w) = Ret l' -> exists h', edit_lower h n f = Ret h'.
  Proof.
    intros (A & B & C & D & E) Hn F. pose proof (E n Hn) as E0. unfold set_at in E0. rewrite Z.eqb_refl in E0. destruct E0 as (E1 & E2 & E3 & E4).
    unfold edit_lower. rewrite (vget_ok _ n []) by lia. rewrite bind_Ret, E2, F, bind_Ret, vset_ok by lia. eexists. reflexivity.
  Qed.
  Lemma edit_upper_fwd h K st n w f l' : hrel h K (set_at st n w) -> 0 <= n < nc -> f (ws_high w) = Ret l' -> exists h', edit_upper h n f = Ret h'.
  Proof.
    intros (A & B & C & D & E) Hn F. pose proof (E n Hn) as E0. unfold set_at in E0. rewrite Z.eqb_refl in E0. destruct E0 as (E1 & E2 & E3 & E4).
    unfold edit_upper. rewrite (vget_ok _ n []) by lia. rewrite bind_Ret, E3, F, bind_Ret, vset_ok by lia. eexists. reflexivity.
  Qed.
  Lemma add_sum_fwd h K st v n : hrel h K st -> 0 <= n < nc -> exists h', add_sum p h n v = Ret h'.
  Proof.
    intros (A & B & C & D & E) Hn. unfold add_sum, iadd. rewrite (vget_ok _ n 0) by lia. rewrite bind_Ret.
    destruct (arith_release I32 (nth (Z.to_nat n) (th_sums h) 0 + v)) as [s ->]. rewrite bind_Ret, vset_ok by lia. eexists. reflexivity.
  Qed.
  Lemma sub_sum_fwd h K st v n : hrel h K st -> 0 <= n < nc -> exists h', sub_sum p h n v = Ret h'.
  Proof.
    intros (A & B & C & D & E) Hn. unfold sub_sum, isub. rewrite (vget_ok _ n 0) by lia. rewrite bind_Ret.
    destruct (arith_release I32 (nth (Z.to_nat n) (th_sums h) 0 - v)) as [s ->]. rewrite bind_Ret, vset_ok by lia. eexists. reflexivity.
  Qed.
  Lemma get_lower_fwd h K st n w l : hrel h K (set_at st n w) -> 0 <= n < nc -> item (ws_low w) (t - 1) = Some l -> get_lower p alpha h n = Ret l.
  Proof.
    intros (A & B & C & D & E) Hn F. pose proof (E n Hn) as E0. unfold set_at in E0. rewrite Z.eqb_refl in E0. destruct E0 as (E1 & E2 & E3 & E4).
    pose proof (t_bounds alpha Ha). unfold get_lower. rewrite (vget_ok _ n []) by lia. rewrite bind_Ret, E2. unfold trim. rewrite isub_ok by ity_lia. rewrite bind_Ret.
    apply item_ret. exact F.
  Qed.
  Lemma get_upper_fwd h K st n w l : hrel h K (set_at st n w) -> 0 <= n < nc -> item (ws_high w) (t - 1) = Some l -> get_upper p alpha h n = Ret l.
  Proof.
    intros (A & B & C & D & E) Hn F. pose proof (E n Hn) as E0. unfold set_at in E0. rewrite Z.eqb_refl in E0. destruct E0 as (E1 & E2 & E3 & E4).
    pose proof (t_bounds alpha Ha). unfold get_upper. rewrite (vget_ok _ n []) by lia. rewrite bind_Ret, E3. unfold trim. rewrite isub_ok by ity_lia. rewrite bind_Ret.
    apply item_ret. exact F.
  Qed.

  Lemma add_one_fwd h K st n w p_in c row i : hrel h K (set_at st n w) -> rowok r nc p_in c row -> 0 <= n < nc -> n <= i < n + sz ->
    enter bs t (row i) w <> None -> exists h', add_one p bs alpha p_in c n h i = Ret h'.
  Proof.
    intros HR Hrow Hn Hi Hne. pose proof (t_bounds alpha Ha) as [T1 T2]. unfold add_one.
    destruct (Hrow i) as [Hv [px [E1 E2]]]; [unfold ksize in Hi; lia|]. rewrite E1, bind_Ret, E2, bind_Ret.
    pose proof (hrel_wok r nc alpha Hr Hnc Ha h K st n w HR Hn) as (W1 & W2 & W3 & W4 & W5).
    destruct w as [s low high]. cbn [ws_sum ws_low ws_high] in *. unfold enter in Hne.
    destruct (item low (t - 1)) as [l|] eqn:El; [|contradiction]. destruct (item high (t - 1)) as [u|] eqn:Eu; [|contradiction].
    rewrite (get_lower_fwd h K st n _ l HR Hn El), bind_Ret. rewrite (get_upper_fwd h K st n _ u HR Hn Eu), bind_Ret. unfold trim.
    destruct (row i <? l).
    - rewrite isub_ok by ity_lia. rewrite bind_Ret.
      destruct (without low (t - 1)) as [low'|] eqn:Ew; [|contradiction]. destruct (with_item low' (place bs low' (fun e : Z => e ?= row i)) (row i)) as [low''|] eqn:Ei; [|contradiction].
      destruct (edit_lower_fwd h K st n _ (fun l => vremove l (t - 1)) low' HR Hn (without_ret _ _ _ Ew)) as [h1 E3]. rewrite E3, bind_Ret.
      destruct (edit_lower_inv r nc alpha Hr Hnc Ha h K st n _ _ h1 HR Hn E3) as [low1 [F1 G1]]. cbn [ws_sum ws_low ws_high] in *.
      apply without_inv in F1 as [F1 F2]. rewrite Ew in F1. injection F1 as <-.
      specialize (G1 ltac:(lia) ltac:(intros s' Hs'; apply W4; eapply without_in; eassumption)).
      destruct (add_sum_fwd h1 K _ l n G1 Hn) as [h2 E4]. rewrite E4, bind_Ret. pose proof (add_sum_inv p r nc alpha Hr Hnc Ha h1 K st n _ l h2 G1 Hn E4) as G2. cbn [ws_sum ws_low ws_high] in G2.
      apply (edit_lower_fwd h2 K st n _ _ low'' G2 Hn). cbn [ws_low]. unfold search_up, pos_of. apply with_item_ret. exact Ei.
    - destruct (u <? row i).
      + rewrite isub_ok by ity_lia. rewrite bind_Ret.
        destruct (without high (t - 1)) as [high'|] eqn:Ew; [|contradiction]. destruct (with_item high' (place bs low (fun e : Z => row i ?= e)) (row i)) as [high''|] eqn:Ei; [|contradiction].
        destruct (edit_upper_fwd h K st n _ (fun l => vremove l (t - 1)) high' HR Hn (without_ret _ _ _ Ew)) as [h1 E3]. rewrite E3, bind_Ret.
        destruct (edit_upper_inv r nc alpha Hr Hnc Ha h K st n _ _ h1 HR Hn E3) as [high1 [F1 G1]]. cbn [ws_sum ws_low ws_high] in *.
        apply without_inv in F1 as [F1 F2]. rewrite Ew in F1. injection F1 as <-.
        specialize (G1 ltac:(lia) ltac:(intros s' Hs'; apply W5; eapply without_in; eassumption)).
        destruct (add_sum_fwd h1 K _ u n G1 Hn) as [h2 E4]. rewrite E4, bind_Ret. pose proof (add_sum_inv p r nc alpha Hr Hnc Ha h1 K st n _ u h2 G1 Hn E4) as G2. cbn [ws_sum ws_low ws_high] in G2.
        assert (Elw : vget (th_lower h2) n = Ret low).
        { pose proof G2 as (_ & _ & C2 & _ & G3). specialize (G3 n Hn). unfold set_at in G3. rewrite Z.eqb_refl in G3. destruct G3 as (_ & G3 & _).
          rewrite (vget_ok _ n []) by lia. rewrite G3. reflexivity. }
        rewrite Elw, bind_Ret.
        apply (edit_upper_fwd h2 K st n _ _ high'' G2 Hn). cbn [ws_high]. unfold search_down, pos_of. apply with_item_ret. exact Ei.
      + exact (add_sum_fwd h K _ (row i) n HR Hn).
  Qed.

  Lemma add_all_fwd K st n p_in c row h : forall i w, hrel h K (set_at st n w) -> rowok r nc p_in c row -> 0 <= n < nc -> n <= i <= n + sz ->
    enter_all bs t (map row (zrange i (n + sz))) w <> None ->
    exists h', mfold (add_one p bs alpha p_in c n) (zrange i (n + sz)) h = Ret h'.
  Proof.
    intros i w HR Hrow Hn Hi. remember (Z.to_nat (n + sz - i)) as m eqn:Em. revert i h w HR Hi Em.
    induction m as [|m IH]; intros i h w HR Hi Em Hne.
    - rewrite zrange_nil by lia. eexists. reflexivity.
    - rewrite zrange_cons in * by lia. cbn [mfold map enter_all] in *.
      destruct (add_one_fwd h K st n w p_in c row i HR Hrow Hn ltac:(lia)) as [h1 E1]; [intros F; rewrite F in Hne; contradiction|].
      destruct (add_one_inv p bs r nc alpha Hr Hnc Ha h K st n w p_in c row i h1 HR Hrow Hn ltac:(lia) E1) as [w1 [F1 G1]].
      rewrite E1, bind_Ret. rewrite F1 in Hne. apply (IH (i + 1) h1 w1 G1 ltac:(lia) ltac:(lia) Hne).
  Qed.

  Lemma get_next_lower_fwd h K st n w lc l : hrel h K (set_at st n w) -> Kok nc K -> 0 <= n < nc -> 0 <= l < 256 -> len (ws_low w) <= t - 1 ->
    exists h', get_next_lower p nc h n lc l = Ret h'.
  Proof.
    intros HR HK Hn Hl Hlen. pose proof (hrel_wok r nc alpha Hr Hnc Ha h K st n w HR Hn) as (W1 & W2 & W3 & W4 & W5).
    unfold get_next_lower. destruct w as [s low high]. cbn [ws_sum ws_low ws_high] in *.
    assert (PushOK : forall k, 0 <= k < 256 -> exists h0, (let! h := edit_lower h n (fun l => Ret (l ++ [k])) in sub_sum p h n k) = Ret h0).
    { intros k Hk. destruct (edit_lower_fwd h K st n _ (fun l => Ret (l ++ [k])) (low ++ [k]) HR Hn eq_refl) as [h1 E3]. rewrite E3, bind_Ret.
      destruct (edit_lower_inv r nc alpha Hr Hnc Ha h K st n _ _ h1 HR Hn E3) as [low' [F1 G1]]. cbn [ws_sum ws_low ws_high] in *.
      injection F1 as <-. rewrite len_app in G1. change (len [k]) with 1 in G1.
      specialize (G1 ltac:(lia) ltac:(intros s' Hs'; apply in_app_or in Hs' as [Hs'|[<-|[]]]; [apply W4; exact Hs'|exact Hk])).
      exact (sub_sum_fwd h1 K _ k n G1 Hn). }
    destruct (0 <? lc); [apply PushOK; exact Hl|].
    assert (E1 : iadd p U8 l 1 = Ret ((l + 1) mod 256)).
    { unfold iadd, arith. destruct (in_ity U8 (l + 1)) eqn:Eu.
      - unfold in_ity in Eu. cbn [lo hi U8] in Eu. rewrite Z.mod_small by lia. reflexivity.
      - unfold cast. cbn [lo hi U8]. rewrite Z.sub_0_r, Z.add_0_r. reflexivity. }
    rewrite E1, bind_Ret. pose proof (Z.mod_pos_bound (l + 1) 256 ltac:(lia)) as Hm.
    rewrite (first_key_ok p nc (th_data h) n (K n)).
    2:{ intros k Hk. apply in_zrange in Hk. apply (get_count_dat p nc Hnc Hodd); [apply HR|exact HK|exact Hn|lia]. }
    rewrite bind_Ret. destruct (find (fun k => 0 <? K n k) (zrange ((l + 1) mod 256) 256)) as [k|] eqn:Ef.
    - apply find_some in Ef as [Ef _]. apply in_zrange in Ef. apply PushOK. lia.
    - eexists. reflexivity.
  Qed.
  Lemma get_next_upper_fwd h K st n w uc u : hrel h K (set_at st n w) -> Kok nc K -> 0 <= n < nc -> 0 <= u < 256 -> len (ws_high w) <= t - 1 ->
    exists h', get_next_upper p nc h n uc u = Ret h'.
  Proof.
    intros HR HK Hn Hl Hlen. pose proof (hrel_wok r nc alpha Hr Hnc Ha h K st n w HR Hn) as (W1 & W2 & W3 & W4 & W5).
    unfold get_next_upper. destruct w as [s low high]. cbn [ws_sum ws_low ws_high] in *.
    assert (PushOK : forall k, 0 <= k < 256 -> exists h0, (let! h := edit_upper h n (fun l => Ret (l ++ [k])) in sub_sum p h n k) = Ret h0).
    { intros k Hk. destruct (edit_upper_fwd h K st n _ (fun l => Ret (l ++ [k])) (high ++ [k]) HR Hn eq_refl) as [h1 E3]. rewrite E3, bind_Ret.
      destruct (edit_upper_inv r nc alpha Hr Hnc Ha h K st n _ _ h1 HR Hn E3) as [high' [F1 G1]]. cbn [ws_sum ws_low ws_high] in *.
      injection F1 as <-. rewrite len_app in G1. change (len [k]) with 1 in G1.
      specialize (G1 ltac:(lia) ltac:(intros s' Hs'; apply in_app_or in Hs' as [Hs'|[<-|[]]]; [apply W5; exact Hs'|exact Hk])).
      exact (sub_sum_fwd h1 K _ k n G1 Hn). }
    destruct (0 <? uc); [apply PushOK; exact Hl|].
    rewrite (first_key_ok p nc (th_data h) n (K n)).
    2:{ intros k Hk. rewrite <- in_rev in Hk. apply in_zrange in Hk. apply (get_count_dat p nc Hnc Hodd); [apply HR|exact HK|exact Hn|lia]. }
    rewrite bind_Ret. destruct (find (fun k => 0 <? K n k) (rev (zrange 0 u))) as [k|] eqn:Ef.
    - apply find_some in Ef as [Ef _]. rewrite <- in_rev in Ef. apply in_zrange in Ef. apply PushOK. lia.
    - eexists. reflexivity.
  Qed.

  Lemma item_in l i (x : Z) : item l i = Some x -> In x l.
  Proof. unfold item. destruct ((0 <=? i) && (i <? len l)); [|discriminate]. apply nth_error_In. Qed.

  Lemma remove_one_fwd h K st n w p_in c row i : hrel h K (set_at st n w) -> Kok nc K -> rowok r nc p_in c row -> 0 <= n < nc -> n <= i < n + sz ->
    leave bs t (K n) (row i) (map row (zrange i (n + sz))) w <> None -> exists h', remove_one p bs r nc alpha p_in c n h i = Ret h'.
  Proof.
    intros HR HK Hrow Hn Hi Hne. pose proof (t_bounds alpha Ha) as [T1 T2]. unfold remove_one.
    destruct (Hrow i) as [Hv [px [E1 E2]]]; [unfold ksize in Hi; lia|]. rewrite E1, bind_Ret, E2, bind_Ret.
    pose proof (hrel_wok r nc alpha Hr Hnc Ha h K st n w HR Hn) as (W1 & W2 & W3 & W4 & W5).
    destruct w as [s low high]. cbn [ws_sum ws_low ws_high] in *. unfold leave in Hne.
    destruct (item low (t - 1)) as [l|] eqn:Ei; [|contradiction]. destruct (item high (t - 1)) as [u|] eqn:Eu; [|contradiction].
    pose proof (get_lower_fwd h K st n _ l HR Hn Ei) as El. pose proof (get_upper_fwd h K st n _ u HR Hn Eu) as Eu'.
    rewrite El, bind_Ret, Eu', bind_Ret. unfold trim.
    destruct (get_lower_inv p nc alpha Ha h K st n _ l HR Hn El) as (L1 & L2 & L3).
    destruct (get_upper_inv p nc alpha Ha h K st n _ u HR Hn Eu') as (U1 & U2 & U3). cbn [ws_sum ws_low ws_high] in *.
    rewrite (get_count_dat p nc Hnc Hodd (th_data h) K n l) by (try assumption; apply HR). rewrite bind_Ret.
    rewrite (get_count_dat p nc Hnc Hodd (th_data h) K n u) by (try assumption; apply HR). rewrite bind_Ret.
    pose proof (HK n l Hn L3) as B1. pose proof (HK n u Hn U3) as B2. unfold Kmax in B1, B2.
    assert (Hsz : 1 <= sz <= 255) by (unfold ksize; lia).
    rewrite (count_rest_ok p r nc p_in c row l u Hrow) by (unfold ksize in *; lia). rewrite bind_Ret. cbv beta iota.
    rewrite L2, bind_Ret. set (rest := map row (zrange i (n + sz))) in *.
    assert (Or : forall x, 0 <= occurrences x rest <= 255).
    { intros x. unfold occurrences, rest. rewrite occ_cnt. pose proof (cnt_bounds (fun s => s =? x) row i (n + sz) ltac:(lia)). lia. }
    pose proof (Or l) as O1. pose proof (Or u) as O2.
    assert (Lr : forall q : list Z, len (rev q) = len q) by (intros q; unfold len; rewrite rev_length; reflexivity).
    rewrite (drop_run_ok p l (rev low)) by (rewrite Lr; lia). rewrite bind_Ret.
    rewrite U2, bind_Ret. rewrite (drop_run_ok p u (rev high)) by (rewrite Lr; destruct (l =? u); lia). rewrite bind_Ret.
    change (leading l (rev low)) with (trailing l low). change (leading u (rev high)) with (trailing u high). cbv zeta in Hne.
    set (kl := K n l + occurrences l rest - trailing l low) in *. set (kh := K n u + (if l =? u then 0 else occurrences u rest) - trailing u high) in *.
    assert (DropLow : forall i low', without low i = Some low' -> exists h1, edit_lower h n (fun l => vremove l i) = Ret h1 /\
      hrel h1 K (set_at st n (WindowState s low' high)) /\ len low' <= t - 1).
    { intros i0 low' Ew. destruct (edit_lower_fwd h K st n _ (fun l => vremove l i0) low' HR Hn (without_ret _ _ _ Ew)) as [h1 E3].
      exists h1. split; [exact E3|]. destruct (edit_lower_inv r nc alpha Hr Hnc Ha h K st n _ _ h1 HR Hn E3) as [low1 [F1 G1]]. cbn [ws_sum ws_low ws_high] in *.
      apply without_inv in F1 as [F1 F2]. rewrite Ew in F1. injection F1 as <-. split; [|lia].
      apply G1; [lia|]. intros s' Hs'. apply W4. eapply without_in; eassumption. }
    assert (DropHigh : forall i high', without high i = Some high' -> exists h1, edit_upper h n (fun l => vremove l i) = Ret h1 /\
      hrel h1 K (set_at st n (WindowState s low high')) /\ len high' <= t - 1).
    { intros i0 high' Ew. destruct (edit_upper_fwd h K st n _ (fun l => vremove l i0) high' HR Hn (without_ret _ _ _ Ew)) as [h1 E3].
      exists h1. split; [exact E3|]. destruct (edit_upper_inv r nc alpha Hr Hnc Ha h K st n _ _ h1 HR Hn E3) as [high1 [F1 G1]]. cbn [ws_sum ws_low ws_high] in *.
      apply without_inv in F1 as [F1 F2]. rewrite Ew in F1. injection F1 as <-. split; [|lia].
      apply G1; [lia|]. intros s' Hs'. apply W5. eapply without_in; eassumption. }
    destruct ((row i =? l) && (kl =? 0)).
    { rewrite isub_ok by ity_lia. rewrite bind_Ret. destruct (without low (t - 1)) as [low'|] eqn:Ew; [|contradiction].
      destruct (DropLow _ _ Ew) as (h1 & E3 & G1 & G2). rewrite E3, bind_Ret. exact (get_next_lower_fwd h1 K st n _ _ l G1 HK Hn L3 G2). }
    destruct (row i <? l).
    { unfold search_up. destruct (bs low (fun e : Z => e ?= row i)) as [q|q].
      - destruct (without low q) as [low'|] eqn:Ew; [|contradiction].
        destruct (DropLow _ _ Ew) as (h1 & E3 & G1 & G2). rewrite E3, bind_Ret. exact (get_next_lower_fwd h1 K st n _ _ l G1 HK Hn L3 G2).
      - exact (sub_sum_fwd h K _ _ n HR Hn). }
    destruct ((row i =? u) && (kh =? 0)).
    { rewrite isub_ok by ity_lia. rewrite bind_Ret. destruct (without high (t - 1)) as [high'|] eqn:Ew; [|contradiction].
      destruct (DropHigh _ _ Ew) as (h1 & E3 & G1 & G2). rewrite E3, bind_Ret. exact (get_next_upper_fwd h1 K st n _ _ u G1 HK Hn U3 G2). }
    destruct (u <? row i).
    { unfold search_down. destruct (bs low (fun e : Z => row i ?= e)) as [q|q].
      - destruct (without high q) as [high'|] eqn:Ew; [|contradiction].
        destruct (DropHigh _ _ Ew) as (h1 & E3 & G1 & G2). rewrite E3, bind_Ret. exact (get_next_upper_fwd h1 K st n _ _ u G1 HK Hn U3 G2).
      - exact (sub_sum_fwd h K _ _ n HR Hn). }
    exact (sub_sum_fwd h K _ _ n HR Hn).
  Qed.

  Lemma remove_all_fwd K st n p_in c row h : forall i w, hrel h K (set_at st n w) -> Kok nc K -> rowok r nc p_in c row -> 0 <= n < nc -> n <= i <= n + sz ->
    leave_all bs t (K n) (map row (zrange i (n + sz))) w <> None ->
    exists h', mfold (remove_one p bs r nc alpha p_in c n) (zrange i (n + sz)) h = Ret h'.
  Proof.
    intros i w HR HK Hrow Hn Hi. remember (Z.to_nat (n + sz - i)) as m eqn:Em. revert i h w HR Hi Em.
    induction m as [|m IH]; intros i h w HR Hi Em Hne.
    - rewrite zrange_nil by lia. eexists. reflexivity.
    - pose proof (zrange_cons i (n + sz) ltac:(lia)) as Ez. rewrite Ez in Hne |- *. cbn [mfold map leave_all] in *.
      destruct (remove_one_fwd h K st n w p_in c row i HR HK Hrow Hn ltac:(lia)) as [h1 E1].
      { rewrite Ez. cbn [map]. intros F. rewrite F in Hne. contradiction. }
      destruct (remove_one_inv p bs r nc alpha Hr Hnc Hodd Ha h K st n w p_in c row i h1 HR HK Hrow Hn ltac:(lia) E1) as [w1 [F1 G1]].
      rewrite Ez in F1. cbn [map] in F1. rewrite E1, bind_Ret. rewrite F1 in Hne. apply (IH (i + 1) h1 w1 G1 ltac:(lia) ltac:(lia) Hne).
  Qed.

  Section AllColumns.
    Context (step : Z -> meanhist -> Z -> outcome meanhist) (next : Z -> window_state -> option window_state) (K : Z -> Z -> Z).
    Hypothesis Hstep : forall h st n w h', hrel h K (set_at st n w) -> 0 <= n < nc -> mfold (step n) (zrange n (n + sz)) h = Ret h' ->
      exists w', next n w = Some w' /\ hrel h' K (set_at st n w').
    Hypothesis Hfwd : forall h st n w, hrel h K (set_at st n w) -> 0 <= n < nc -> next n w <> None -> exists h', mfold (step n) (zrange n (n + sz)) h = Ret h'.
    Lemma columns_fwd h st : hrel h K st -> (forall n, 0 <= n < nc -> next n (st n) <> None) ->
      exists h', mfold (fun h n => mfold (step n) (zrange n (n + sz)) h) (zrange 0 nc) h = Ret h'.
    Proof.
      intros HR Hne.
      destruct (mfold_zrange_inv (fun m h => hrel h K (fun n => if n <? m then moved_to next st n else st n)) (fun h n => mfold (step n) (zrange n (n + sz)) h) 0 nc h) as [h' [E _]].
      - lia.
      - eapply (hrel_ext nc alpha); [exact HR|]. intros n Hn. cbn beta. destruct (Z.ltb_spec n 0); [lia|reflexivity].
      - clear h HR. intros m h Hm HR.
        assert (HR' : hrel h K (set_at (fun n => if n <? m then moved_to next st n else st n) m (st m))).
        { eapply (hrel_ext nc alpha); [exact HR|]. intros n _. unfold set_at. cbn beta. destruct (Z.eqb_spec n m) as [->|]; [rewrite Z.ltb_irrefl|]; reflexivity. }
        destruct (Hfwd h _ m _ HR' Hm (Hne m Hm)) as [h' E]. exists h'. split; [exact E|].
        destruct (Hstep h _ m _ h' HR' Hm E) as [w' [F1 F2]].
        eapply (hrel_ext nc alpha); [exact F2|]. intros n _. unfold set_at.
        assert (Ew : moved_to next st m = w') by (unfold moved_to; rewrite F1; reflexivity).
        destruct (Z.eqb_spec n m) as [Enm|]; [subst n; destruct (Z.ltb_spec m (m + 1)); [symmetry; exact Ew|lia]|].
        destruct (Z.ltb_spec n m); destruct (Z.ltb_spec n (m + 1)); try lia; reflexivity.
      - exists h'. exact E.
    Qed.
  End AllColumns.

  Lemma update_enter_fwd h K st p_in c row : hrel h K st -> Kok nc K -> rowok r nc p_in c row ->
    (forall n, 0 <= n < nc -> enter_all bs t (map row (zrange n (n + sz))) (st n) <> None) ->
    exists h', meanhist_update p bs r nc alpha h p_in c true = Ret h'.
  Proof.
    intros HR HK Hrow Hne. unfold meanhist_update. assert (Hl : len (th_sums h) = nc) by apply HR.
    destruct (Z.eqb_spec (len (th_sums h)) 0) as [Hz|_]; [lia|]. cbn [negb].
    set (next := fun n w => enter_all bs t (map row (zrange n (n + sz))) w).
    assert (Hs : forall h st n w h', hrel h K (set_at st n w) -> 0 <= n < nc -> mfold (add_one p bs alpha p_in c n) (zrange n (n + sz)) h = Ret h' ->
      exists w', next n w = Some w' /\ hrel h' K (set_at st n w')).
    { intros h0 st0 n w h0' HR0 Hn E0. apply (add_all_inv p bs r nc alpha Hr Hnc Ha K st0 n p_in c row h0 n w h0' HR0 Hrow Hn); [unfold ksize; lia|exact E0]. }
    destruct (columns_fwd (add_one p bs alpha p_in c) next K Hs) with (h := h) (st := st) as [h1 E1].
    - intros h0 st0 n w HR0 Hn Hne0. apply (add_all_fwd K st0 n p_in c row h0 n w HR0 Hrow Hn); [unfold ksize; lia|exact Hne0].
    - exact HR.
    - exact Hne.
    - rewrite E1, bind_Ret.
      destruct (columns_inv r nc alpha Hnc (add_one p bs alpha p_in c) next K Hs h st h1 HR E1) as [A1 A2].
      destruct (dat_update p r nc Hr Hnc Hodd (th_data h1) K p_in c row true) as [d' [F1 F2]]; [apply A2|exact HK|exact Hrow|].
      rewrite F1, bind_Ret. eexists. reflexivity.
  Qed.
  Lemma update_leave_fwd h K st p_in c row : hrel h K st -> Kok nc K -> rowok r nc p_in c row -> Kok nc (Kmoved r K false row) ->
    (forall n, 0 <= n < nc -> leave_all bs t (Kmoved r K false row n) (map row (zrange n (n + sz))) (st n) <> None) ->
    exists h', meanhist_update p bs r nc alpha h p_in c false = Ret h'.
  Proof.
    intros HR HK Hrow HK' Hne. unfold meanhist_update. assert (Hl : len (th_sums h) = nc) by apply HR.
    destruct (Z.eqb_spec (len (th_sums h)) 0) as [Hz|_]; [lia|]. cbn [negb].
    destruct (dat_update p r nc Hr Hnc Hodd (th_data h) K p_in c row false) as [d' [F1 F2]]; [apply HR|exact HK|exact Hrow|].
    rewrite F1, bind_Ret.
    assert (HR' : hrel (set_data h d') (Kmoved r K false row) st) by (destruct HR as (_ & B); split; [exact F2|exact B]).
    set (next := fun n w => leave_all bs t (Kmoved r K false row n) (map row (zrange n (n + sz))) w).
    assert (Hs : forall h st n w h', hrel h (Kmoved r K false row) (set_at st n w) -> 0 <= n < nc -> mfold (remove_one p bs r nc alpha p_in c n) (zrange n (n + sz)) h = Ret h' ->
      exists w', next n w = Some w' /\ hrel h' (Kmoved r K false row) (set_at st n w')).
    { intros h0 st0 n w h0' HR0 Hn E0. apply (remove_all_inv p bs r nc alpha Hr Hnc Hodd Ha _ st0 n p_in c row h0 n w h0' HR0 HK' Hrow Hn); [unfold ksize; lia|exact E0]. }
    destruct (columns_fwd (remove_one p bs r nc alpha p_in c) next (Kmoved r K false row) Hs) with (h := set_data h d') (st := st) as [h1 E1].
    - intros h0 st0 n w HR0 Hn Hne0. apply (remove_all_fwd _ st0 n p_in c row h0 n w HR0 HK' Hrow Hn); [unfold ksize; lia|exact Hne0].
    - exact HR'.
    - exact Hne.
    - exists h1. exact E1.
  Qed.
End Column.

Lemma mean_update_all_fwd p bs r nc alpha (Q : Z -> meanhist -> Prop) p_in add hs : forall c0, teach Q c0 hs ->
  (forall c h, c0 <= c < c0 + len hs -> Q c h -> exists h', meanhist_update p bs r nc alpha h p_in c add = Ret h') ->
  exists hs', mean_update_all p bs r nc alpha hs p_in c0 add = Ret hs'.
Proof.
  induction hs as [|h hs IH]; intros c0 HQ Hstep; cbn [mean_update_all].
  - eexists. reflexivity.
  - apply teach_cons in HQ as [H1 H2]. pose proof (len_nonneg hs). rewrite len_cons in *.
    destruct (Hstep c0 h ltac:(lia) H1) as [h' E1]. rewrite E1, bind_Ret.
    destruct (IH (c0 + 1) H2) as [hs' E2].
    { intros c h0 Hc. apply Hstep. lia. }
    rewrite E2, bind_Ret. eexists. reflexivity.
Qed.

Section Run.
  Context (bs : search) (r nc alpha : Z) (img : image Z).
  Notation p := Release.
  Hypothesis Hr : 0 <= r <= 127.
  Hypothesis Hnc : 0 < nc < 2 ^ 31.
  Hypothesis Hodd : nc mod 2 = 1.
  Hypothesis Hwf : wf img.
  Hypothesis Hu8 : samples is_u8 img.
  Notation W := (width (info_of img)).
  Notation H := (height (info_of img)).
  Notation C := (channels (info_of img)).
  Hypothesis HW : 0 < W.
  Hypothesis HWb : W + nc + r < 2 ^ 31.
  Hypothesis HH : 0 < H.
  Hypothesis HHb : H + r < 2 ^ 31.
  Notation sz := (ksize r).
  Hypothesis Ha : 2 <= alpha < sz * sz.
  Hypothesis Hev : alpha mod 2 = 0.
  Notation t := (alpha / 2).
  Notation v c := (clamped img c).
  Notation rowst := (rowst bs r nc alpha img).
  Notation KK := (KK r img).

  Lemma next_row_fwd x0 j o hs : 0 <= x0 < W -> 1 <= j < H -> wf o -> info_of o = info_of img -> len hs = C ->
    teach (rowst x0 (j - 1)) 0 hs ->
    (forall c n, 0 <= c < C -> 0 <= n < nc -> state_after bs (v c) r alpha (x0 + n) (Z.to_nat j) <> None) ->
    exists st', mean_next_row p bs r nc alpha img x0 (o, hs) j = Ret st'.
  Proof.
    intros Hx Hj Hwo Hio Hlh Hhs Hne. unfold mean_next_row.
    rewrite iadd_ok by ity_lia. rewrite bind_Ret. rewrite isub_ok by ity_lia. rewrite bind_Ret, iclamp_eq, bind_Ret by assumption.
    rewrite !cast_id by ity_lia. rewrite isub_ok by ity_lia. rewrite bind_Ret. rewrite isub_ok by ity_lia. rewrite bind_Ret.
    rewrite isub_ok by ity_lia. rewrite bind_Ret, iclamp_eq, bind_Ret by assumption.
    pose proof (clamp_in H (j + r) HH) as Hc1. pose proof (clamp_in H (j - r - 1) HH) as Hc2. rewrite cast_id by ity_lia.
    destruct (row_pixels_ok p r nc img ltac:(lia) Hnc Hwf Hu8 HW HWb HH x0 _ Hx Hc1) as [p1 [P1 Q1]].
    destruct (row_pixels_ok p r nc img ltac:(lia) Hnc Hwf Hu8 HW HWb HH x0 _ Hx Hc2) as [p2 [P2 Q2]].
    rewrite P1, bind_Ret, P2, bind_Ret. pose proof (Ha' r alpha Hr Ha) as Ha1.
    set (Q1' := fun c h => exists st, hrel nc alpha h (Kmoved r (KK c x0 (j - 1)) true (rowfn r img c x0 (clamp_to H (j + r)))) st /\
      forall n, 0 <= n < nc -> exists w, state_after bs (v c) r alpha (x0 + n) (Z.to_nat (j - 1)) = Some w /\
        enter_all bs t (window_row (v c) r (x0 + n) (j + r)) w = Some (st n)).
    assert (Step : forall c n w, 0 <= c < C -> 0 <= n < nc -> state_after bs (v c) r alpha (x0 + n) (Z.to_nat (j - 1)) = Some w ->
      exists w1, enter_all bs t (window_row (v c) r (x0 + n) (j + r)) w = Some w1 /\
        leave_all bs t (counted (v c) r (x0 + n) j) (window_row (v c) r (x0 + n) (j - r - 1)) w1 <> None).
    { intros c n w Hc Hn G1. specialize (Hne c n Hc Hn). replace (Z.to_nat j) with (S (Z.to_nat (j - 1))) in Hne by lia.
      cbn [state_after] in Hne. rewrite G1 in Hne. replace (Z.of_nat (S (Z.to_nat (j - 1)))) with j in Hne by lia.
      destruct (enter_all bs t (window_row (v c) r (x0 + n) (j + r)) w) as [w1|]; [|contradiction]. exists w1. split; [reflexivity|exact Hne]. }
    destruct (mean_update_all_fwd p bs r nc alpha (rowst x0 (j - 1)) p1 true hs 0 Hhs) as [hs1 E1].
    { intros c h Hc [st [HR Hst]]. rewrite Z.add_0_l, Hlh in Hc.
      apply (update_enter_fwd bs r nc alpha Hr Hnc Hodd Ha1 h _ st p1 c _ HR (KK_ok r nc img Hr c x0 (j - 1)) (Q1 c Hc)).
      intros n Hn. rewrite (row_eq_clamp r img HH). destruct (Step c n (st n) Hc Hn (Hst n Hn)) as [w1 [F _]]. rewrite F. discriminate. }
    rewrite E1, bind_Ret.
    destruct (mean_update_all_inv p bs r nc alpha (rowst x0 (j - 1)) Q1' p1 true hs 0 hs1 Hhs) as [L1 T1]; [|exact E1|].
    { intros c h h' Hc [st [HR Hst]] Eu. rewrite Z.add_0_l, Hlh in Hc.
      destruct (update_enter p bs r nc alpha Hr Hnc Hodd Ha1 h _ st p1 c _ h' HR (KK_ok r nc img Hr c x0 (j - 1)) (Q1 c Hc) Eu) as [st' [F1 F2]].
      exists st'. split; [exact F2|]. intros n Hn. exists (st n). split; [apply Hst; exact Hn|]. rewrite <- (row_eq_clamp r img HH c x0 n (j + r)). apply F1. exact Hn. }
    assert (EK : forall c n s, Kmoved r (Kmoved r (KK c x0 (j - 1)) true (rowfn r img c x0 (clamp_to H (j + r)))) false (rowfn r img c x0 (clamp_to H (j - r - 1))) n s = KK c x0 j n s).
    { intros c n s. unfold Kmoved. rewrite !(row_eq_clamp r img HH). unfold TrimmedL7.KK. pose proof (counted_step (v c) r (x0 + n) (j - 1) s ltac:(lia)) as Es.
      replace (j - 1 + 1) with j in Es by lia. replace (j - 1 - r) with (j - r - 1) in Es by lia. rewrite Es. lia. }
    assert (KM : forall c, Kok nc (Kmoved r (KK c x0 (j - 1)) true (rowfn r img c x0 (clamp_to H (j + r))))).
    { intros c n s _ _. unfold Kmoved, Kmax. pose proof (counted_bound (v c) r (x0 + n) (j - 1) s Hr) as B1. fold (KK c x0 (j - 1) n s) in B1.
      rewrite (row_eq_clamp r img HH). pose proof (occ_row_bounds (v c) r (x0 + n) (j + r) s ltac:(lia)). lia. }
    destruct (mean_update_all_fwd p bs r nc alpha Q1' p2 false hs1 0 T1) as [hs2 E2].
    { intros c h Hc [st [HR Hst]]. rewrite Z.add_0_l, L1, Hlh in Hc.
      apply (update_leave_fwd bs r nc alpha Hr Hnc Hodd Ha1 h _ st p2 c (rowfn r img c x0 (clamp_to H (j - r - 1))) HR (KM c) (Q2 c Hc)).
      - intros n s Hn Hs. rewrite EK. apply (KK_ok r nc img Hr); assumption.
      - intros n Hn. rewrite (row_eq_clamp r img HH). destruct (Hst n Hn) as [w [G1 G2]]. destruct (Step c n w Hc Hn G1) as [w1 [F1 F2]].
        rewrite G2 in F1. injection F1 as ->. rewrite (leave_all_ext bs t _ (counted (v c) r (x0 + n) j)); [exact F2|]. intros s. rewrite EK. reflexivity. }
    rewrite E2, bind_Ret.
    destruct (mean_update_all_inv p bs r nc alpha Q1' (rowst x0 j) p2 false hs1 0 hs2 T1) as [L2 T2]; [|exact E2|].
    { intros c h h' Hc [st [HR Hst]] Eu. rewrite Z.add_0_l, L1, Hlh in Hc.
      destruct (update_leave p bs r nc alpha Hr Hnc Hodd Ha1 h _ st p2 c (rowfn r img c x0 (clamp_to H (j - r - 1))) h' HR (KM c) (Q2 c Hc)) as [st' [F1 F2]].
      - intros n s Hn Hs. rewrite EK. apply (KK_ok r nc img Hr); assumption.
      - exact Eu.
      - exists st'. split; [eapply (hrel_K nc alpha); [exact F2|exact (EK c)]|]. intros n Hn. destruct (Hst n Hn) as [w [G1 G2]].
        replace (Z.to_nat j) with (S (Z.to_nat (j - 1))) by lia. cbn [state_after]. rewrite G1.
        replace (Z.of_nat (S (Z.to_nat (j - 1)))) with j by lia. rewrite G2.
        rewrite <- (F1 n Hn). rewrite (row_eq_clamp r img HH). apply leave_all_ext. intros s. symmetry. apply EK. }
    destruct (mean_row_ok p nc img Hnc Hwf HW ltac:(lia) (mean_next r alpha) (fun _ => rowst x0 j) (meanM bs r alpha img x0 j) x0 o hs2 j) as [o2 [hs3 (G0 & _)]]; try assumption; try lia.
    { intros c i h Hc Hi HJ. apply next_step; assumption. }
    rewrite G0. eexists. reflexivity.
  Qed.

  Lemma process_cols_mean_fwd x0 out : 0 <= x0 < W -> wf out -> info_of out = info_of img ->
    (forall c n y, 0 <= c < C -> 0 <= n < nc -> 0 <= y < H -> state_after bs (v c) r alpha (x0 + n) (Z.to_nat y) <> None) ->
    exists out', process_cols_mean p bs r nc alpha img out x0 = Ret out'.
  Proof.
    intros Hx Hwo Hio Hne. unfold process_cols_mean. rewrite meanhist_new_ok by (try assumption; lia). rewrite bind_Ret. cbv zeta.
    destruct (init_cols_mean_ok p bs r nc alpha img Hr Hnc Hodd Hwf Hu8 HW HWb HH HHb ltac:(lia) Hev x0 out Hx Hwo Hio) as [o [hs (E0 & A1 & A2 & A3 & A4 & A5)]].
    rewrite E0, bind_Ret.
    assert (A4' : teach (rowst x0 0) 0 hs).
    { intros k Hk. rewrite A3 in Hk. specialize (A4 k ltac:(lia)). rewrite Z.add_0_l in *. apply (first_rowst bs r nc alpha img Hr Hwf Hu8 HW HH Ha); [lia|exact A4]. }
    destruct (mfold_zrange_inv (fun j '(o', hs') => wf o' /\ info_of o' = info_of img /\ len hs' = C /\ teach (rowst x0 (j - 1)) 0 hs')
      (mean_next_row p bs r nc alpha img x0) 1 H (o, hs)) as [[o' hs'] [E _]].
    - lia.
    - split; [exact A1|]. split; [exact A2|]. split; [exact A3|]. exact A4'.
    - intros j [o1 hs1] Hj (B1 & B2 & B3 & B4).
      destruct (next_row_fwd x0 j o1 hs1 Hx Hj B1 B2 B3 B4) as [[o2 hs2] E].
      { intros c n Hc Hn. apply Hne; lia. }
      exists (o2, hs2). split; [exact E|].
      destruct (next_row_inv p bs r nc alpha img Hr Hnc Hodd Hwf Hu8 HW HWb HH HHb Ha x0 j o1 hs1 o2 hs2 Hx Hj B1 B2 B3 B4 E) as (D1 & D2 & D3 & D4 & D5).
      split; [exact D1|]. split; [exact D2|]. split; [exact D3|]. replace (j + 1 - 1) with j by lia. exact D4.
    - rewrite E, bind_Ret. eexists. reflexivity.
  Qed.

  Lemma mean_blocks_fwd : 
    (forall c X y, 0 <= c < C -> 0 <= X < (W + nc - 1) / nc * nc -> 0 <= y < H -> state_after bs (v c) r alpha X (Z.to_nat y) <> None) ->
    exists out, mfold (fun output x => process_cols_mean p bs r nc alpha img output x) (zrange_step_pos 0 W nc)
        (Image (info_of img) (repeat 0 (Z.to_nat (W * H * C)))) = Ret out.
  Proof.
    intros Hne. set (N := (W + nc - 1) / nc) in *.
    assert (HN : 0 <= N) by (apply Z.div_pos; lia).
    assert (Hlow : nc * (N - 1) < W /\ W <= nc * N).
    { pose proof (Z.div_mod (W + nc - 1) nc ltac:(lia)) as Hdm. pose proof (Z.mod_pos_bound (W + nc - 1) nc ltac:(lia)) as Hmb.
      fold N in Hdm. clear - Hdm Hmb Hnc. nia. }
    unfold zrange_step_pos. replace (W - 0 + nc - 1) with (W + nc - 1) by lia. fold N.
    replace (map (fun k => 0 + nc * Z.of_nat k) (seq 0 (Z.to_nat N))) with (map (fun k => nc * k) (zrange 0 N)).
    2:{ unfold zrange. rewrite map_map. replace (N - 0) with N by lia. apply map_ext. intros; lia. }
    rewrite mfold_map.
    destruct (mfold_zrange_inv (fun _ o => wf o /\ info_of o = info_of img) (fun s k => process_cols_mean p bs r nc alpha img s (nc * k)) 0 N
      (Image (info_of img) (repeat 0 (Z.to_nat (W * H * C))))) as [out [E _]].
    - exact HN.
    - split; [apply (blank_wf num_u8); apply wf_info_ok; exact Hwf|reflexivity].
    - intros k o Hk [A1 A2]. assert (Hx0 : 0 <= nc * k < W) by (clear - Hk Hlow Hnc; nia).
      destruct (process_cols_mean_fwd (nc * k) o Hx0 A1 A2) as [o' E].
      + intros c n y Hc Hn Hy. apply Hne; try assumption. clear - Hk Hn Hnc. nia.
      + exists o'. split; [exact E|].
        destruct (process_cols_mean_rows p bs r nc alpha img Hr Hnc Hodd Hwf Hu8 HW HWb HH HHb Ha Hev (nc * k) o o' Hx0 A1 A2 E) as (B1 & B2 & _). split; assumption.
    - exists out. exact E.
  Qed.

  (** and conversely *)
  Lemma mean_blocks_states out :
    mfold (fun output x => process_cols_mean p bs r nc alpha img output x) (zrange_step_pos 0 W nc)
        (Image (info_of img) (repeat 0 (Z.to_nat (W * H * C)))) = Ret out ->
    forall c X y, 0 <= c < C -> 0 <= X < (W + nc - 1) / nc * nc -> 0 <= y < H -> state_after bs (v c) r alpha X (Z.to_nat y) <> None.
  Proof.
    set (N := (W + nc - 1) / nc) in *.
    assert (HN : 0 <= N) by (apply Z.div_pos; lia).
    assert (Hlow : nc * (N - 1) < W /\ W <= nc * N).
    { pose proof (Z.div_mod (W + nc - 1) nc ltac:(lia)) as Hdm. pose proof (Z.mod_pos_bound (W + nc - 1) nc ltac:(lia)) as Hmb.
      fold N in Hdm. clear - Hdm Hmb Hnc. nia. }
    unfold zrange_step_pos. replace (W - 0 + nc - 1) with (W + nc - 1) by lia. fold N.
    replace (map (fun k => 0 + nc * Z.of_nat k) (seq 0 (Z.to_nat N))) with (map (fun k => nc * k) (zrange 0 N)).
    2:{ unfold zrange. rewrite map_map. replace (N - 0) with N by lia. apply map_ext. intros; lia. }
    rewrite mfold_map. intros E.
    assert (G : (fun n o => wf o /\ info_of o = info_of img /\ forall c X y, 0 <= c < C -> 0 <= X < nc * n -> 0 <= y < H ->
        state_after bs (v c) r alpha X (Z.to_nat y) <> None) N out).
    { revert E. apply (mfold_zrange_Ret (fun n o => wf o /\ info_of o = info_of img /\ forall c X y, 0 <= c < C -> 0 <= X < nc * n -> 0 <= y < H ->
        state_after bs (v c) r alpha X (Z.to_nat y) <> None)); [exact HN| |].
      - intros k o o' Hk (A1 & A2 & A3) E.
        assert (Hx0 : 0 <= nc * k < W) by (clear - Hk Hlow Hnc; nia).
        destruct (process_cols_mean_rows p bs r nc alpha img Hr Hnc Hodd Hwf Hu8 HW HWb HH HHb Ha Hev _ _ _ Hx0 A1 A2 E) as (B1 & B2 & B3 & _).
        split; [exact B1|]. split; [exact B2|]. intros c X y Hc HX Hy. destruct (Z.lt_ge_cases X (nc * k)) as [L|L]; [apply A3; lia|].
        replace X with (nc * k + (X - nc * k)) by lia. apply B3; try assumption. clear - HX L Hnc. nia.
      - split; [apply (blank_wf num_u8); apply wf_info_ok; exact Hwf|]. split; [reflexivity|]. intros c X y _ HX. lia. }
    destruct G as (_ & _ & A3). intros c X y Hc HX Hy. apply A3; try assumption. lia.
  Qed.
End Run.
