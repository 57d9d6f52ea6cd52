(** * C33: generate_histogram_percentiles *)
From Coq Require Import Sorting.Sorted Permutation Lra.
From Verif.Model Require Import Util.
From Verif.Spec Require Import ImageS.
From Verif.Spec Require Export HistS.
From Verif.Proofs Require Import BaseL ImageL FloatL FloatL2.
Open Scope Z_scope.

(** ** the counting tree *)
Definition vsum (m : btree) (k : Z) : Z := fold_right (fun e a => (if fst e <=? k then snd e else 0) + a) 0 m.
Definition sorted (m : btree) : Prop := StronglySorted Z.lt (map fst m).
Definition vtotal (m : btree) : Z := fold_right (fun e a => snd e + a) 0 m.

Lemma vsum_cons e m k : vsum (e :: m) k = (if fst e <=? k then snd e else 0) + vsum m k.
Proof. reflexivity. Qed.
Lemma vtotal_cons e m : vtotal (e :: m) = snd e + vtotal m.
Proof. reflexivity. Qed.

Lemma nodup_snoc (l : list Z) q :
  len (nodup Z.eq_dec (l ++ [q])) = len (nodup Z.eq_dec l) + if in_dec Z.eq_dec q l then 0 else 1.
Proof.
  unfold len. destruct (in_dec Z.eq_dec q l) as [Hin|Hin].
  - rewrite (Permutation_length (l := nodup Z.eq_dec (l ++ [q])) (l' := nodup Z.eq_dec l)); [lia|].
    apply NoDup_Permutation; try apply NoDup_nodup. intros x. rewrite !nodup_In, in_app_iff. cbn. split; [|tauto].
    intros [H|[<-|[]]]; auto.
  - rewrite (Permutation_length (l := nodup Z.eq_dec (l ++ [q])) (l' := q :: nodup Z.eq_dec l)); [cbn; lia|].
    apply NoDup_Permutation; [apply NoDup_nodup| |].
    + constructor; [rewrite nodup_In; exact Hin|apply NoDup_nodup].
    + intros x. rewrite nodup_In, in_app_iff. cbn [In]. rewrite nodup_In. tauto.
Qed.
Lemma count_snoc bins q k : count_le (bins ++ [q]) k = count_le bins k + if q <=? k then 1 else 0.
Proof.
  unfold count_le. rewrite filter_app, len_app. cbn [filter]. destruct (q <=? k); reflexivity.
Qed.
Lemma bins_snoc bins q k : bins_le (bins ++ [q]) k
  = bins_le bins k + if (q <=? k) && negb (if in_dec Z.eq_dec q bins then true else false) then 1 else 0.
Proof.
  unfold bins_le. rewrite filter_app. cbn [filter]. destruct (q <=? k) eqn:E; cbn [andb].
  - rewrite nodup_snoc. f_equal.
    destruct (in_dec Z.eq_dec q bins) as [Hb|Hb]; destruct (in_dec Z.eq_dec q (filter (fun b => b <=? k) bins)) as [Hf|Hf]; cbn; auto.
    + exfalso. apply Hf. apply filter_In. auto.
    + exfalso. apply Hb. apply filter_In in Hf. tauto.
  - rewrite app_nil_r. lia.
Qed.

Lemma vsum_out m k : (forall e, In e m -> k < fst e) -> vsum m k = 0.
Proof.
  induction m as [|e m IH]; intros H; [reflexivity|].
  rewrite vsum_cons, IH by (intros e' He'; apply H; right; exact He').
  specialize (H e (or_introl eq_refl)). destruct (fst e <=? k) eqn:E; [apply Z.leb_le in E; lia|lia].
Qed.
(** one bump, when the counters cannot overflow *)
Lemma bump_ok p m q : sorted m -> (forall e, In e m -> 0 <= snd e < 2147483647) ->
  exists m', btree_bump p m q = Ret m' /\ sorted m'
    /\ (forall k, In k (map fst m') <-> k = q \/ In k (map fst m))
    /\ (forall e, In e m' -> 0 <= snd e)
    /\ (forall k, vsum m' k = vsum m k + if q <=? k then (if in_dec Z.eq_dec q (map fst m) then 1 else 2) else 0)
    /\ vtotal m' = vtotal m + (if in_dec Z.eq_dec q (map fst m) then 1 else 2).
Proof.
  unfold sorted. induction m as [|[k' v] m IH]; intros Hs Hv.
  - exists [(q, 2)]. cbn. conj; auto.
    + repeat constructor.
    + intros k. intuition.
    + intros e [<-|[]]. cbn. lia.
    + intros k. destruct (q <=? k); reflexivity.
  - cbn [map fst] in Hs. inversion Hs as [|? ? Hs' Hf]; subst. cbn [btree_bump].
    assert (Hgt : forall k, In k (map fst m) -> k' < k) by (rewrite Forall_forall in Hf; exact Hf).
    pose proof (Hv (k', v) (or_introl eq_refl)) as Hv0. cbn in Hv0.
    destruct (Z.ltb_spec q k') as [Hlt|Hge].
    + change (iadd p I32 1 1) with (@Ret Z 2). cbn [bind]. exists ((q, 2) :: (k', v) :: m). conj; auto.
      * cbn. constructor; [exact Hs|]. constructor; [exact Hlt|]. rewrite Forall_forall in *. intros k Hk. specialize (Hf k Hk). lia.
      * intros k. cbn. intuition.
      * intros e [<-|He]; [cbn; lia|]. specialize (Hv e He). lia.
      * intros k. destruct (in_dec Z.eq_dec q (map fst ((k', v) :: m))) as [Hin|_].
        -- exfalso. destruct Hin as [E|Hin]; [cbn in E; lia|]. specialize (Hgt q Hin). lia.
        -- rewrite !vsum_cons. cbn [fst snd]. destruct (q <=? k); lia.
      * destruct (in_dec Z.eq_dec q (map fst ((k', v) :: m))) as [Hin|_].
        -- exfalso. destruct Hin as [E|Hin]; [cbn in E; lia|]. specialize (Hgt q Hin). lia.
        -- rewrite !vtotal_cons. cbn [fst snd]. lia.
    + destruct (Z.eqb_spec q k') as [->|Hne].
      * rewrite iadd_ok by ity_lia. cbn [bind]. exists ((k', v + 1) :: m). conj; auto.
        -- intros k. cbn. intuition.
        -- intros e [<-|He]; [cbn; lia|]. specialize (Hv e (or_intror He)). lia.
        -- intros k. destruct (in_dec Z.eq_dec k' (map fst ((k', v) :: m))) as [_|Hin].
           ++ rewrite !vsum_cons. cbn [fst snd]. destruct (k' <=? k); lia.
           ++ exfalso. apply Hin. left. reflexivity.
        -- destruct (in_dec Z.eq_dec k' (map fst ((k', v) :: m))) as [_|Hin].
           ++ rewrite !vtotal_cons. cbn [fst snd]. lia.
           ++ exfalso. apply Hin. left. reflexivity.
      * destruct IH as (m' & E & S' & K' & P' & V' & T').
        { exact Hs'. } { intros e He. apply Hv. right. exact He. }
        rewrite E. cbn [bind]. exists ((k', v) :: m'). conj; auto.
        -- cbn. constructor; [exact S'|]. rewrite Forall_forall. intros k Hk. apply K' in Hk as [->|Hk]; [lia|auto].
        -- intros k. cbn [map fst In]. rewrite K'. tauto.
        -- intros e [<-|He]; [cbn; lia|auto].
        -- intros k. rewrite !vsum_cons. cbn [fst snd]. rewrite V'.
           destruct (in_dec Z.eq_dec q (map fst m)) as [Hin|Hin];
             destruct (in_dec Z.eq_dec q (map fst ((k', v) :: m))) as [Hin'|Hin']; cbn [map fst In] in Hin'; try lia.
           ++ exfalso. tauto.
           ++ exfalso. destruct Hin' as [E'|E']; [lia|tauto].
        -- rewrite !vtotal_cons. cbn [fst snd]. rewrite T'.
           destruct (in_dec Z.eq_dec q (map fst m)) as [Hin|Hin];
             destruct (in_dec Z.eq_dec q (map fst ((k', v) :: m))) as [Hin'|Hin']; cbn [map fst In] in Hin'; try lia.
           ++ exfalso. tauto.
           ++ exfalso. destruct Hin' as [E'|E']; [lia|tauto].
Qed.
Lemma entry_le_total m e : (forall e, In e m -> 0 <= snd e) -> In e m -> snd e <= vtotal m.
Proof.
  induction m as [|e' m IH]; intros H Hin; [destruct Hin|].
  assert (0 <= vtotal m).
  { clear IH Hin. induction m as [|a m IHm]; cbn; [lia|]. pose proof (H a ltac:(right; left; reflexivity)).
    assert (0 <= vtotal m) by (apply IHm; intros; apply H; cbn in *; tauto). unfold vtotal in *. lia. }
  assert (Hc : vtotal (e' :: m) = snd e' + vtotal m) by reflexivity. rewrite Hc. destruct Hin as [->|Hin]; [lia|].
  assert (snd e <= vtotal m) by (apply IH; auto; intros; apply H; right; assumption).
  pose proof (H e' (or_introl eq_refl)). lia.
Qed.

Definition tree_ok (bins : list Z) (m : btree) : Prop :=
  sorted m /\ (forall k, In k (map fst m) <-> In k bins) /\ (forall e, In e m -> 0 <= snd e)
  /\ (forall k, vsum m k = count_le bins k + bins_le bins k) /\ vtotal m <= 2 * len bins.

Lemma bumps_ok p bins : 2 * len bins <= 2147483647 ->
  exists m, mfold (fun m q => btree_bump p m q) bins [] = Ret m /\ tree_ok bins m.
Proof.
  intros H. assert (G : forall todo done m, len done + len todo = len bins -> tree_ok done m ->
    exists m', mfold (fun m q => btree_bump p m q) todo m = Ret m' /\ tree_ok (done ++ todo) m').
  { induction todo as [|q todo IH]; intros done m Hl (Hs & Hk & Hp & Hv & Ht).
    - exists m. rewrite app_nil_r. split; [reflexivity|]. unfold tree_ok. conj; auto.
    - assert (Hl' : len (q :: todo) = len todo + 1) by (unfold len; cbn; lia).
      pose proof (len_nonneg todo).
      destruct (bump_ok p m q Hs) as (m' & E & S' & K' & P' & V' & T').
      { intros e He. split; [auto|]. pose proof (entry_le_total m e Hp He). lia. }
      cbn [mfold]. rewrite E. cbn [bind].
      assert (Hdec : (if in_dec Z.eq_dec q (map fst m) then true else false) = (if in_dec Z.eq_dec q done then true else false)).
      { destruct (in_dec Z.eq_dec q (map fst m)) as [A|A]; destruct (in_dec Z.eq_dec q done) as [B|B]; auto; exfalso;
          [apply B, Hk, A|apply A, Hk, B]. }
      destruct (IH (done ++ [q]) m') as [m2 [E2 O2]].
      + rewrite len_app. change (len [q]) with 1. lia.
      + split; [exact S'|]. conj; auto.
        * intros k. rewrite K', Hk, in_app_iff. cbn. intuition.
        * intros k. rewrite V', Hv, count_snoc, bins_snoc, <- Hdec.
          destruct (q <=? k); destruct (in_dec Z.eq_dec q (map fst m)); cbn; lia.
        * rewrite T', len_app. change (len [q]) with 1. destruct (in_dec Z.eq_dec q (map fst m)); lia.
      + exists m2. rewrite <- app_assoc in O2. auto. }
  destruct (G bins [] []) as [m [E O]].
  - reflexivity.
  - split; [constructor|]. conj; try reflexivity; cbn; try tauto; lia.
  - exists m. auto.
Qed.

(** the accumulation loop *)
Lemma cum_ok p N m sum perc : sorted m -> (forall e, In e m -> 0 <= snd e) -> 0 <= sum -> sum + vtotal m <= 2147483647 ->
  exists perc', mfold (fun '(sum, perc) '(key, val) =>
          let! sum' := iadd p I32 sum val in
          Ret (sum', hm_insert perc key (f32_div (f32_of_Z sum') N))) m (sum, perc) = Ret (sum + vtotal m, perc')
   /\ forall k, hm_get perc' k = if in_dec Z.eq_dec k (map fst m) then Some (f32_div (f32_of_Z (sum + vsum m k)) N) else hm_get perc k.
Proof.
  unfold sorted. revert sum perc. induction m as [|[k0 v0] m IH]; intros sum perc Hs Hp Hsum Ht.
  - exists perc. cbn. replace (sum + 0) with sum by lia. auto.
  - cbn [map fst] in Hs. inversion Hs as [|? ? Hs' Hf]; subst.
    assert (Hv0 : 0 <= v0) by (apply (Hp (k0, v0)); left; reflexivity).
    assert (Hc : vtotal ((k0, v0) :: m) = v0 + vtotal m) by reflexivity. rewrite Hc in *.
    assert (Hp' : forall e, In e m -> 0 <= snd e) by (intros; apply Hp; right; assumption).
    assert (0 <= vtotal m).
    { clear - Hp'. induction m as [|a m IHm]; [cbn; lia|]. pose proof (Hp' a (or_introl eq_refl)).
      assert (0 <= vtotal m) by (apply IHm; intros; apply Hp'; right; assumption). cbn. unfold vtotal in *. lia. }
    cbn [mfold]. rewrite iadd_ok by ity_lia. cbn [bind].
    destruct (IH (sum + v0) (hm_insert perc k0 (f32_div (f32_of_Z (sum + v0)) N)) Hs' Hp' ltac:(lia) ltac:(lia)) as [perc' [E G]].
    exists perc'. split; [rewrite E; do 2 f_equal; lia|]. intros k. rewrite G. clear G E IH.
    rewrite Forall_forall in Hf.
    destruct (in_dec Z.eq_dec k (map fst m)) as [Hin|Hin].
    + destruct (in_dec Z.eq_dec k (map fst ((k0, v0) :: m))) as [_|Hn]; [|exfalso; apply Hn; right; exact Hin].
      specialize (Hf k Hin). rewrite !vsum_cons. cbn [fst snd].
      destruct (Z.leb_spec k0 k); [|lia]. do 3 f_equal. lia.
    + cbn [hm_insert hm_get]. destruct (Z.eqb_spec k k0) as [->|Hne].
      * destruct (in_dec Z.eq_dec k0 (map fst ((k0, v0) :: m))) as [_|Hn]; [|exfalso; apply Hn; left; reflexivity].
        rewrite !vsum_cons. cbn [fst snd]. rewrite (vsum_out m k0).
        -- destruct (Z.leb_spec k0 k0); [|lia]. do 3 f_equal. lia.
        -- intros e He. apply Hf. apply in_map. exact He.
      * destruct (in_dec Z.eq_dec k (map fst ((k0, v0) :: m))) as [Hn|_]; [|reflexivity].
        exfalso. destruct Hn as [E|Hn]; [cbn in E; congruence|tauto].
Qed.
Lemma len_bins pr img : 0 <= width (info_of img) -> 0 <= height (info_of img) ->
  len (pixel_bins pr img) = width (info_of img) * height (info_of img).
Proof.
  intros Hw Hh. unfold pixel_bins, len.
  rewrite (flat_map_concat_map), (length_concat_const _ (Z.to_nat (width (info_of img)))).
  - rewrite map_length, zrange_length. nia.
  - intros l Hl. apply in_map_iff in Hl as [y [<- _]]. rewrite map_length, zrange_length. lia.
Qed.

Theorem C33_percentiles p img percentiles precision :
  wf img -> 1 <= channels (info_of img) -> 2 * (width (info_of img) * height (info_of img)) <= 2147483647 ->
  exists out, generate_histogram_percentiles p img percentiles precision = Ret out /\
    forall k, hm_get out k =
      if in_dec Z.eq_dec k (pixel_bins precision img)
      then Some (f32_div (f32_of_Z (count_le (pixel_bins precision img) k + bins_le (pixel_bins precision img) k))
                         (f32_of_Z (width (info_of img) * height (info_of img))))
      else hm_get percentiles k.
Proof.
  intros Hwf Hch Hsz. unfold generate_histogram_percentiles. set (w := width (info_of img)) in *. set (h := height (info_of img)) in *.
  pose proof (wf_w _ Hwf) as Hw. pose proof (wf_h _ Hwf) as Hh. fold w in Hw. fold h in Hh.
  assert (E1 : mfold (fun hist y => mfold (fun hist x =>
          let! px := get_pixel p img x y in
          let! k := hist_key precision px in
          btree_bump p hist k) (zrange 0 w) hist) (zrange 0 h) []
     = mfold (fun m q => btree_bump p m q) (pixel_bins precision img) []).
  { unfold pixel_bins. rewrite mfold_flat_map. apply mfold_ext. intros m y Hy. apply in_zrange in Hy.
    rewrite mfold_map. apply mfold_ext. intros m' x Hx. apply in_zrange in Hx.
    assert (Hin : inside img x y) by (split; assumption).
    rewrite (get_pixel_ok img Hwf p x y Hin). cbn [bind]. unfold hist_key.
    rewrite (vget_ok _ 0 f32_0); [reflexivity|]. rewrite (pixel_at_len img Hwf x y Hin). lia. }
  rewrite E1. clear E1.
  assert (Hlen : len (pixel_bins precision img) = w * h) by (apply len_bins; lia).
  destruct (bumps_ok p (pixel_bins precision img)) as [m [-> (Hs & Hk & Hp & Hv & Ht)]]; [lia|]. cbn [bind].
  rewrite (size_ok img Hwf). cbn [bind]. fold w h.
  destruct (cum_ok p (f32_of_Z (w * h)) m 0 percentiles Hs Hp ltac:(lia) ltac:(lia)) as [out [-> G]]. cbn [bind].
  exists out. split; [reflexivity|]. intros k. rewrite G.
  destruct (in_dec Z.eq_dec k (map fst m)) as [A|A]; destruct (in_dec Z.eq_dec k (pixel_bins precision img)) as [B|B].
  - do 3 f_equal. rewrite Hv. lia.
  - exfalso. apply B, Hk, A.
  - exfalso. apply A, Hk, B.
  - reflexivity.
Qed.
(** every pixel finds its bin *)
Corollary C33_total p img percentiles precision x y :
  wf img -> 1 <= channels (info_of img) -> 2 * (width (info_of img) * height (info_of img)) <= 2147483647 ->
  inside img x y ->
  exists out v, generate_histogram_percentiles p img percentiles precision = Ret out
    /\ hm_get out (bin precision (nth 0 (pixel_at img x y) f32_0)) = Some v.
Proof.
  intros Hwf Hch Hsz [Hx Hy]. destruct (C33_percentiles p img percentiles precision Hwf Hch Hsz) as [out [E G]].
  exists out. rewrite G. destruct (in_dec Z.eq_dec _ _) as [_|Hn]; [eauto|]. exfalso. apply Hn. unfold pixel_bins.
  apply in_flat_map. exists y. split; [apply in_zrange; exact Hy|]. apply in_map_iff. exists x. split; [reflexivity|].
  apply in_zrange. exact Hx.
Qed.

(** the documented value is wrong for every image: the largest bin's "percentile" exceeds 1 *)
Lemma eps_fmt : generic_format radix2 (SpecFloat.fexp 24 128) (1 + / IZR 4194304)%R.
Proof.
  assert (E : (1 + / IZR 4194304)%R = B2R (@B754_finite 24 128 false 8388610 (-23) eq_refl)).
  { unfold B2R, F2R. cbn [Fnum Fexp bpow cond_Zopp]. change (Z.pow_pos radix2 23) with 8388608. lra. }
  rewrite E. apply fmt_B2R.
Qed.
Theorem C33_above_one_refuted p img percentiles precision k :
  wf img -> 1 <= channels (info_of img) -> width (info_of img) * height (info_of img) <= 4194304 ->
  In k (pixel_bins precision img) -> (forall k', In k' (pixel_bins precision img) -> k' <= k) ->
  exists out v, generate_histogram_percentiles p img percentiles precision = Ret out
    /\ hm_get out k = Some v /\ f32_ltb f32_1 v = true.
Proof.
  intros Hwf Hch Hsz Hk Hmax. destruct (C33_percentiles p img percentiles precision Hwf Hch ltac:(lia)) as [out [E G]].
  exists out. rewrite G. destruct (in_dec Z.eq_dec _ _) as [_|Hn]; [|contradiction]. eexists. conj; [exact E|reflexivity|].
  set (bins := pixel_bins precision img) in *.
  pose proof (len_bins precision img ltac:(apply (wf_w _ Hwf)) ltac:(apply (wf_h _ Hwf))) as Hlen. fold bins in Hlen.
  set (N := width (info_of img) * height (info_of img)) in *.
  assert (Ef : filter (fun b => b <=? k) bins = bins).
  { clear - Hmax. assert (G : forall l, (forall k', In k' l -> k' <= k) -> filter (fun b => b <=? k) l = l).
    { induction l as [|a l IH]; intros H; cbn; [reflexivity|]. pose proof (H a (or_introl eq_refl)).
      replace (a <=? k) with true by (symmetry; apply Z.leb_le; assumption). f_equal. apply IH. intros; apply H; right; assumption. }
    apply G. exact Hmax. }
  assert (Hc : count_le bins k = N) by (unfold count_le; rewrite Ef; exact Hlen).
  assert (Hb : 1 <= bins_le bins k <= N).
  { unfold bins_le. rewrite Ef. split.
    - assert (Hin : In k (nodup Z.eq_dec bins)) by (apply nodup_In; exact Hk). unfold len. destruct (nodup Z.eq_dec bins); [destruct Hin|cbn; lia].
    - rewrite <- Hlen. unfold len. apply inj_le. apply NoDup_incl_length; [apply NoDup_nodup|]. intros a Ha. apply nodup_In in Ha. exact Ha. }
  rewrite Hc. set (d := bins_le bins k) in *.
  assert (Hpos : (0 < IZR N)%R) by (apply IZR_lt; lia).
  assert (Hq : (1 + / IZR 4194304 <= IZR (N + d) / IZR N)%R).
  { rewrite plus_IZR. unfold Rdiv. rewrite Rmult_plus_distr_r, Rinv_r by lra. apply Rplus_le_compat_l.
    apply Rle_trans with (1 * / IZR N)%R.
    - rewrite Rmult_1_l. apply Rinv_le_contravar; [exact Hpos|]. apply IZR_le. lia.
    - apply Rmult_le_compat_r; [left; apply Rinv_0_lt_compat; exact Hpos|]. apply IZR_le. lia. }
  assert (Hq2 : (IZR (N + d) / IZR N <= 2)%R).
  { apply Rle_trans with (IZR (2 * N) / IZR N)%R.
    - apply Rmult_le_compat_r; [left; apply Rinv_0_lt_compat; exact Hpos|]. apply IZR_le. lia.
    - rewrite mult_IZR. right. field. lra. }
  assert (Hfin : fin (f32_div (f32_of_Z (N + d)) (f32_of_Z N)) (rnd32 (IZR (N + d) / IZR N))).
  { apply div_fin; try (apply of_Z_isZ; lia); [lra|]. rewrite Rabs_pos_eq.
    - apply Rle_trans with 2%R; [exact Hq2|]. change 2%R with (bpow radix2 1). apply bpow_le. lia.
    - assert (0 < / IZR 4194304)%R by (apply Rinv_0_lt_compat, IZR_lt; lia). lra. }
  unfold f32_ltb. rewrite (ltb_fin f32_1 _ 1 _ isZ_1 Hfin). apply Rlt_bool_true.
  pose proof (rnd_ge_fmt (prec := 24) (emax := 128) _ _ Hq eps_fmt).
  assert (0 < / IZR 4194304)%R by (apply Rinv_0_lt_compat, IZR_lt; lia). unfold rnd32. lra.
Qed.
Definition ex_hist : image f32 := Image (Info 3 1 1 false) [f32_of_Z 5; f32_of_Z 2; f32_of_Z 5].
Example C33_example :
  wfb ex_hist = true /\ pixel_bins f32_1 ex_hist = [5; 2; 5] /\ count_le [5;2;5] 2 = 1 /\ bins_le [5;2;5] 5 = 2
  /\ match generate_histogram_percentiles Debug ex_hist [] f32_1 with
     | Ret out => match hm_get out 5 with Some v => f32_eqb (f32_mul v (f32_of_Z 3)) (f32_of_Z 5) | None => false end
     | _ => false end = true.
Proof. conj; vm_compute; reflexivity. Qed.
