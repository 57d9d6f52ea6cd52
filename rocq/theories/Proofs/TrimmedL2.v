(** Lemmas about Model/Trimmed.v: rows and blocks. *)
From Verif.Model Require Import Base Float Image Median Trimmed.
From Verif.Spec Require Import ImageS SumS MedianS TrimmedS.
From Verif.Proofs Require Import BaseL ImageL ImageOps SumL LoopL MedianL MedianL2 MedianL3 MeanL TrimmedL.
Open Scope Z_scope.

Lemma vget_app {A} (l m : list A) k x : vget l k = Ret x -> vget (l ++ m) k = Ret x.
Proof.
  unfold vget. rewrite len_app. destruct ((0 <=? k) && (k <? len l)) eqn:B; [|discriminate].
  apply andb_prop in B as [B1 B2]. pose proof (len_nonneg m). destruct (Z.leb_spec 0 k); [|discriminate].
  destruct (Z.ltb_spec k (len l)); [|discriminate]. destruct (Z.ltb_spec k (len l + len m)); [|lia]. cbn [andb].
  rewrite nth_error_app1; [tauto|]. unfold len in *. lia.
Qed.

Lemma rowok_app r nc p_in rest c row : rowok r nc p_in c row -> rowok r nc (p_in ++ rest) c row.
Proof.
  intros Hr k Hk. destruct (Hr k Hk) as [Hv [px [E1 E2]]]. split; [exact Hv|]. exists px. split; [apply vget_app; exact E1|exact E2].
Qed.

(** where the upper values start *)
Lemma upper_cut_ok nc (Lf : Z -> Z -> Z) B i alpha : Lok nc Lf B -> 0 <= i < nc -> 0 <= alpha <= Lf i 256 ->
  let l := in_order (fun s => Lf i (s + 1) - Lf i s) 256 in
  let q := upper_cut l alpha in
  trim alpha <= q /\
  (trim alpha = 0 \/ exists c, 0 <= c < 256 /\ Lf i c <= Lf i 256 - trim alpha < Lf i (c + 1) /\ q = Z.max (trim alpha) (Lf i c)).
Proof.
  intros HL Hi Ha l q. assert (Hl : len l = Lf i 256) by (apply (P_len nc Lf B); auto; lia).
  unfold q, upper_cut. rewrite Hl. fold (trim alpha).
  assert (Ht : 0 <= trim alpha /\ 2 * trim alpha <= Lf i 256).
  { unfold trim. pose proof (Z.div_mod alpha 2 ltac:(lia)). pose proof (Z.mod_pos_bound alpha 2 ltac:(lia)). lia. }
  destruct Ht as [Ht Ht2]. split; [lia|]. destruct (Z.eq_dec (trim alpha) 0) as [Hz|Hz]; [left; exact Hz|right].
  assert (G : forall k, 0 <= k -> k <= 256 -> Lf i 256 - trim alpha < Lf i k -> exists c, 0 <= c < k /\ Lf i c <= Lf i 256 - trim alpha < Lf i (c + 1)).
  { intros k Hk. pattern k. apply natlike_ind; [| |exact Hk].
    - intros _ H0. rewrite (L0 _ _ _ HL) in H0 by exact Hi. lia.
    - intros j Hj IH Hj2 H0. destruct (Z.le_gt_cases (Lf i j) (Lf i 256 - trim alpha)).
      + exists j. split; [lia|]. replace (j + 1) with (Z.succ j) by lia. lia.
      + destruct (IH ltac:(lia) ltac:(lia)) as [c [C1 C2]]. exists c. split; [lia|exact C2]. }
  destruct (G 256 ltac:(lia) ltac:(lia) ltac:(lia)) as [c [C1 C2]]. exists c. split; [exact C1|]. split; [exact C2|].
  set (cn := fun s => Lf i (s + 1) - Lf i s) in *.
  assert (El : l = in_order cn c ++ repeat c (Z.to_nat (cn c)) ++ flat_map (fun s => repeat s (Z.to_nat (cn s))) (zrange (c + 1) 256)).
  { unfold l. rewrite (in_order_split cn 256 (c + 1)) by lia. rewrite in_order_snoc by lia. rewrite <- app_assoc. reflexivity. }
  assert (Hlc : len (in_order cn c) = Lf i c) by (apply (P_len nc Lf B); auto; lia).
  pose proof (Lrange _ _ _ i c HL Hi ltac:(lia)) as Hr.
  assert (En : nth (Z.to_nat (Lf i 256 - trim alpha)) l 0 = c).
  { rewrite El. rewrite app_nth2 by (unfold len in Hlc; lia). rewrite app_nth1 by (rewrite repeat_length; unfold cn, len in *; lia).
    rewrite nth_indep with (d' := c) by (rewrite repeat_length; unfold cn, len in *; lia). apply nth_repeat. }
  rewrite En. f_equal. rewrite <- Hlc. f_equal. rewrite El, !filter_app.
  assert (F1 : forall u, (forall x, In x u -> x < c) -> filter (fun s => s <? c) u = u).
  { induction u as [|x u IH]; intros Hu; [reflexivity|]. cbn [filter]. destruct (Z.ltb_spec x c); [|specialize (Hu x (or_introl eq_refl)); lia].
    f_equal. apply IH. intros y Hy. apply Hu. right. exact Hy. }
  assert (F2 : forall u, (forall x, In x u -> c <= x) -> filter (fun s => s <? c) u = []).
  { induction u as [|x u IH]; intros Hu; [reflexivity|]. cbn [filter]. destruct (Z.ltb_spec x c); [specialize (Hu x (or_introl eq_refl)); lia|].
    apply IH. intros y Hy. apply Hu. right. exact Hy. }
  rewrite F1, !F2, !app_nil_r; [reflexivity| | |].
  - intros x Hx. apply in_flat_map in Hx as [k [Hk Hx]]. apply repeat_spec in Hx. apply in_zrange in Hk. lia.
  - intros x Hx. apply repeat_spec in Hx. lia.
  - intros x Hx. apply in_order_lt in Hx. lia.
Qed.

Definition dth : meanhist := MeanHist [] [] [] [].
(** every histogram of the list (numbered from c0) satisfies Q *)
Definition teach (Q : Z -> meanhist -> Prop) (c0 : Z) (hs : list meanhist) : Prop :=
  forall k, 0 <= k < len hs -> Q (c0 + k) (nth (Z.to_nat k) hs dth).

Lemma teach_nil Q c0 : teach Q c0 [].
Proof. intros k Hk. unfold len in Hk. cbn in Hk. lia. Qed.
Lemma teach_cons Q c0 h hs : teach Q c0 (h :: hs) <-> Q c0 h /\ teach Q (c0 + 1) hs.
Proof.
  split.
  - intros H. split.
    + specialize (H 0). rewrite Z.add_0_r in H. apply H. unfold len. cbn [length]. lia.
    + intros k Hk. specialize (H (k + 1)). replace (Z.to_nat (k + 1)) with (S (Z.to_nat k)) in H by lia. cbn [nth] in H.
      replace (c0 + 1 + k) with (c0 + (k + 1)) by lia. apply H. unfold len in *. cbn [length]. lia.
  - intros [H1 H2] k Hk. destruct (Z.eq_dec k 0) as [->|].
    + rewrite Z.add_0_r. exact H1.
    + replace (Z.to_nat k) with (S (Z.to_nat (k - 1))) by lia. cbn [nth]. replace (c0 + k) with (c0 + 1 + (k - 1)) by lia.
      apply H2. unfold len in *. cbn [length] in Hk. lia.
Qed.
Lemma teach_map (Q Q' : Z -> meanhist -> Prop) f hs : forall c0, teach Q c0 hs -> (forall c h, Q c h -> Q' c (f h)) -> teach Q' c0 (map f hs).
Proof.
  induction hs as [|h hs IH]; intros c0 H Hf; [apply teach_nil|]. apply teach_cons in H as [H1 H2]. cbn [map]. apply teach_cons. auto.
Qed.
Lemma teach_repeat (Q : Z -> meanhist -> Prop) h n : forall c0, (forall c, c0 <= c < c0 + Z.of_nat n -> Q c h) -> teach Q c0 (repeat h n).
Proof.
  induction n as [|n IH]; intros c0 H; [apply teach_nil|]. cbn [repeat]. apply teach_cons. split; [apply H; lia|]. apply IH. intros c Hc. apply H. lia.
Qed.

Section All.
  Context (p : profile) (bs : search) (r nc alpha : Z).

  Lemma mean_update_all_ok (Q Q' : Z -> meanhist -> Prop) p_in add hs : forall c0, teach Q c0 hs ->
    (forall c h, c0 <= c < c0 + len hs -> Q c h -> exists h', meanhist_update p bs r nc alpha h p_in c add = Ret h' /\ Q' c h') ->
    exists hs', mean_update_all p bs r nc alpha hs p_in c0 add = Ret hs' /\ len hs' = len hs /\ teach Q' c0 hs'.
  Proof.
    induction hs as [|h hs IH]; intros c0 HQ Hstep.
    - exists []. split; [reflexivity|]. split; [reflexivity|apply teach_nil].
    - apply teach_cons in HQ as [H1 H2]. pose proof (len_nonneg hs). rewrite len_cons in *.
      destruct (Hstep c0 h ltac:(lia) H1) as [h' [E HQ']].
      destruct (IH (c0 + 1) H2) as [hs' [E' [L' HE]]].
      { intros c h0 Hc Hh. apply Hstep; [lia|exact Hh]. }
      cbn [mean_update_all]. rewrite E, bind_Ret, E', bind_Ret. eexists. split; [reflexivity|].
      split; [rewrite len_cons; lia|]. apply teach_cons. auto.
  Qed.

  Lemma mean_steps_ok (step : meanhist -> outcome (meanhist * Z)) (Q Q' : Z -> meanhist -> Prop) (m : Z -> Z) hs : forall c0,
    teach Q c0 hs ->
    (forall c h, c0 <= c < c0 + len hs -> Q c h -> exists h', step h = Ret (h', m c) /\ Q' c h') ->
    exists rs, mmap step hs = Ret rs /\ map snd rs = map m (zrange c0 (c0 + len hs)) /\
      len (map fst rs) = len hs /\ teach Q' c0 (map fst rs).
  Proof.
    induction hs as [|h hs IH]; intros c0 HQ Hstep.
    - exists []. split; [reflexivity|]. split; [rewrite zrange_nil by (unfold len; cbn; lia); reflexivity|]. split; [reflexivity|apply teach_nil].
    - apply teach_cons in HQ as [H1 H2]. pose proof (len_nonneg hs). rewrite len_cons in *.
      destruct (Hstep c0 h ltac:(lia) H1) as [h' [E HQ']].
      destruct (IH (c0 + 1) H2) as [rs [E1 [E2 [E3 E4]]]].
      { intros c h0 Hc Hh. apply Hstep; [lia|exact Hh]. }
      exists ((h', m c0) :: rs). cbn [mmap]. rewrite E, bind_Ret, E1, bind_Ret. split; [reflexivity|].
      split; [cbn [map snd]; rewrite E2, (zrange_cons c0) by lia; cbn [map]; do 2 f_equal; f_equal; lia|].
      cbn [map fst]. rewrite !len_cons, E3. split; [lia|]. apply teach_cons. auto.
  Qed.
End All.

Section Rows.
  Context (p : profile) (nc : Z) (img : image Z).
  Hypothesis Hnc : 0 < nc < 2 ^ 31.
  Hypothesis Hwf : wf img.
  Notation W := (width (info_of img)).
  Notation H := (height (info_of img)).
  Notation C := (channels (info_of img)).
  Hypothesis HW : 0 < W.
  Hypothesis HWb : W + nc < 2 ^ 31.

  Lemma mean_row_ok (step : Z -> meanhist -> outcome (meanhist * Z)) (J : Z -> Z -> meanhist -> Prop) (M : Z -> Z -> Z) x0 out hs y :
    0 <= x0 < W -> 0 <= y < H ->
    (forall c i h, 0 <= c < C -> 0 <= i < nc -> J i c h -> exists h', step i h = Ret (h', M c i) /\ J (i + 1) c h') ->
    wf out -> info_of out = info_of img -> len hs = C -> teach (J 0) 0 hs ->
    exists out' hs', mean_row p nc step out hs x0 y = Ret (out', hs') /\
      wf out' /\ info_of out' = info_of img /\ len hs' = C /\ teach (J nc) 0 hs' /\
      forall x y', inside img x y' -> pixel_at out' x y' =
        if (y' =? y) && (x0 <=? x) && (x <? x0 + nc) then pixel img M (lastcol img (x0 + nc) x - x0) else pixel_at out x y'.
  Proof.
    intros Hx Hy Hstep Hwo Hio Hlh Hhs. unfold mean_row.
    destruct (mfold_zrange_inv (fun i '(o, hs') => wf o /\ info_of o = info_of img /\ len hs' = C /\ teach (J i) 0 hs' /\
        forall x y', inside img x y' -> pixel_at o x y' =
        if (y' =? y) && (x0 <=? x) && (x <? x0 + i) then pixel img M (lastcol img (x0 + i) x - x0) else pixel_at out x y')
      (fun '(output, hs) i =>
          let! rs := mmap (step i) hs in
          let! xi := iadd p U32 x0 (cast U32 i) in
          let! w1 := isub p U32 (width (info_of output)) 1 in
          let! x_clamp := iclamp xi 0 w1 in
          let! output := set_pixel p output x_clamp y (map snd rs) in
          Ret (output, map fst rs)) 0 nc (out, hs)) as [[o hs'] [E (A1 & A2 & A3 & A4 & A5)]].
    - lia.
    - split; [exact Hwo|]. split; [exact Hio|]. split; [exact Hlh|]. split; [exact Hhs|].
      intros x y' Hin. destruct (Z.leb_spec x0 x); destruct (Z.ltb_spec x (x0 + 0)); try lia; rewrite ?andb_false_r; reflexivity.
    - clear hs Hlh Hhs. intros i [o hs] Hi (B1 & B2 & B3 & B4 & B5).
      destruct (mean_steps_ok (step i) (J i) (J (i + 1)) (fun c => M c i) hs 0 B4) as [rs [E1 [E2 [E3 E4]]]].
      { intros c h Hc Hh. apply Hstep; [lia|exact Hi|exact Hh]. }
      rewrite E1, bind_Ret. rewrite E2. rewrite Z.add_0_l, B3.
      change (map (fun c => M c i) (zrange 0 C)) with (pixel img M i).
      pose proof (wf_w _ Hwf) as HwW. unfold u32_max in HwW.
      rewrite cast_id by ity_lia. rewrite iadd_ok by ity_lia. rewrite bind_Ret, B2. rewrite isub_ok by ity_lia. rewrite bind_Ret.
      rewrite iclamp_eq by assumption. rewrite bind_Ret. set (xc := clamp_to W (x0 + i)).
      assert (Hxc : 0 <= xc < W) by (apply clamp_in; assumption).
      assert (Hin : inside o xc y) by (unfold inside; rewrite B2; split; assumption).
      pose proof (len_pixel img Hwf M i) as LP.
      rewrite set_pixel_ok by (try assumption; rewrite B2; exact LP). rewrite bind_Ret.
      eexists. split; [reflexivity|]. split.
      { apply put_wf; [exact B1| |rewrite B2; exact LP]. pose proof Hin as [I1 I2].
        destruct (pos_bound (width (info_of o)) (height (info_of o)) (channels (info_of o)) xc y I1 I2); [pose proof (wf_c _ B1)|]; lia. }
      split; [rewrite put_info; exact B2|]. split; [lia|]. split; [exact E4|].
      intros x y' Hin'. rewrite pixel_at_put by (try assumption; try (rewrite B2; exact LP); unfold inside; rewrite B2; exact Hin').
      rewrite B5 by exact Hin'. destruct Hin' as [Hx' Hy']. unfold lastcol.
      destruct (Z.eqb_spec y' y) as [->|]; [|rewrite andb_false_r; reflexivity]. rewrite andb_true_r. cbn [andb].
      unfold xc, clamp_to in *.
      destruct (Z.eqb_spec x (Z.max 0 (Z.min (W - 1) (x0 + i)))) as [Ex|Nx].
      + destruct (Z.leb_spec x0 x); [|lia]. destruct (Z.ltb_spec x (x0 + (i + 1))); [|lia]. cbn [andb].
        f_equal. destruct (Z.eqb_spec x (W - 1)); lia.
      + destruct (Z.leb_spec x0 x); [|reflexivity]. cbn [andb].
        destruct (Z.ltb_spec x (x0 + i)); destruct (Z.ltb_spec x (x0 + (i + 1))); try lia; try reflexivity.
        f_equal. destruct (Z.eqb_spec x (W - 1)); lia.
    - exists o, hs'. conj; assumption.
  Qed.
End Rows.
