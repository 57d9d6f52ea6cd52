(** Lemmas about Model/Median.v: all channels, rows, blocks. *)
From Verif.Model Require Import Base Image Median.
From Verif.Spec Require Import ImageS SumS MedianS.
From Verif.Proofs Require Import BaseL ImageL SumL LoopL MedianL.
Open Scope Z_scope.

Lemma Zsum_shift f a b k : Zsum f (a + k) (b + k) = Zsum (fun i => f (i + k)) a b.
Proof.
  unfold Zsum. rewrite (zrange_shift (a + k)), (zrange_shift a b). rewrite !map_map.
  replace (b + k - (a + k)) with (b - a) by lia. f_equal. apply map_ext. intros. f_equal. lia.
Qed.

Definition dh : medhist := MedHist [] [] [].

(** every histogram of the list (numbered from c0) satisfies Q *)
Definition each (Q : Z -> medhist -> Prop) (c0 : Z) (hs : list medhist) : Prop :=
  forall k, 0 <= k < len hs -> Q (c0 + k) (nth (Z.to_nat k) hs dh).

Lemma each_nil Q c0 : each Q c0 [].
Proof. intros k Hk. unfold len in Hk. cbn in Hk. lia. Qed.
Lemma each_cons Q c0 h hs : each Q c0 (h :: hs) <-> Q c0 h /\ each Q (c0 + 1) hs.
Proof.
  split.
  - intros H. split.
    + specialize (H 0). rewrite Z.add_0_r in H. apply H. unfold len. cbn [length]. lia.
    + intros k Hk. specialize (H (k + 1)). replace (Z.to_nat (k + 1)) with (S (Z.to_nat k)) in H by lia. cbn [nth] in H.
      replace (c0 + 1 + k) with (c0 + (k + 1)) by lia. apply H. unfold len in *. cbn [length]. lia.
  - intros [H1 H2] k Hk. destruct (Z.eq_dec k 0) as [->|].
    + rewrite Z.add_0_r. exact H1.
    + replace (Z.to_nat k) with (S (Z.to_nat (k - 1))) by lia. cbn [nth]. replace (c0 + k) with (c0 + 1 + (k - 1)) by lia.
      apply H2. unfold len in *. cbn [length] in Hk. lia.
Qed.

Section All.
  Context (p : profile) (r nc : Z).

  Lemma update_all_ok (Q Q' : Z -> medhist -> Prop) p_in add hs : forall c0, 0 <= c0 -> each Q c0 hs ->
    (forall c h, c0 <= c < c0 + len hs -> Q c h -> exists h', medhist_update p r nc h p_in c add = Ret h' /\ Q' c h') ->
    exists hs', update_all p r nc hs p_in c0 add = Ret hs' /\ len hs' = len hs /\ each Q' c0 hs'.
  Proof.
    induction hs as [|h hs IH]; intros c0 Hc0 HQ Hstep.
    - exists []. split; [reflexivity|]. split; [reflexivity|apply each_nil].
    - apply each_cons in HQ as [H1 H2]. assert (L : len (h :: hs) = 1 + len hs) by (unfold len; cbn [length]; lia).
      pose proof (len_nonneg hs).
      destruct (Hstep c0 h ltac:(lia) H1) as [h' [E HQ']].
      destruct (IH (c0 + 1) ltac:(lia) H2) as [hs' [E' [L' HE]]].
      { intros c h0 Hc Hh. apply Hstep; [lia|exact Hh]. }
      cbn [update_all]. rewrite E, bind_Ret, E', bind_Ret. eexists. split; [reflexivity|].
      split; [unfold len in *; cbn [length]; lia|]. apply each_cons. auto.
  Qed.

  (** one column: every histogram yields one value *)
  Lemma steps_ok (step : medhist -> outcome (medhist * list Z)) (f : Z -> medhist -> medhist) (m : Z -> Z) hs : forall c0, 0 <= c0 ->
    (forall k, 0 <= k < len hs -> let h := nth (Z.to_nat k) hs dh in step h = Ret (f (c0 + k) h, [m (c0 + k)])) ->
    exists rs, mmap step hs = Ret rs /\ concat (map snd rs) = map m (zrange c0 (c0 + len hs)) /\
      len (map fst rs) = len hs /\
      (forall k, 0 <= k < len hs -> nth (Z.to_nat k) (map fst rs) dh = f (c0 + k) (nth (Z.to_nat k) hs dh)).
  Proof.
    induction hs as [|h hs IH]; intros c0 Hc0 H.
    - exists []. split; [reflexivity|]. split; [rewrite zrange_nil by (unfold len; cbn; lia); reflexivity|].
      split; [reflexivity|]. intros k Hk. unfold len in Hk. cbn in Hk. lia.
    - assert (L : len (h :: hs) = 1 + len hs) by (unfold len; cbn [length]; lia). pose proof (len_nonneg hs).
      destruct (IH (c0 + 1) ltac:(lia)) as [rs [E [E1 [E2 E3]]]].
      { intros k Hk. specialize (H (k + 1) ltac:(lia)). replace (Z.to_nat (k + 1)) with (S (Z.to_nat k)) in H by lia. cbn [nth] in H.
        replace (c0 + 1 + k) with (c0 + (k + 1)) by lia. exact H. }
      pose proof (H 0 ltac:(lia)) as Hz. cbn in Hz. rewrite Z.add_0_r in Hz.
      exists ((f c0 h, [m c0]) :: rs). cbn [mmap]. rewrite Hz, bind_Ret, E, bind_Ret. split; [reflexivity|].
      split. { cbn [map snd concat app]. rewrite E1. rewrite (zrange_cons c0) by lia. cbn [map]. do 2 f_equal. f_equal. lia. }
      split. { cbn [map]. unfold len in *. cbn [length]. lia. }
      intros k Hk. cbn [map fst]. destruct (Z.eq_dec k 0) as [->|].
      + cbn. rewrite Z.add_0_r. reflexivity.
      + replace (Z.to_nat k) with (S (Z.to_nat (k - 1))) by lia. cbn [nth]. rewrite E3 by lia. f_equal. lia.
  Qed.

  Definition with_pivot (h : medhist) (i v : Z) : medhist := MedHist (mh_data h) (mh_sums h) (upd (mh_pivots h) (Z.to_nat i) v).

  Lemma set_pivots_ok hs pv i : len pv = len hs ->
    (forall k, 0 <= k < len hs -> 0 <= i < len (mh_pivots (nth (Z.to_nat k) hs dh))) ->
    exists hs', set_pivots hs pv i = Ret hs' /\ len hs' = len hs /\
      forall k, 0 <= k < len hs -> nth (Z.to_nat k) hs' dh = with_pivot (nth (Z.to_nat k) hs dh) i (nth (Z.to_nat k) pv 0).
  Proof.
    intros Hl Hi. unfold set_pivots.
    destruct (mfold_zrange_inv (fun c hs' => len hs' = len hs /\ forall k, 0 <= k < len hs ->
        nth (Z.to_nat k) hs' dh = if k <? c then with_pivot (nth (Z.to_nat k) hs dh) i (nth (Z.to_nat k) pv 0) else nth (Z.to_nat k) hs dh)
      (fun hs c =>
        let! h := vget hs c in
        let! pv := vget pv c in
        let! h := set_pivot h pv i in
        vset hs c h) 0 (len pv) hs) as [hs' [E [H1 H2]]].
    - apply len_nonneg.
    - split; [reflexivity|]. intros k Hk. destruct (Z.ltb_spec k 0); [lia|reflexivity].
    - intros c hs' Hc [H1 H2]. rewrite (vget_ok hs' c dh) by lia. rewrite bind_Ret, H2 by lia.
      destruct (Z.ltb_spec c c); [lia|]. rewrite (vget_ok pv c 0) by lia. rewrite bind_Ret.
      unfold set_pivot. rewrite vset_ok by (apply Hi; lia). rewrite !bind_Ret. rewrite vset_ok by lia.
      eexists. split; [reflexivity|]. split; [rewrite len_upd; exact H1|]. intros k Hk. rewrite nth_upd by (unfold len in *; lia).
      destruct (Nat.eqb_spec (Z.to_nat k) (Z.to_nat c)) as [E|E].
      + assert (k = c) as -> by lia. destruct (Z.ltb_spec c (c + 1)); [reflexivity|lia].
      + rewrite H2 by lia. destruct (Z.ltb_spec k c); destruct (Z.ltb_spec k (c + 1)); try lia; reflexivity.
    - exists hs'. split; [exact E|]. split; [exact H1|]. intros k Hk. rewrite H2 by exact Hk. destruct (Z.ltb_spec k (len pv)); [reflexivity|lia].
  Qed.
End All.

Section Run.
  Context (p : profile) (r nc : Z) (img : image Z).
  Hypothesis Hr : 0 <= r < 2 ^ 14.
  Hypothesis Hnc : 0 < nc < 2 ^ 31.
  Hypothesis Hodd : nc mod 2 = 1.
  Hypothesis Hwf : wf img.
  Hypothesis Hu8 : samples is_u8 img.
  Notation W := (width (info_of img)).
  Notation H := (height (info_of img)).
  Notation C := (channels (info_of img)).
  Hypothesis HW : 0 < W.
  Hypothesis HWb : W + nc + r < 2 ^ 31.
  Hypothesis HH : 0 < H.
  Hypothesis HHb : H + r < 2 ^ 31.
  Notation nh := (n_half nc).
  Notation sz := (ksize r).
  Notation v := (clamped img).

  Lemma clamp_in b x : 0 < b -> 0 <= clamp_to b x < b.
  Proof. unfold clamp_to. lia. Qed.
  Lemma clamp_id b x : 0 <= x < b -> clamp_to b x = x.
  Proof. unfold clamp_to. lia. Qed.
  Lemma clamp_idem b x : 0 < b -> clamp_to b (clamp_to b x) = clamp_to b x.
  Proof. intros. apply clamp_id. apply clamp_in. assumption. Qed.

  Lemma v_u8 c x y : 0 <= c < C -> 0 <= v c x y < 256.
  Proof.
    intros Hc. unfold clamped.
    assert (Hin : inside img (clamp_to W x) (clamp_to H y)) by (split; apply clamp_in; assumption).
    set (px := pixel_at img (clamp_to W x) (clamp_to H y)).
    assert (Hl : len px = C) by (apply pixel_at_len; assumption).
    assert (HIn : In (nth (Z.to_nat c) px 0) px) by (apply nth_In; unfold len in Hl; lia).
    assert (HF : Forall is_u8 px).
    { unfold px, pixel_at. unfold samples in Hu8. rewrite Forall_forall in *. intros s Hs. apply Hu8.
      set (k := Z.to_nat _) in Hs at 2. 
      assert (A : In s (skipn k (data img))).
      { rewrite <- (firstn_skipn (Z.to_nat C) (skipn k (data img))). apply in_or_app. left. exact Hs. }
      rewrite <- (firstn_skipn k (data img)). apply in_or_app. right. exact A. }
    rewrite Forall_forall in HF. specialize (HF _ HIn). unfold is_u8 in HF. lia.
  Qed.

  (** the row of pixels used by the block at x0 *)
  Definition rowfn (c x0 y k : Z) : Z := v c (x0 - r + k) y.

  Lemma rowfn_clamp c x0 y k : rowfn c x0 (clamp_to H y) k = rowfn c x0 y k.
  Proof. unfold rowfn, clamped. rewrite clamp_idem by assumption. reflexivity. Qed.

  Lemma iclamp_eq x b : 0 < b -> iclamp x 0 (b - 1) = Ret (clamp_to b x).
  Proof.
    intros Hb. unfold iclamp, clamp_to. destruct (Z.ltb_spec (b - 1) 0); [lia|]. f_equal.
    destruct (Z.ltb_spec x 0); [lia|]. destruct (Z.ltb_spec (b - 1) x); lia.
  Qed.

  Lemma row_pixels_ok x0 y : 0 <= x0 < W -> 0 <= y < H ->
    exists pxs, row_pixels p r nc img x0 y = Ret pxs /\ forall c, 0 <= c < C -> rowok r nc pxs c (rowfn c x0 y).
  Proof.
    intros Hx Hy. unfold row_pixels. rewrite !cast_id by ity_lia. rewrite isub_ok by ity_lia. rewrite bind_Ret.
    rewrite iadd_ok by ity_lia. rewrite bind_Ret. rewrite iadd_ok by ity_lia. rewrite bind_Ret. rewrite (cast_id I32 (x0 + nc + r)) by ity_lia.
    assert (E : forall i, (let! w1 := isub p I32 W 1 in let! ic := iclamp i 0 w1 in get_pixel_unchecked p img (cast U32 ic) y)
                     = Ret (pixel_at img (clamp_to W i) y)).
    { intros i. rewrite isub_ok by ity_lia. rewrite bind_Ret, iclamp_eq, bind_Ret by assumption. pose proof (clamp_in W i HW).
      rewrite cast_id by ity_lia. apply get_pixel_unchecked_ok; [assumption|]. split; assumption. }
    rewrite (mmap_ext _ (fun i => Ret (pixel_at img (clamp_to W i) y))) by (intros; apply E). rewrite mmap_pure.
    eexists. split; [reflexivity|]. intros c Hc k Hk. split; [apply v_u8; exact Hc|].
    eexists. rewrite (vget_ok _ k []).
    2:{ rewrite len_map, len_zrange by lia. lia. }
    split; [reflexivity|]. rewrite nth_map_zrange by lia. unfold rowfn, clamped. rewrite (clamp_id H y) by assumption.
    rewrite (vget_ok _ c 0). 2:{ rewrite pixel_at_len; [exact Hc|assumption|]. split; [apply clamp_in|]; assumption. }
    reflexivity.
  Qed.

  (** values below t in the window columns of column n, rows [a, b) *)
  Definition rows (c x0 a b n t : Z) : Z := Zsum (fun y => cnt (fun s => s <? t) (rowfn c x0 y) n (n + sz)) a b.

  Lemma sz_eq : sz = 2 * r + 1.
  Proof. reflexivity. Qed.

  Lemma rows_ok c x0 a b : 0 <= c < C -> 0 <= b - a <= sz + 1 -> Lok nc (rows c x0 a b) (sz * (sz + 1)).
  Proof.
    intros Hc Hab. pose proof sz_eq. constructor.
    - intros n Hn. apply Zsum_zero. intros y _. apply Zsum_zero. intros k _. unfold b2z, rowfn.
      pose proof (v_u8 c (x0 - r + k) y Hc). destruct (Z.ltb_spec (v c (x0 - r + k) y) 0); lia.
    - intros n t Hn Ht. apply Zsum_le. intros y _. rewrite cnt_lt_succ.
      pose proof (cnt_bounds (fun s => s =? t) (rowfn c x0 y) n (n + sz) ltac:(lia)). lia.
    - intros n Hn. etransitivity; [apply (Zsum_upper _ a b sz); [lia|]|].
      + intros y _. pose proof (cnt_bounds (fun s => s <? 256) (rowfn c x0 y) n (n + sz) ltac:(lia)). lia.
      + apply Z.mul_le_mono_nonneg_l; lia.
  Qed.

  Lemma rows_window c x0 j n t : rows c x0 (j - r) (j + r + 1) n t = window_count (fun s => s <? t) (v c) r (x0 + n) j.
  Proof.
    unfold rows, window_count, rect_sum. apply Zsum_ext. intros y _. unfold cnt, rowfn.
    replace (x0 + n - r) with (n + (x0 - r)) by lia. replace (x0 + n + r + 1) with (n + sz + (x0 - r)) by (rewrite sz_eq; lia).
    rewrite Zsum_shift. apply Zsum_ext. intros k _. unfold b2z. replace (x0 - r + k) with (k + (x0 - r)) by lia. reflexivity.
  Qed.

  Lemma rows_add c x0 a b y n t : a <= b -> y = clamp_to H b -> moved r (rows c x0 a b) true (rowfn c x0 y) n t = rows c x0 a (b + 1) n t.
  Proof.
    intros Hab ->. unfold moved, rows. rewrite Zsum_snoc by exact Hab. rewrite Z.mul_1_l. f_equal.
    unfold cnt. apply Zsum_ext. intros k _. rewrite rowfn_clamp. reflexivity.
  Qed.
  Lemma rows_remove c x0 a b y n t : a < b -> y = clamp_to H a -> moved r (rows c x0 a b) false (rowfn c x0 y) n t = rows c x0 (a + 1) b n t.
  Proof.
    intros Hab ->. unfold moved, rows. rewrite (Zsum_cons _ a b) by exact Hab.
    replace (cnt (fun s => s <? t) (rowfn c x0 (clamp_to H a)) n (n + sz)) with (cnt (fun s => s <? t) (rowfn c x0 a) n (n + sz)); [lia|].
    unfold cnt. apply Zsum_ext. intros k _. rewrite rowfn_clamp. reflexivity.
  Qed.

  Lemma sumrep_ext h L L' P P' : sumrep nc h L P -> (forall n, 0 <= n < nc -> P n = P' n) ->
    (forall n t, 0 <= n < nc -> 0 <= t <= 256 -> L n t = L' n t) ->
    (forall n, 0 <= n < nc -> 0 <= P n < 256) -> sumrep nc h L' P'.
  Proof.
    intros (A & B & S) EP EL HP. split; [exact A|]. split; [exact B|]. intros n Hn. destruct (S n Hn) as [S1 S2].
    specialize (HP n Hn). rewrite <- (EP n Hn), <- (EL n (P n) Hn) by lia. auto.
  Qed.

  (** ** One row of a block *)
  Context (center : Z).

  (** histogram c of the block, when its windows hold the rows [a, b) and its pivots are P *)
  Definition hist_ok (x0 a b : Z) (P : Z -> Z -> Z) (c : Z) (h : medhist) : Prop :=
    datrep nc (mh_data h) (rows c x0 a b) /\ sumrep nc h (rows c x0 a b) (P c) /\
    forall n, 0 <= n < nc -> 0 <= P c n < 256.

  (** the column whose value ends up in column x, when the columns [x0, e) have been written *)
  Definition lastcol (e x : Z) : Z := if x =? W - 1 then e - 1 else x.

  Definition pixel (M : Z -> Z -> Z) (n : Z) : list Z := map (fun c => M c n) (zrange 0 C).

  Lemma len_pixel M n : len (pixel M n) = C.
  Proof. unfold pixel. pose proof (wf_c _ Hwf). rewrite len_map, len_zrange by lia. lia. Qed.

  Lemma process_row_ok (step : Z -> medhist -> outcome (medhist * list Z)) (M : Z -> Z -> Z) x0 a b P out hs y :
    0 <= x0 < W -> 0 <= y < H ->
    (forall c i h Q, 0 <= c < C -> 0 <= i < nc -> datrep nc (mh_data h) (rows c x0 a b) -> sumrep nc h (rows c x0 a b) Q ->
       Q i = P c i -> 0 <= P c i < 256 ->
       step i h = Ret (with_sum h i (rows c x0 a b i (M c i)), [M c i])) ->
    (forall c n, 0 <= c < C -> 0 <= n < nc -> 0 <= M c n < 256) ->
    wf out -> info_of out = info_of img -> len hs = C -> each (hist_ok x0 a b P) 0 hs ->
    exists out' hs', process_row p nc step out hs x0 y = Ret (out', hs') /\
      wf out' /\ info_of out' = info_of img /\ len hs' = C /\ each (hist_ok x0 a b M) 0 hs' /\
      forall x y', inside img x y' -> pixel_at out' x y' =
        if (y' =? y) && (x0 <=? x) && (x <? x0 + nc) then pixel M (lastcol (x0 + nc) x - x0) else pixel_at out x y'.
  Proof.
    intros Hx Hy Hstep HM Hwo Hio Hlh Hhs. unfold process_row.
    set (Pi := fun i c n => if n <? i then M c n else P c n).
    destruct (mfold_zrange_inv (fun i '(o, hs') => wf o /\ info_of o = info_of img /\ len hs' = C /\ each (hist_ok x0 a b (Pi i)) 0 hs' /\
        forall x y', inside img x y' -> pixel_at o x y' =
        if (y' =? y) && (x0 <=? x) && (x <? x0 + i) then pixel M (lastcol (x0 + i) x - x0) else pixel_at out x y')
      (fun '(output, hs) i =>
          let! rs := mmap (step i) hs in
          let p_out := concat (map snd rs) in
          let! xi := iadd p U32 x0 (cast U32 i) in
          let! w1 := isub p U32 (width (info_of output)) 1 in
          let! x_clamp := iclamp xi 0 w1 in
          let! output := set_pixel p output x_clamp y p_out in
          let! hs := set_pivots (map fst rs) p_out i in
          Ret (output, hs)) 0 nc (out, hs)) as [[o hs'] [E (A1 & A2 & A3 & A4 & A5)]].
    - lia.
    - split; [exact Hwo|]. split; [exact Hio|]. split; [exact Hlh|]. split.
      + intros k Hk. destruct (Hhs k Hk) as (B1 & B2 & B3). cbn [Z.add] in *.
        assert (EP : forall n, 0 <= n < nc -> P k n = Pi 0 k n) by (intros n Hn; unfold Pi; destruct (Z.ltb_spec n 0); [lia|reflexivity]).
        split; [exact B1|]. split; [eapply sumrep_ext; [exact B2|exact EP|reflexivity|exact B3]|].
        intros n Hn. rewrite <- EP by exact Hn. apply B3. exact Hn.
      + intros x y' Hin. destruct (Z.leb_spec x0 x); destruct (Z.ltb_spec x (x0 + 0)); try lia; rewrite ?andb_false_r; reflexivity.
    - clear hs Hlh Hhs. intros i [o hs] Hi (B1 & B2 & B3 & B4 & B5).
      destruct (steps_ok (step i) (fun c h => with_sum h i (rows c x0 a b i (M c i))) (fun c => M c i) hs 0) as [rs [E1 [E2 [E3 E4]]]].
      { lia. }
      { intros k Hk. destruct (B4 k Hk) as (D1 & D2 & D3). rewrite Z.add_0_l in *. apply (Hstep k i _ (Pi i k)); try assumption; try lia.
        - unfold Pi. destruct (Z.ltb_spec i i); [lia|reflexivity].
        - specialize (D3 i Hi). unfold Pi in D3. destruct (Z.ltb_spec i i); [lia|exact D3]. }
      rewrite E1, bind_Ret. cbv zeta. rewrite E2. rewrite Z.add_0_l, B3.
      change (map (fun c => M c i) (zrange 0 C)) with (pixel M i).
      pose proof (wf_w _ Hwf) as HwW. unfold u32_max in HwW.
      rewrite cast_id by ity_lia. rewrite iadd_ok by ity_lia. rewrite bind_Ret, B2. rewrite isub_ok by ity_lia. rewrite bind_Ret.
      rewrite iclamp_eq by assumption. rewrite bind_Ret. set (xc := clamp_to W (x0 + i)).
      assert (Hxc : 0 <= xc < W) by (apply clamp_in; assumption).
      assert (Hin : inside o xc y) by (unfold inside; rewrite B2; split; assumption).
      rewrite set_pixel_ok by (try assumption; rewrite B2; apply len_pixel). rewrite bind_Ret.
      destruct (set_pivots_ok (map fst rs) (pixel M i) i) as [hs' [F1 [F2 F3]]].
      { rewrite len_pixel, E3. congruence. }
      { intros k Hk. rewrite E3 in Hk. rewrite E4 by exact Hk. cbn [with_sum mh_pivots]. destruct (B4 k Hk) as (D1 & (D2 & D3 & _) & _). lia. }
      rewrite F1, bind_Ret. eexists. split; [reflexivity|]. split.
      { apply put_wf; [exact B1| |rewrite B2; apply len_pixel]. pose proof Hin as [I1 I2].
        destruct (pos_bound (width (info_of o)) (height (info_of o)) (channels (info_of o)) xc y I1 I2); [pose proof (wf_c _ B1)|]; lia. }
      split; [rewrite put_info; exact B2|]. split; [lia|]. split.
      { intros k Hk. assert (Hk' : 0 <= k < len hs) by lia. destruct (B4 k Hk') as (D1 & (D2 & D3 & D4) & D5). rewrite Z.add_0_l in *.
        rewrite F3 by lia. rewrite E4 by lia. rewrite Z.add_0_l. set (h := nth (Z.to_nat k) hs dh) in *.
        assert (Em : nth (Z.to_nat k) (pixel M i) 0 = M k i).
        { unfold pixel. rewrite nth_map_zrange by lia. reflexivity. }
        rewrite Em. unfold with_pivot, with_sum. cbn [mh_data mh_sums mh_pivots].
        split; [exact D1|]. split.
        - split; [cbn; rewrite len_upd; exact D2|]. split; [cbn; rewrite len_upd; exact D3|]. cbn. intros n Hn.
          rewrite !nth_upd by (unfold len in *; lia). unfold Pi.
          destruct (Nat.eqb_spec (Z.to_nat n) (Z.to_nat i)) as [E|E].
          + assert (n = i) as -> by lia. destruct (Z.ltb_spec i (i + 1)); [|lia]. auto.
          + destruct (D4 n Hn) as [G1 G2]. rewrite G1, G2. unfold Pi.
            destruct (Z.ltb_spec n i); destruct (Z.ltb_spec n (i + 1)); try lia; auto.
        - intros n Hn. unfold Pi. destruct (Z.ltb_spec n (i + 1)); [apply HM; lia|].
          specialize (D5 n Hn). unfold Pi in D5. destruct (Z.ltb_spec n i); [lia|exact D5]. }
      { intros x y' Hin'. rewrite pixel_at_put by (try assumption; try (rewrite B2; apply len_pixel); unfold inside; rewrite B2; exact Hin').
        rewrite B5 by exact Hin'. destruct Hin' as [Hx' Hy']. unfold lastcol.
        destruct (Z.eqb_spec y' y) as [->|]; [|rewrite andb_false_r; reflexivity]. rewrite andb_true_r. cbn [andb].
        unfold xc, clamp_to in *.
        destruct (Z.eqb_spec x (Z.max 0 (Z.min (W - 1) (x0 + i)))) as [Ex|Nx].
        - destruct (Z.leb_spec x0 x); [|lia]. destruct (Z.ltb_spec x (x0 + (i + 1))); [|lia]. cbn [andb].
          f_equal. destruct (Z.eqb_spec x (W - 1)); lia.
        - destruct (Z.leb_spec x0 x); [|reflexivity]. cbn [andb].
          destruct (Z.ltb_spec x (x0 + i)); destruct (Z.ltb_spec x (x0 + (i + 1))); try lia; try reflexivity.
          f_equal. destruct (Z.eqb_spec x (W - 1)); lia. }
    - exists o, hs'. split; [exact E|]. conj; try assumption.
      intros k Hk. destruct (A4 k Hk) as (B1 & B2 & B3). rewrite Z.add_0_l in *.
      assert (EP : forall n, 0 <= n < nc -> Pi nc k n = M k n) by (intros n Hn; unfold Pi; destruct (Z.ltb_spec n nc); [reflexivity|lia]).
      split; [exact B1|]. split; [eapply sumrep_ext; [exact B2|exact EP|reflexivity|exact B3]|]. intros n Hn. apply HM; lia.
  Qed.
End Run.
