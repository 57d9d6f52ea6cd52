(** * C92: the median filters treat the channels separately *)
From Verif.Model Require Import Base Float Image Transform Median Trimmed.
From Verif.Spec Require Import ImageS ChannelS.
From Verif.Proofs Require Import BaseL ImageL Safe TransformL LoopL ChannelL.
From Verif.Props Require Import ChannelP ChannelP2.
Open Scope Z_scope.

(** ** histograms of one channel *)
Lemma Forall2_nth {A B} (R : A -> B -> Prop) l l' : Forall2 R l l' ->
  forall n, match nth_error l n, nth_error l' n with Some a, Some b => R a b | None, None => True | _, _ => False end.
Proof. intros H. induction H as [|u v l l' Huv H IH]; intros [|n]; cbn [nth_error]; try exact I; [exact Huv|apply IH]. Qed.
Lemma vget_cases {A} (l : list A) i : (exists a, vget l i = Ret a) \/ vget l i = Panic.
Proof. unfold vget. destruct ((0 <=? i) && (i <? len l)); [|right; reflexivity]. destruct (nth_error l (Z.to_nat i)); [left; eauto|right; reflexivity]. Qed.
Section Look.
  Context (p : profile) (r nc : Z) (ks : list nat) (rows rows' : list (list Z)) (HR : Forall2 (picks ks) rows rows') (j k : nat) (Hjk : nth_error ks j = Some k).
  Notation J := (Z.of_nat j).
  Notation K := (Z.of_nat k).

  Lemma vget_row i : osim (fun px px' : list Z => vget px' J = vget px K) (vget rows i) (vget rows' i) /\
    (forall px', vget rows' i = Ret px' -> exists px, vget rows i = Ret px) /\ (vget rows i = Panic -> vget rows' i = Panic).
  Proof using HR Hjk.
    unfold vget, len. rewrite <- (Forall2_len _ _ _ HR). destruct (_ && _); [|split; [|split]; [intros a E|intros a E|]; congruence].
    assert (G : forall n, match nth_error rows n, nth_error rows' n with Some a, Some b => picks ks a b | None, None => True | _, _ => False end).
    { exact (Forall2_nth (picks ks) rows rows' HR). }
    specialize (G (Z.to_nat i)). destruct (nth_error rows _) as [a|], (nth_error rows' _) as [b|]; try contradiction.
    - split; [|split]; [|intros; eauto|discriminate]. intros px [= <-]. exists b. split; [reflexivity|].
      rewrite !Nat2Z.id. rewrite (picks_nth ks a b j k G Hjk).
      destruct (nth_error a k) as [v|] eqn:Ev.
      + assert ((k < length a)%nat) by (apply nth_error_Some; congruence).
        assert ((j < length b)%nat) by (apply nth_error_Some; rewrite (picks_nth ks a b j k G Hjk); congruence).
        replace ((0 <=? K) && (K <? Z.of_nat (length a))) with true by lia. replace ((0 <=? J) && (J <? Z.of_nat (length b))) with true by lia. reflexivity.
      + destruct (_ && _), (_ && _); reflexivity.
    - split; [|split]; [intros px E|intros px E|]; congruence.
  Qed.
  Lemma peek {A} i (f : Z -> outcome A) :
    (let! px := vget rows' i in let! v := vget px J in f v) = (let! px := vget rows i in let! v := vget px K in f v).
  Proof using HR Hjk.
    destruct (vget_row i) as (S & _ & N). destruct (vget_cases rows i) as [(px & E) | E].
    - destruct (S px E) as (px' & -> & Ev). rewrite E. cbn [bind]. rewrite Ev. reflexivity.
    - rewrite (N E), E. reflexivity.
  Qed.
  Lemma bump_sel d n i inc : bump p d n rows' i J inc = bump p d n rows i K inc.
  Proof using HR Hjk. unfold bump. apply peek. Qed.
  Lemma unbump_sel d n i inc : unbump p d n rows' i J inc = unbump p d n rows i K inc.
  Proof using HR Hjk. unfold unbump. apply peek. Qed.
  Lemma phist_sel d add : phist_update p r nc d rows' J add = phist_update p r nc d rows K add.
  Proof using HR Hjk.
    unfold phist_update. cbv zeta.
    assert (E : forall inc, mfold (fun d n => let! n_upper := isub p USIZE (nc - n) 1 in
          mfold (fun d i =>
            let! d := bump p d n rows' i J inc in
            let! d := unbump p d n rows' (i + ksize r) J inc in
            let! i_upper := isub p USIZE (nc + 2 * r - i) 1 in
            let! i_lower := isub p USIZE i_upper (ksize r) in
            let! d := unbump p d n_upper rows' i_lower J inc in
            bump p d n_upper rows' i_upper J inc) (zrange n (n_half nc)) d) (zrange 0 (n_half nc)) d
      = mfold (fun d n => let! n_upper := isub p USIZE (nc - n) 1 in
          mfold (fun d i =>
            let! d := bump p d n rows i K inc in
            let! d := unbump p d n rows (i + ksize r) K inc in
            let! i_upper := isub p USIZE (nc + 2 * r - i) 1 in
            let! i_lower := isub p USIZE i_upper (ksize r) in
            let! d := unbump p d n_upper rows i_lower K inc in
            bump p d n_upper rows i_upper K inc) (zrange n (n_half nc)) d) (zrange 0 (n_half nc)) d).
    { intros inc. apply mfold_ext. intros s n _. apply bind_ext. intros nu _. apply mfold_ext. intros t i _.
      rewrite bump_sel. apply bind_ext. intros d1 _. rewrite unbump_sel. apply bind_ext. intros d2 _. apply bind_ext. intros iu _. apply bind_ext. intros il _.
      rewrite unbump_sel. apply bind_ext. intros d3 _. apply bump_sel. }
    rewrite E. apply bind_ext. intros d1 _. apply mfold_ext. intros s i _. apply bump_sel.
  Qed.
  Lemma medhist_sel h add : medhist_update p r nc h rows' J add = medhist_update p r nc h rows K add.
  Proof using HR Hjk.
    unfold medhist_update. rewrite phist_sel. apply bind_ext. intros d _. cbv zeta. destruct (negb _); [|reflexivity].
    f_equal. apply mfold_ext. intros s n _. apply mfold_ext. intros t i _. apply peek.
  Qed.
  Lemma meanhist_sel bs al h add : meanhist_update p bs r nc al h rows' J add = meanhist_update p bs r nc al h rows K add.
  Proof using HR Hjk.
    unfold meanhist_update. destruct (negb _).
    - destruct add.
      + replace (mfold (fun h0 n => mfold (add_one p bs al rows' J n) (zrange n (n + ksize r)) h0) (zrange 0 nc) h)
          with (mfold (fun h0 n => mfold (add_one p bs al rows K n) (zrange n (n + ksize r)) h0) (zrange 0 nc) h).
        2: { apply mfold_ext. intros s n _. apply mfold_ext. intros t i _. symmetry. unfold add_one. apply peek. }
        apply bind_ext. intros h1 _. rewrite phist_sel. reflexivity.
      + rewrite phist_sel. apply bind_ext. intros d _. apply mfold_ext. intros s n _. apply mfold_ext. intros t i _.
        unfold remove_one. rewrite peek. apply bind_ext. intros px _. apply bind_ext. intros v _. apply bind_ext. intros lo _. apply bind_ext. intros up _.
        apply bind_ext. intros lc _. apply bind_ext. intros uc _. f_equal. apply mfold_ext. intros [a b] q _. unfold count_rest. apply peek.
    - rewrite phist_sel. reflexivity.
  Qed.
End Look.

(** ** lists of histograms, one for every channel *)
Lemma picks_mmap {A B} ks (f : A -> outcome B) (hs hs' : list A) : picks ks hs hs' -> osim (picks ks) (mmap f hs) (mmap f hs').
Proof.
  intros H rs E. assert (M : exists rs', mmap f hs' = Ret rs').
  { assert (G : forall l : list A, incl l hs -> exists rs', mmap f l = Ret rs').
    { clear H hs'. induction l as [|a l IH]; intros Hl; cbn [mmap]; [eauto|].
      assert (Ha : In a hs) by (apply Hl; left; reflexivity).
      assert (Ea : exists b, f a = Ret b).
      { clear -E Ha. revert rs E. induction hs as [|c hs IH]; intros rs E; [contradiction|]. cbn [mmap] in E.
        apply bind_inv in E as (b & Eb & E). apply bind_inv in E as (bs & Ebs & _). destruct Ha as [-> | Ha]; eauto. }
      destruct Ea as (b & ->). cbn [bind]. destruct IH as (bs & ->); [intros x Hx; apply Hl; right; exact Hx|]. cbn [bind]. eauto. }
    apply G. intros x Hx. assert (In (Some x) (map Some hs')) by (apply in_map; exact Hx). rewrite H in H0.
    apply in_map_iff in H0 as (k & Ek & _). eapply nth_error_In. exact Ek. }
  destruct M as (rs' & E'). exists rs'. split; [exact E'|].
  apply picks_intro.
  - rewrite (mmap_length _ _ _ E'). pose proof (picks_len ks hs hs' H) as L. unfold len in L. lia.
  - intros j k Ek. pose proof (picks_nth ks hs hs' j k H Ek) as En.
    assert (Hk : exists h, nth_error hs k = Some h).
    { apply (f_equal (fun l => nth_error l j)) in H. rewrite !nth_error_map, Ek in H. cbn in H. destruct (nth_error hs' j); cbn in H; [eauto|discriminate]. }
    destruct Hk as (h & Eh). rewrite Eh in En.
    assert (N : forall l n ts a, mmap f l = Ret ts -> nth_error l n = Some a -> exists b, f a = Ret b /\ nth_error ts n = Some b).
    { clear. induction l as [|c l IH]; intros n ts a E N; [destruct n; discriminate|]. cbn [mmap] in E.
      apply bind_inv in E as (b & Eb & E). apply bind_inv in E as (bs & Ebs & E). injection E as <-. destruct n as [|n]; cbn [nth_error] in *.
      - injection N as ->. eauto.
      - eapply IH; eauto. }
    destruct (N hs k rs h E Eh) as (b & Eb & Nb). destruct (N hs' j rs' h E' En) as (b' & Eb' & Nb'). exists b. split; [exact Nb|]. congruence.
Qed.

(** the histogram number c is updated from the samples number c *)
Section All.
  Context {H : Type} (upd1 : H -> list (list Z) -> Z -> outcome H).
  Fixpoint each_hist (hs : list H) (rows : list (list Z)) (c : Z) : outcome (list H) :=
    match hs with
    | [] => Ret []
    | h :: hs => let! h' := upd1 h rows c in let! hs' := each_hist hs rows (c + 1) in Ret (h' :: hs')
    end.
  Lemma each_hist_nth rows hs c out k h : each_hist hs rows c = Ret out -> nth_error hs k = Some h ->
    exists h', upd1 h rows (c + Z.of_nat k) = Ret h' /\ nth_error out k = Some h'.
  Proof.
    revert c out k. induction hs as [|a hs IH]; intros c out k E N; [destruct k; discriminate|]. cbn [each_hist] in E.
    apply bind_inv in E as (b & Eb & E). apply bind_inv in E as (bs & Ebs & E). injection E as <-. destruct k as [|k]; cbn [nth_error] in *.
    - injection N as ->. exists b. rewrite Z.add_0_r. auto.
    - destruct (IH (c + 1) bs k Ebs N) as (h' & E1 & E2). exists h'. replace (c + Z.of_nat (S k)) with (c + 1 + Z.of_nat k) by lia. auto.
  Qed.
  Lemma each_hist_ret rows hs c : (forall k h, nth_error hs k = Some h -> exists h', upd1 h rows (c + Z.of_nat k) = Ret h') ->
    exists out, each_hist hs rows c = Ret out.
  Proof.
    revert c. induction hs as [|a hs IH]; intros c N; cbn [each_hist]; [eauto|].
    destruct (N O a eq_refl) as (b & Eb). rewrite Z.add_0_r in Eb. rewrite Eb. cbn [bind].
    destruct (IH (c + 1)) as (bs & Ebs); [|rewrite Ebs; cbn [bind]; eauto].
    intros k h E. destruct (N (S k) h E) as (h' & Eh). exists h'. rewrite <- Eh. f_equal. lia.
  Qed.
  Lemma each_hist_length rows hs c out : each_hist hs rows c = Ret out -> length out = length hs.
  Proof.
    revert c out. induction hs as [|a hs IH]; intros c out E; cbn [each_hist] in E; [injection E as <-; reflexivity|].
    apply bind_inv in E as (b & Eb & E). apply bind_inv in E as (bs & Ebs & E). injection E as <-. cbn [length]. rewrite (IH _ _ Ebs). reflexivity.
  Qed.
  Lemma each_hist_sim ks rows rows' hs hs' :
    (forall j k h, nth_error ks j = Some k -> upd1 h rows' (Z.of_nat j) = upd1 h rows (Z.of_nat k)) ->
    picks ks hs hs' -> osim (fun o o' => length o = length hs /\ picks ks o o') (each_hist hs rows 0) (each_hist hs' rows' 0).
  Proof.
    intros U P out E.
    assert (L' : length hs' = length ks) by (pose proof (picks_len ks hs hs' P) as L; unfold len in L; lia).
    assert (X : forall j h, nth_error hs' j = Some h -> exists k, nth_error ks j = Some k /\ nth_error hs k = Some h).
    { intros j h Eh. destruct (nth_error ks j) as [k|] eqn:Ek.
      - exists k. split; [reflexivity|]. rewrite <- (picks_nth ks hs hs' j k P Ek). exact Eh.
      - apply nth_error_None in Ek. assert ((j < length hs')%nat) by (apply nth_error_Some; congruence). lia. }
    destruct (each_hist_ret rows' hs' 0) as (out' & E').
    { intros j h Eh. destruct (X j h Eh) as (k & Ek & Eh'). destruct (each_hist_nth rows hs 0 out k h E Eh') as (h' & E1 & _).
      exists h'. cbn [Z.add] in *. rewrite (U j k h Ek). exact E1. }
    exists out'. split; [exact E'|]. split; [apply (each_hist_length _ _ _ _ E)|].
    apply picks_intro; [rewrite (each_hist_length _ _ _ _ E'); exact L'|].
    intros j k Ek. destruct (nth_error hs' j) as [h|] eqn:Eh.
    2: { apply nth_error_None in Eh. assert ((j < length ks)%nat) by (apply nth_error_Some; congruence). lia. }
    destruct (X j h Eh) as (k2 & Ek2 & Eh'). replace k2 with k in * by congruence.
    destruct (each_hist_nth rows hs 0 out k h E Eh') as (h1 & E1 & N1). destruct (each_hist_nth rows' hs' 0 out' j h E' Eh) as (h2 & E2 & N2).
    cbn [Z.add] in *. rewrite (U j k h Ek) in E2. exists h1. split; [exact N1|]. congruence.
  Qed.
End All.
Lemma update_all_each p r nc hs rows c add : update_all p r nc hs rows c add = each_hist (fun h rs c => medhist_update p r nc h rs c add) hs rows c.
Proof. revert c. induction hs as [|h hs IH]; intros c; cbn [update_all each_hist]; [reflexivity|]. apply bind_ext. intros h' _. rewrite IH. reflexivity. Qed.
Lemma mean_update_all_each p bs r nc al hs rows c add :
  mean_update_all p bs r nc al hs rows c add = each_hist (fun h rs c => meanhist_update p bs r nc al h rs c add) hs rows c.
Proof. revert c. induction hs as [|h hs IH]; intros c; cbn [mean_update_all each_hist]; [reflexivity|]. apply bind_ext. intros h' _. rewrite IH. reflexivity. Qed.

(** a default, never read *)
Definition medhist_dummy : medhist := MedHist [] [] [].

Section Rows.
  Context (p : profile) (r nc : Z) (ks : list nat) (img img' : image Z) (Hs : selection ks img img').
  Notation C := (channels (info_of img)).

  Lemma row_sim x row : osim (Forall2 (picks ks)) (row_pixels p r nc img x row) (row_pixels p r nc img' x row).
  Proof using Hs.
    unfold row_pixels. rewrite (sl_w _ _ _ Hs). apply osim_same. intros a _. apply osim_same. intros e _. apply osim_same. intros e2 _.
    apply osim_mmap. intros i _. apply osim_same. intros w1 _. apply osim_same. intros ic _. apply get_pixel_unchecked_sim. exact Hs.
  Qed.
  (** the picture written so far and the histograms *)
  Definition msim {H} (st st' : image Z * list H) : Prop :=
    selection ks (fst st) (fst st') /\ channels (info_of (fst st)) = C /\ info_of (fst st') = info_of img' /\ len (snd st) = C /\ picks ks (snd st) (snd st').

  Lemma set_sim (o o' : image Z) x y px px' : selection ks o o' -> channels (info_of o) = C -> info_of o' = info_of img' -> 0 <= x -> 0 <= y -> picks ks px px' ->
    osim (fun b b' => selection ks b b' /\ channels (info_of b) = C /\ info_of b' = info_of img') (set_pixel p o x y px) (set_pixel p o' x y px').
  Proof using.
    intros S Ec Ei Hx Hy P b E. destruct (set_pixel_sim p ks o o' x y px px' S Hx Hy P b E) as (b' & E' & S').
    exists b'. conj; auto.
    - pose proof (safe_set_pixel p o x y px) as Q. rewrite E in Q. cbn in Q. congruence.
    - pose proof (safe_set_pixel p o' x y px') as Q. rewrite E' in Q. cbn in Q. congruence.
  Qed.
  Lemma clamp_nonneg a m v : iclamp a 0 m = Ret v -> 0 <= v.
  Proof using. unfold iclamp. destruct (Z.ltb_spec m 0); [discriminate|]. destruct (Z.ltb_spec a 0); [intros [= <-]; lia|]. destruct (Z.ltb_spec m a); intros [= <-]; lia. Qed.

  Lemma all_sim (hs hs' : list medhist) rows rows' add : Forall2 (picks ks) rows rows' -> len hs = C -> picks ks hs hs' ->
    osim (fun o o' => len o = C /\ picks ks o o') (update_all p r nc hs rows 0 add) (update_all p r nc hs' rows' 0 add).
  Proof using.
    intros HR L P. rewrite !update_all_each. eapply osim_weaken; [|apply each_hist_sim; [|exact P]].
    - cbv beta. intros o o' [Lo Po]. split; [unfold len in *; congruence|exact Po].
    - intros j k h Ek. cbv beta. apply (medhist_sel p r nc ks rows rows' HR j k Ek).
  Qed.
  Lemma all_mean_sim bs al (hs hs' : list meanhist) rows rows' add : Forall2 (picks ks) rows rows' -> len hs = C -> picks ks hs hs' ->
    osim (fun o o' => len o = C /\ picks ks o o') (mean_update_all p bs r nc al hs rows 0 add) (mean_update_all p bs r nc al hs' rows' 0 add).
  Proof using.
    intros HR L P. rewrite !mean_update_all_each. eapply osim_weaken; [|apply each_hist_sim; [|exact P]].
    - cbv beta. intros o o' [Lo Po]. split; [unfold len in *; congruence|exact Po].
    - intros j k h Ek. cbv beta. apply (meanhist_sel p r nc ks rows rows' HR j k Ek).
  Qed.

  (** trimmed mean: a row of results *)
  Lemma mean_row_sim (step : Z -> meanhist -> outcome (meanhist * Z)) st st' x y : 0 <= y -> msim st st' ->
    osim msim (mean_row p nc step (fst st) (snd st) x y) (mean_row p nc step (fst st') (snd st') x y).
  Proof using.
    intros Hy H. unfold mean_row. apply osim_mfold; [|destruct st, st'; exact H].
    intros i [o hs] [o' hs'] _ (S & Ec & Ei & L & P). cbn [fst snd] in *.
    apply (osim_bind (picks ks)); [apply picks_mmap; exact P|]. intros rs rs' Ers _ Pr.
    apply osim_same. intros xi _. rewrite (sl_w _ _ _ S). apply osim_same. intros w1 _. apply osim_same. intros xc Exc. apply clamp_nonneg in Exc.
    eapply osim_bind; [apply set_sim; eauto; apply picks_map; exact Pr|]. cbv beta. intros b b' _ _ (S' & Ec' & Ei').
    apply osim_ret. unfold msim. cbn [fst snd]. conj; auto; [|apply picks_map; exact Pr].
    rewrite len_map. apply mmap_length in Ers. unfold len in *. lia.
  Qed.
  Lemma init_mean_sim bs al o o' (hs hs' : list meanhist) x : msim (o, hs) (o', hs') ->
    osim msim (init_cols_mean p bs r nc al img o hs x) (init_cols_mean p bs r nc al img' o' hs' x).
  Proof using Hs.
    intros (S & Ec & Ei & L & P). cbn [fst snd] in *. unfold init_cols_mean. rewrite (sl_h _ _ _ Hs).
    apply osim_same. intros r2 _. apply osim_same. intros sz _. apply osim_same. intros ja _. apply osim_same. intros je _.
    apply (osim_bind (fun s s' : list meanhist * list (list Z) => len (fst s) = C /\ picks ks (fst s) (fst s') /\ Forall2 (picks ks) (snd s) (snd s'))).
    - apply osim_mfold; [|cbn [fst snd]; conj; auto; constructor]. intros j [h rw] [h' rw'] _ (L1 & P1 & R1). cbn [fst snd] in *.
      apply osim_same. intros h1 _. apply osim_same. intros jc _. eapply osim_bind; [apply row_sim|]. intros row row' _ _ Rr. cbv zeta.
      assert (R2 : Forall2 (picks ks) (rw ++ row) (rw' ++ row')) by (apply Forall2_app; assumption).
      eapply osim_bind; [apply all_mean_sim; eauto|]. cbv beta. intros h2 h2' _ _ [L2 P2]. apply osim_ret. cbn [fst snd]. auto.
    - intros [h rw] [h' rw'] _ _ (L1 & P1 & _). cbn [fst snd] in *. apply osim_same. intros sq _. apply osim_same. intros ut _.
      apply (mean_row_sim (mean_first p r nc al ut) (o, map (mean_init nc) h) (o', map (mean_init nc) h') x 0 ltac:(lia)).
      unfold msim. cbn [fst snd]. conj; auto; [rewrite len_map; exact L1|apply picks_map; exact P1].
  Qed.
  Lemma next_mean_sim bs al st st' x j : 0 <= j -> msim st st' ->
    osim msim (mean_next_row p bs r nc al img x st j) (mean_next_row p bs r nc al img' x st' j).
  Proof using Hs.
    destruct st as [o hs], st' as [o' hs']. intros Hj (S & Ec & Ei & L & P). cbn [fst snd] in *. unfold mean_next_row. cbv zeta. rewrite (sl_h _ _ _ Hs).
    do 7 (apply osim_same; intros ? _).
    eapply osim_bind; [apply row_sim|]. intros ri ri' _ _ Ri. eapply osim_bind; [apply row_sim|]. intros ro ro' _ _ Ro.
    eapply osim_bind; [apply all_mean_sim; eauto|]. cbv beta. intros h2 h2' _ _ [L2 P2].
    eapply osim_bind; [apply all_mean_sim; eauto|]. cbv beta. intros h3 h3' _ _ [L3 P3].
    apply (mean_row_sim (mean_next r al) (o, h3) (o', h3') x j Hj). unfold msim. cbn [fst snd]. auto.
  Qed.
  Lemma cols_mean_sim bs al o o' x : selection ks o o' -> channels (info_of o) = C -> info_of o' = info_of img' ->
    osim (fun b b' => selection ks b b' /\ channels (info_of b) = C /\ info_of b' = info_of img')
      (process_cols_mean p bs r nc al img o x) (process_cols_mean p bs r nc al img' o' x).
  Proof using Hs.
    intros S Ec Ei. unfold process_cols_mean. rewrite (sl_h _ _ _ Hs). apply osim_same. intros h0 _. cbv zeta.
    pose proof (wf_c img (sl_wf _ _ _ Hs)) as Hc.
    eapply osim_bind; [apply init_mean_sim|].
    - unfold msim. cbn [fst snd]. conj; auto; [rewrite len_repeat; lia|]. rewrite (sl_c _ _ _ Hs). unfold len. rewrite Nat2Z.id. apply picks_repeat.
      eapply Forall_impl; [|apply (sl_ks _ _ _ Hs)]. cbv beta. intros; lia.
    - intros st st' _ _ H. apply (osim_bind msim).
      + apply osim_mfold; [|exact H]. intros j s s' Hj Hss. apply in_zrange in Hj. apply next_mean_sim; [lia|exact Hss].
      + intros [a b] [a' b'] _ _ (S2 & Ec2 & Ei2 & _). apply osim_ret. auto.
  Qed.

  (** median: a row of results; every histogram yields at most one sample, so all yield one when the row is written *)
  Definition one_each (step : medhist -> outcome (medhist * list Z)) : Prop := forall h, returns (fun hv => (length (snd hv) <= 1)%nat) (step h).
  Lemma singles {A B} (rs : list (A * list B)) : Forall (fun hv => (length (snd hv) <= 1)%nat) rs -> (length rs <= length (concat (map snd rs)))%nat ->
    exists vs, map snd rs = map (fun v => [v]) vs.
  Proof using.
    intros F. induction F as [|[h v] rs Hv F IH]; intros L; [exists []; reflexivity|]. cbn [map snd concat] in *. rewrite app_length in L. cbn [length] in L.
    assert (L2 : (length (concat (map snd rs)) <= length rs)%nat).
    { clear -F. induction F as [|[h v] rs Hv F IH]; cbn [map snd concat length]; [lia|]. rewrite app_length. cbn [snd] in Hv. lia. }
    destruct IH as (vs & ->); [cbn [snd] in Hv; lia|]. destruct v as [|v [|]]; cbn [length snd] in *; try lia. exists (v :: vs). reflexivity.
  Qed.
  Lemma concat_single {A} (vs : list A) : concat (map (fun v => [v]) vs) = vs.
  Proof using. induction vs as [|v vs IH]; cbn [map concat app]; congruence. Qed.
  Lemma picks_single {A} (l l' : list (list A)) vs : picks ks l l' -> l = map (fun v => [v]) vs -> exists vs', l' = map (fun v => [v]) vs' /\ picks ks vs vs'.
  Proof using.
    intros P E. assert (X : Forall (fun w => exists v, w = [v]) l').
    { apply Forall_forall. intros w Hw. apply (in_map Some) in Hw. rewrite P in Hw. apply in_map_iff in Hw as (k & Ek & _).
      rewrite E, nth_error_map in Ek. destruct (nth_error vs k) as [v|]; [|discriminate]. cbn in Ek. injection Ek as <-. eauto. }
    assert (Y : exists vs', l' = map (fun v => [v]) vs').
    { clear -X. induction X as [|w l (v & ->) X (vs & ->)]; [exists []; reflexivity|exists (v :: vs); reflexivity]. }
    destruct Y as (vs' & Ev). exists vs'. split; [exact Ev|]. pose proof (picks_map ks (@concat A) _ _ (picks_map ks (fun w => [w]) _ _ P)) as Q.
    apply picks_intro.
    - apply picks_len in P. rewrite Ev in P. unfold len in P. rewrite map_length in P. lia.
    - intros j k Ek. pose proof (picks_nth ks l l' j k P Ek) as N. rewrite E, Ev, !nth_error_map in N.
      apply (f_equal (fun m => nth_error m j)) in P. rewrite !nth_error_map, Ek in P. cbn in P. rewrite E, Ev, !nth_error_map in P.
      destruct (nth_error vs k) as [a|]; [|destruct (nth_error vs' j); discriminate]. exists a. split; [reflexivity|].
      destruct (nth_error vs' j); cbn in N; congruence.
  Qed.
  Lemma set_pivots_eq (hs : list medhist) vs i : len vs = len hs ->
    set_pivots hs vs i = mmap (fun c => set_pivot (nth (Z.to_nat c) hs medhist_dummy) (nth (Z.to_nat c) vs 0) i) (zrange 0 (len hs)).
  Proof using.
    intros L. rewrite <- (fill_loop (fun c h => set_pivot h (nth (Z.to_nat c) vs 0) i) hs medhist_dummy). unfold set_pivots. rewrite L.
    apply (mfold_ext_inv (fun o => len o = len hs)); [reflexivity| |].
    - intros o c Lo Hc. apply in_zrange in Hc. rewrite (vget_ok o c medhist_dummy) by lia. cbn [bind]. rewrite (vget_ok vs c 0) by lia. cbn [bind].
      apply bind_ext. intros h _. rewrite vset_ok by lia. reflexivity.
    - intros o c o' Lo Hc E. apply bind_inv in E as (h & _ & E). injection E as <-. rewrite len_upd. exact Lo.
  Qed.
  Lemma combine_nth_eq {A B} (l : list A) (m : list B) n a b : (n < length l)%nat -> length m = length l -> nth_error (combine l m) n = Some (nth n l a, nth n m b).
  Proof using.
    revert l m. induction n as [|n IH]; intros [|x l] [|y m] H L; cbn [length combine nth_error nth] in *; try lia; [reflexivity|]. apply IH; lia.
  Qed.
  Lemma set_pivots_mmap (hs : list medhist) vs i : len vs = len hs -> set_pivots hs vs i = mmap (fun hv => set_pivot (fst hv) (snd hv) i) (combine hs vs).
  Proof using.
    intros L. rewrite set_pivots_eq by exact L. rewrite <- (map_zrange_nth (combine hs vs) (medhist_dummy, 0)) at 1.
    assert (Lc : len (combine hs vs) = len hs) by (unfold len in *; rewrite combine_length; lia).
    rewrite Lc. rewrite mmap_map. apply mmap_ext. intros c Hc. apply in_zrange in Hc. unfold len in *.
    rewrite (nth_error_nth _ _ _ (combine_nth_eq hs vs (Z.to_nat c) medhist_dummy 0 ltac:(lia) ltac:(lia))). reflexivity.
  Qed.
  Lemma picks_combine {A B} (l l' : list A) (m m' : list B) : picks ks l l' -> picks ks m m' -> picks ks (combine l m) (combine l' m').
  Proof using.
    intros P Q. pose proof (picks_len _ _ _ P) as L1. pose proof (picks_len _ _ _ Q) as L2. apply picks_intro.
    - rewrite combine_length. unfold len in *. lia.
    - intros j k Ek.
      assert (G : forall C (u u' : list C), picks ks u u' -> exists a, nth_error u k = Some a /\ nth_error u' j = Some a).
      { intros D u u' U. pose proof (picks_nth ks u u' j k U Ek) as N. apply (f_equal (fun l => nth_error l j)) in U. rewrite !nth_error_map, Ek in U. cbn in U.
        destruct (nth_error u k) as [a|]; [exists a; auto|]. rewrite N in U. discriminate. }
      destruct (G A l l' P) as (a & Ea & Ea'). destruct (G B m m' Q) as (b & Eb & Eb'). exists (a, b).
      assert (N : forall (u : list A) (v : list B) n x y, nth_error u n = Some x -> nth_error v n = Some y -> nth_error (combine u v) n = Some (x, y)).
      { clear. induction u as [|x0 u IH]; intros [|y0 v] [|n] x y E1 E2; cbn [nth_error combine] in *; try discriminate; [congruence|]. apply IH; assumption. }
      split; apply N; assumption.
  Qed.

  Lemma median_row_sim (step : Z -> medhist -> outcome (medhist * list Z)) st st' x y : (forall i, one_each (step i)) -> 0 <= y -> msim st st' ->
    osim msim (process_row p nc step (fst st) (snd st) x y) (process_row p nc step (fst st') (snd st') x y).
  Proof using.
    intros H1 Hy H. unfold process_row. apply osim_mfold; [|destruct st, st'; exact H].
    intros i [o hs] [o' hs'] _ (S & Ec & Ei & L & P). cbn [fst snd] in *.
    apply (osim_bind (picks ks)); [apply picks_mmap; exact P|]. intros rs rs' Ers _ Pr. cbv zeta.
    assert (Lr : len rs = C) by (apply mmap_length in Ers; unfold len in *; lia).
    apply osim_same. intros xi _. rewrite (sl_w _ _ _ S). apply osim_same. intros w1 _. apply osim_same. intros xc Exc. apply clamp_nonneg in Exc.
    intros st2 E. apply bind_inv in E as (b & Eb & E).
    destruct (set_pixel_inv p o b xc y _ (sl_wf _ _ _ S) Exc Hy Eb) as (_ & Lp & _).
    assert (F : Forall (fun hv => (length (snd hv) <= 1)%nat) rs).
    { clear -Ers H1. revert rs Ers. induction hs as [|h hs IH]; intros rs E; cbn [mmap] in E; [injection E as <-; constructor|].
      apply bind_inv in E as (v & Ev & E). apply bind_inv in E as (vs & Evs & E). injection E as <-. constructor; [exact (H1 i h v Ev)|auto]. }
    destruct (singles rs F) as (vs & Evs); [unfold len in *; lia|].
    destruct (picks_single _ _ vs (picks_map ks snd _ _ Pr) Evs) as (vs' & Evs' & Pv). rewrite Evs, concat_single in *. rewrite Evs', concat_single.
    destruct (set_sim o o' xc y vs vs' S Ec Ei Exc Hy Pv b Eb) as (b' & -> & S2 & Ec2 & Ei2). cbn [bind].
    assert (Lv : len vs = len rs) by (apply (f_equal (@length _)) in Evs; rewrite !map_length in Evs; unfold len; lia).
    assert (Lv' : len vs' = len rs') by (apply (f_equal (@length _)) in Evs'; rewrite !map_length in Evs'; unfold len; lia).
    rewrite set_pivots_mmap in E by (rewrite len_map; exact Lv). rewrite set_pivots_mmap by (rewrite len_map; exact Lv').
    apply bind_inv in E as (h2 & Eh & E). injection E as <-.
    destruct (picks_mmap ks (fun hv => set_pivot (fst hv) (snd hv) i) _ _ (picks_combine _ _ _ _ (picks_map ks fst _ _ Pr) Pv) h2 Eh) as (h2' & -> & P2). cbn [bind].
    eexists. split; [reflexivity|]. unfold msim. cbn [fst snd]. conj; auto.
    apply mmap_length in Eh. rewrite combine_length, map_length in Eh. unfold len in *. lia.
  Qed.
  Lemma found_one h i res : returns (fun hv : medhist * list Z => (length (snd hv) <= 1)%nat) (found h i res).
  Proof using. unfold found. destruct res as [[k s]|]; [apply returns_bind; intros h' _|]; apply returns_ret; cbn; lia. Qed.
  Lemma first_one center i : one_each (first_step p nc center i).
  Proof using. intros h. unfold first_step. apply returns_bind. intros res _. apply found_one. Qed.
  Lemma next_one center i : one_each (next_step p nc center i).
  Proof using.
    intros h. unfold next_step. apply returns_bind. intros pv _. apply returns_bind. intros s _. destruct (s ?= center); [apply returns_ret; cbn; lia|..];
    apply returns_bind; intros res _; apply found_one.
  Qed.
  Lemma init_median_sim o o' (hs hs' : list medhist) center x : msim (o, hs) (o', hs') ->
    osim msim (init_cols p r nc img o hs center x) (init_cols p r nc img' o' hs' center x).
  Proof using Hs.
    intros (S & Ec & Ei & L & P). cbn [fst snd] in *. unfold init_cols. rewrite (sl_h _ _ _ Hs).
    apply osim_same. intros ja _. apply osim_same. intros je _.
    apply (osim_bind (fun s s' : list medhist => len s = C /\ picks ks s s')).
    - apply osim_mfold; [|auto]. intros j h h' _ (L1 & P1).
      apply osim_same. intros h1 _. apply osim_same. intros jc _. eapply osim_bind; [apply row_sim|]. intros row row' _ _ Rr. apply all_sim; auto.
    - intros h h' _ _ (L1 & P1).
      apply (median_row_sim (first_step p nc center) (o, map (init_pivots nc) h) (o', map (init_pivots nc) h') x 0 (first_one center) ltac:(lia)).
      unfold msim. cbn [fst snd]. conj; auto; [rewrite len_map; exact L1|apply picks_map; exact P1].
  Qed.
  Lemma next_median_sim center st st' x j : 0 <= j -> msim st st' -> osim msim (next_row p r nc img center x st j) (next_row p r nc img' center x st' j).
  Proof using Hs.
    destruct st as [o hs], st' as [o' hs']. intros Hj (S & Ec & Ei & L & P). cbn [fst snd] in *. unfold next_row. cbv zeta. rewrite (sl_h _ _ _ Hs).
    do 7 (apply osim_same; intros ? _).
    eapply osim_bind; [apply row_sim|]. intros ri ri' _ _ Ri. eapply osim_bind; [apply row_sim|]. intros ro ro' _ _ Ro.
    eapply osim_bind; [apply all_sim; eauto|]. cbv beta. intros h2 h2' _ _ [L2 P2].
    eapply osim_bind; [apply all_sim; eauto|]. cbv beta. intros h3 h3' _ _ [L3 P3].
    apply (median_row_sim (next_step p nc center) (o, h3) (o', h3') x j (next_one center) Hj). unfold msim. cbn [fst snd]. auto.
  Qed.
  Lemma cols_median_sim o o' x : selection ks o o' -> channels (info_of o) = C -> info_of o' = info_of img' ->
    osim (fun b b' => selection ks b b' /\ channels (info_of b) = C /\ info_of b' = info_of img')
      (process_cols p r nc img o x) (process_cols p r nc img' o' x).
  Proof using Hs.
    intros S Ec Ei. unfold process_cols, block_rows. rewrite (sl_h _ _ _ Hs).
    apply (osim_bind msim).
    - do 5 (apply osim_same; intros ? _). cbv zeta. pose proof (wf_c img (sl_wf _ _ _ Hs)) as Hc.
      eapply osim_bind; [apply init_median_sim|].
      + unfold msim. cbn [fst snd]. conj; auto; [rewrite len_repeat; lia|]. rewrite (sl_c _ _ _ Hs). unfold len. rewrite Nat2Z.id. apply picks_repeat.
        eapply Forall_impl; [|apply (sl_ks _ _ _ Hs)]. cbv beta. intros; lia.
      + intros st st' _ _ H. apply osim_mfold; [|exact H]. intros j s s' Hj Hss. apply in_zrange in Hj. apply next_median_sim; [lia|exact Hss].
    - intros [a b] [a' b'] _ _ (S2 & Ec2 & Ei2 & _). apply osim_ret. auto.
  Qed.
End Rows.

Lemma blocks_sim p ks (img img' : image Z) nc (f f' : image Z -> Z -> outcome (image Z)) : selection ks img img' ->
  (forall o o' x, selection ks o o' -> channels (info_of o) = channels (info_of img) -> info_of o' = info_of img' ->
    osim (fun b b' => selection ks b b' /\ channels (info_of b) = channels (info_of img) /\ info_of b' = info_of img') (f o x) (f' o' x)) ->
  forall out, (let! output := blank p num_u8 (info_of img) in let! xs := zrange_step 0 (width (info_of output)) nc in mfold f xs output) = Ret out ->
  exists out', (let! output := blank p num_u8 (info_of img') in let! xs := zrange_step 0 (width (info_of output)) nc in mfold f' xs output) = Ret out'
    /\ selection ks out out' /\ alpha (info_of out') = alpha (info_of img').
Proof.
  intros H L out E. apply bind_inv in E as (b & Eb & E).
  destruct (blank_sim p ks num_u8 (info_of img) (info_of img') (wf_info_ok _ (sl_wf _ _ _ H)) (sl_w _ _ _ H) (sl_h _ _ _ H) (sl_c _ _ _ H) (sl_le _ _ _ H) (sl_ks _ _ _ H) b Eb)
    as (b' & -> & Sb & Ib & Ib'). cbn [bind]. rewrite (sl_w _ _ _ Sb). apply bind_inv in E as (xs & Exs & E). rewrite Exs. cbn [bind].
  assert (S : osim (fun c c' => selection ks c c' /\ channels (info_of c) = channels (info_of img) /\ info_of c' = info_of img') (mfold f xs b) (mfold f' xs b')).
  { apply osim_mfold; [|rewrite Ib; auto]. intros x s s' _ (S & Ec & Ei). apply L; assumption. }
  destruct (S out E) as (out' & Eo & So & _ & Ei). exists out'. conj; auto. rewrite Ei. reflexivity.
Qed.

Theorem C92_median_filter p lm radius : channelwise (fun img => median_filter p lm img radius).
Proof.
  apply keeps_channelwise. intros ks img img' out H E. cbv beta in *. unfold median_filter in *. cbv zeta in *.
  revert E. apply blocks_sim; [exact H|]. intros o o' x S Ec Ei. apply cols_median_sim; assumption.
Qed.
Theorem C92_alpha_trimmed_mean_filter p bs lm radius al : channelwise (fun img => alpha_trimmed_mean_filter p bs lm img radius al).
Proof.
  apply keeps_channelwise. intros ks img img' out H E. cbv beta in *. unfold alpha_trimmed_mean_filter in *.
  apply bind_inv in E as (r2 & E1 & E). apply bind_inv in E as (sz & E2 & E). apply bind_inv in E as ([] & E3 & E). apply bind_inv in E as (sq & E4 & E).
  rewrite E1. cbn [bind]. rewrite E2. cbn [bind]. rewrite E3. cbn [bind]. rewrite E4. cbn [bind].
  destruct (sq <=? al); [discriminate|]. cbv zeta in *.
  revert E. apply blocks_sim; [exact H|]. intros o o' x S Ec Ei. apply cols_mean_sim; assumption.
Qed.

(** ** examples *)
(** a picture of 2 x 2 pixels with 3 channels, and its blue and red channels *)
Definition c92_img : image Z := Image (Info 2 2 3 false) [1; 2; 3; 4; 5; 6; 7; 8; 9; 10; 11; 12].
Definition c92_img' : image Z := Image (Info 2 2 2 true) [3; 1; 6; 4; 9; 7; 12; 10].
Lemma c92_selection : selection [2%nat; 0%nat] c92_img c92_img'.
Proof.
  constructor; try reflexivity; try (apply wfb_wf; reflexivity); try (cbn; lia).
  - repeat constructor.
  - intros x y [Hx Hy]. cbn [c92_img info_of width height] in *.
    assert (x = 0 \/ x = 1) as [-> | ->] by lia; assert (y = 0 \/ y = 1) as [-> | ->] by lia; reflexivity.
Qed.
Example C92_crop_example : crop_seq Release num_u8 c92_img 0 0 1 1 = Ret (Image (Info 1 1 3 false) [1; 2; 3]) /\
  crop_seq Release num_u8 c92_img' 0 0 1 1 = Ret (Image (Info 1 1 2 true) [3; 1]).
Proof. split; reflexivity. Qed.
(** a stand-in for the `powf` of the platform that is exact where the filter needs it *)
Definition c92_lm : libm := Libm (fun x _ => x) (fun x => x) (fun x => x).
Example C92_median_example : exists out, median_filter Release c92_lm c92_img 1 = Ret out /\ wf out /\
  exists out', median_filter Release c92_lm c92_img' 1 = Ret out' /\ selection [2%nat; 0%nat] out out' /\ alpha (info_of out') = true.
Proof.
  destruct (median_filter Release c92_lm c92_img 1) as [out| | |] eqn:E.
  2-4: exfalso; vm_compute in E; discriminate.
  assert (W : wf out) by (apply wfb_wf; vm_compute in E; injection E as <-; reflexivity).
  exists out. split; [reflexivity|]. split; [exact W|].
  destruct (C92_median_filter Release c92_lm 1 [2%nat; 0%nat] c92_img c92_img' out c92_selection E W) as (out' & E' & S & A). exists out'. auto.
Qed.
(** The tone operations distinguish the last channel when the image has alpha, so they do not treat the channels alike;
    nor does the conversion to gray.  With the alpha flag left out of account the theorem would be wrong for them: *)
Theorem C92_invert_refuted : ~ channelwise (fun img : image Z => map_channels_if_alpha Release (fun c => Ret (255 - c)) (fun a => Ret a) img).
Proof.
  intros H. destruct (H [2%nat; 0%nat] c92_img c92_img' (Image (Info 2 2 3 false) [254; 253; 252; 251; 250; 249; 248; 247; 246; 245; 244; 243]) c92_selection eq_refl) as (out' & E & S & _); [apply wfb_wf; reflexivity|].
  vm_compute in E. injection E as <-. pose proof (sl_px _ _ _ S 0 0 ltac:(split; cbn; lia)) as P. vm_compute in P. discriminate P.
Qed.
