(** * C82: laws of threshold and residual *)
From Coq Require Import Lra Reals.
From Flocq Require Import Core BinarySingleNaN.
From Verif.Model Require Import Filter.
From Verif.Spec Require Import ImageS FloatS ColorS.
From Verif.Proofs Require Import BaseL ImageL ImageOps ToneL FloatL FloatL2.
From Verif.Props Require Import ImageP ToneLawP FilterP2 EdgeP.
Open Scope Z_scope.

Lemma threshold_map p (img : image f32) t max m : wf img -> grayscale img ->
  exists out, threshold p img t max m = Ret out /\ recolored (thresh_fn t max m) (fun a => a) img out.
Proof.
  intros Hwf Hg. unfold threshold. rewrite check_grayscale_ok by exact Hg. cbn [bind].
  assert (HC : 0 < channels (info_of img)) by (unfold grayscale in Hg; destruct (alpha (info_of img)); lia).
  apply (map_if_alpha_recolored p img (fun c => Ret (thresh_fn t max m c)) (fun a => Ret a) (thresh_fn t max m) (fun a => a) Hwf (or_intror HC)); auto.
Qed.
Lemma gray_same {T} (a b : image T) : info_of b = info_of a -> grayscale a -> grayscale b.
Proof. intros E. unfold grayscale. rewrite E. auto. Qed.

(** two thresholds in a row *)
Lemma twice p (img : image f32) t max m t2 max2 m2 t3 max3 m3 : wf img -> grayscale img ->
  (forall s, thresh_fn t2 max2 m2 (thresh_fn t max m s) = thresh_fn t3 max3 m3 s) ->
  (let! o := threshold p img t max m in threshold p o t2 max2 m2) = threshold p img t3 max3 m3.
Proof.
  intros Hwf Hg H. destruct (threshold_map p img t max m Hwf Hg) as [o [E R]].
  destruct (threshold_map p o t2 max2 m2 ltac:(apply R) (gray_same img o ltac:(apply R) Hg)) as [o2 [E2 R2]].
  destruct (threshold_map p img t3 max3 m3 Hwf Hg) as [o3 [E3 R3]].
  rewrite E, bind_Ret, E2, E3. f_equal. apply (recolored_unique (thresh_fn t3 max3 m3) (fun a => a) img); auto.
  eapply (recolored_ext (fun s => thresh_fn t2 max2 m2 (thresh_fn t max m s))); [|exact (recolored_comp _ _ _ _ _ _ _ R R2)]. intros; apply H.
Qed.

Lemma ltb_self (t : f32) : f32_ltb t t = false.
Proof. destruct (is_nan t) eqn:N; [destruct t; try discriminate; reflexivity|]. rewrite ltb_ext by assumption. apply Rlt_bool_false. lra. Qed.

Ltac thr := unfold thresh_fn; change f32_gtb with (fun a b : f32 => f32_ltb b a); cbv beta.

(** Trunc, ToZero and ToZeroInv: the second application changes nothing, for all parameters and samples (NaN included) *)
Theorem C82_idempotent p (img : image f32) t max m : wf img -> grayscale img -> m = Trunc \/ m = ToZero \/ m = ToZeroInv ->
  (let! o := threshold p img t max m in threshold p o t max m) = threshold p img t max m.
Proof.
  intros Hwf Hg Hm. apply twice; auto. intros s. destruct Hm as [->|[->| ->]]; thr.
  - destruct (f32_ltb t s) eqn:E; [rewrite ltb_self; reflexivity|rewrite E; reflexivity].
  - destruct (f32_ltb t s) eqn:E; [rewrite E; reflexivity|]. destruct (f32_ltb t f32_0); reflexivity.
  - destruct (f32_ltb t s) eqn:E; [destruct (f32_ltb t f32_0); reflexivity|rewrite E; reflexivity].
Qed.

(** for a threshold t with 0 <= t < max, [Binary] is idempotent, [BinaryInv] twice is [Binary], and [BinaryInv] after [Binary]
    is [BinaryInv]: 0 and max are below and above the threshold *)
Definition separates (t max : f32) : Prop := f32_ltb t f32_0 = false /\ f32_ltb t max = true.
Theorem C82_binary p (img : image f32) t max : wf img -> grayscale img -> separates t max ->
  (let! o := threshold p img t max Binary in threshold p o t max Binary) = threshold p img t max Binary
  /\ (let! o := threshold p img t max BinaryInv in threshold p o t max BinaryInv) = threshold p img t max Binary
  /\ (let! o := threshold p img t max Binary in threshold p o t max BinaryInv) = threshold p img t max BinaryInv
  /\ (let! o := threshold p img t max BinaryInv in threshold p o t max Binary) = threshold p img t max BinaryInv.
Proof.
  intros Hwf Hg [H0 H1]. repeat match goal with |- _ /\ _ => split end; apply twice; auto; intros s; thr; destruct (f32_ltb t s); rewrite ?H0, ?H1; reflexivity.
Qed.
(** not without the condition: max = 100 is below the threshold 200, so the second application erases the image *)
Definition one_pixel (v : Z) : image f32 := Image (Info 1 1 1 false) [f32_of_Z v].
Theorem C82_binary_refuted p :
  threshold p (one_pixel 250) (f32_of_Z 200) (f32_of_Z 100) Binary = Ret (one_pixel 100)
  /\ threshold p (one_pixel 100) (f32_of_Z 200) (f32_of_Z 100) Binary = Ret (one_pixel 0).
Proof. destruct p; split; reflexivity. Qed.

(** [Trunc] and [ToZero] at two levels, in either order, are the same as at the stronger level alone *)
Lemma ltb_nan (a b : f32) : f32_ltb a b = true -> is_nan a = false /\ is_nan b = false.
Proof. intros H. destruct a, b; try discriminate; auto. Qed.
Lemma leb_nan (a b : f32) : f32_leb a b = true -> is_nan a = false /\ is_nan b = false.
Proof. intros H. destruct a, b; try discriminate; auto. Qed.
Lemma lt_lt (a b c : f32) : f32_ltb a b = true -> f32_ltb b c = true -> f32_ltb a c = true.
Proof.
  intros H1 H2. destruct (ltb_nan _ _ H1) as [Na Nb]. destruct (ltb_nan _ _ H2) as [_ Nc]. rewrite ltb_ext in * by assumption.
  destruct (Rlt_bool_spec (ext a) (ext b)); [|discriminate]. destruct (Rlt_bool_spec (ext b) (ext c)); [|discriminate]. apply Rlt_bool_true. lra.
Qed.
Lemma lt_le (a b c : f32) : f32_ltb a b = true -> f32_leb b c = true -> f32_ltb a c = true.
Proof.
  intros H1 H2. destruct (ltb_nan _ _ H1) as [Na Nb]. destruct (leb_nan _ _ H2) as [_ Nc]. rewrite ltb_ext, ?leb_ext in * by assumption.
  destruct (Rlt_bool_spec (ext a) (ext b)); [|discriminate]. destruct (Rle_bool_spec (ext b) (ext c)); [|discriminate]. apply Rlt_bool_true. lra.
Qed.
Lemma lt_asym (a b : f32) : f32_ltb a b = true -> f32_ltb b a = false.
Proof.
  intros H1. destruct (ltb_nan _ _ H1) as [Na Nb]. rewrite ltb_ext in * by assumption.
  destruct (Rlt_bool_spec (ext a) (ext b)); [|discriminate]. apply Rlt_bool_false. lra.
Qed.
Lemma nlt_le (a b : f32) : is_nan a = false -> is_nan b = false -> f32_ltb a b = false -> f32_leb b a = true.
Proof.
  intros Na Nb H. rewrite ltb_ext in H by assumption. rewrite leb_ext by assumption. destruct (Rlt_bool_spec (ext a) (ext b)); [discriminate|].
  apply Rle_bool_true. lra.
Qed.
Lemma lt_is_le (a b : f32) : f32_ltb a b = true -> f32_leb a b = true.
Proof.
  intros H. destruct (ltb_nan _ _ H) as [Na Nb]. rewrite ltb_ext in H by assumption. rewrite leb_ext by assumption.
  destruct (Rlt_bool_spec (ext a) (ext b)); [|discriminate]. apply Rle_bool_true. lra.
Qed.
Theorem C82_levels p (img : image f32) t t' max : wf img -> grayscale img -> f32_ltb t t' = true ->
  (let! o := threshold p img t' max Trunc in threshold p o t max Trunc) = threshold p img t max Trunc
  /\ (let! o := threshold p img t max Trunc in threshold p o t' max Trunc) = threshold p img t max Trunc
  /\ (let! o := threshold p img t max ToZero in threshold p o t' max ToZero) = threshold p img t' max ToZero
  /\ (let! o := threshold p img t' max ToZero in threshold p o t max ToZero) = threshold p img t' max ToZero.
Proof.
  intros Hwf Hg Ht.
  assert (M : forall s, f32_ltb t' s = true -> f32_ltb t s = true) by (intros s; apply lt_lt; exact Ht).
  repeat match goal with |- _ /\ _ => split end; apply twice; auto; intros s; thr.
  - destruct (f32_ltb t' s) eqn:E; [|reflexivity]. rewrite Ht, (M s E). reflexivity.
  - destruct (f32_ltb t s) eqn:E; [rewrite (lt_asym t t' Ht); reflexivity|]. destruct (f32_ltb t' s) eqn:E2; [rewrite (M s E2) in E; discriminate|reflexivity].
  - destruct (f32_ltb t s) eqn:E; [reflexivity|]. destruct (f32_ltb t' s) eqn:E2; [rewrite (M s E2) in E; discriminate|]. destruct (f32_ltb t' f32_0); reflexivity.
  - destruct (f32_ltb t' s) eqn:E; [rewrite (M s E); reflexivity|]. destruct (f32_ltb t f32_0); reflexivity.
Qed.

(** ** order *)
(** every colour sample of a is at most the one of b at the same place *)
Definition below (a b : image f32) : Prop :=
  forall x y c u v, inside a x y -> 0 <= c -> is_alpha (info_of a) c = false -> sample a x y c = Some u -> sample b x y c = Some v -> f32_leb u v = true.
Lemma below_map (f g : f32 -> f32) (a b oa ob : image f32) : wf a -> wf b -> info_of a = info_of b ->
  recolored f (fun a => a) a oa -> recolored g (fun a => a) b ob ->
  (forall x y c u v, inside a x y -> 0 <= c -> is_alpha (info_of a) c = false -> sample a x y c = Some u -> sample b x y c = Some v -> f32_leb (f u) (g v) = true) -> below oa ob.
Proof.
  intros Wa Wb Hi (Ia & Woa & Ra) (Ib & Wob & Rb) H x y c u v Hin Hc Hal Eu Ev.
  assert (Hina : inside a x y) by (unfold inside in *; rewrite <- Ia; exact Hin). assert (Hinb : inside b x y) by (unfold inside in *; rewrite <- Hi; exact Hina).
  pose proof (pixel_at_len a Wa x y Hina) as La. pose proof (pixel_at_len b Wb x y Hinb) as Lb. pose proof (pixel_at_len oa Woa x y Hin) as Lo.
  assert (Hlt : (Z.to_nat c < length (pixel_at oa x y))%nat) by (apply nth_error_Some; unfold sample in Eu; congruence).
  rewrite Ia in *. rewrite <- Hi in Lb. unfold len in *.
  destruct (sample a x y c) as [u0|] eqn:Ea; [|unfold sample in Ea; apply nth_error_None in Ea; lia].
  destruct (sample b x y c) as [v0|] eqn:Eb; [|unfold sample in Eb; apply nth_error_None in Eb; lia].
  rewrite (Ra x y c u0 Hina Hc Ea), Hal in Eu. rewrite (Rb x y c v0 Hinb Hc Eb), <- Hi, Hal in Ev. injection Eu as <-. injection Ev as <-.
  apply (H x y c); auto.
Qed.
(** brighter images have brighter thresholded images (BinaryInv: darker ones) *)
Theorem C82_order p (a b : image f32) t max m : wf a -> wf b -> info_of a = info_of b -> grayscale a -> below a b -> is_nan t = false ->
  match m with
  | Binary | BinaryInv => f32_leb f32_0 max = true
  | Trunc => True
  | ToZero => f32_leb f32_0 t = true
  | ToZeroInv => False
  end ->
  exists oa ob, threshold p a t max m = Ret oa /\ threshold p b t max m = Ret ob
    /\ match m with BinaryInv => below ob oa | _ => below oa ob end.
Proof.
  intros Wa Wb Hi Hg Hb Nt Hm.
  destruct (threshold_map p a t max m Wa Hg) as [oa [Ea Ra]]. destruct (threshold_map p b t max m Wb (gray_same a b ltac:(congruence) Hg)) as [ob [Eb Rb]].
  exists oa, ob. split; [exact Ea|]. split; [exact Eb|].
  assert (L0 : f32_leb f32_0 f32_0 = true) by reflexivity.
  destruct m; try (destruct Hm; fail).
  - apply (below_map _ _ a b oa ob Wa Wb Hi Ra Rb). intros x y c u v Hin Hc Hal Eu Ev. pose proof (Hb x y c u v Hin Hc Hal Eu Ev) as L. thr.
    destruct (leb_nan _ _ Hm) as [_ Nm].
    destruct (f32_ltb t u) eqn:E; [rewrite (lt_le _ _ _ E L); apply leb_refl; exact Nm|]. destruct (f32_ltb t v); assumption.
  - apply (below_map _ _ b a ob oa Wb Wa (eq_sym Hi) Rb Ra). intros x y c v u Hin Hc Hal Ev Eu.
    assert (L : f32_leb u v = true) by (apply (Hb x y c u v); auto; [unfold inside in *; rewrite Hi; exact Hin|rewrite Hi; exact Hal]). thr.
    destruct (leb_nan _ _ Hm) as [_ Nm].
    destruct (f32_ltb t u) eqn:E; [rewrite (lt_le _ _ _ E L); reflexivity|]. destruct (f32_ltb t v); [exact Hm|apply leb_refl; exact Nm].
  - apply (below_map _ _ a b oa ob Wa Wb Hi Ra Rb). intros x y c u v Hin Hc Hal Eu Ev. pose proof (Hb x y c u v Hin Hc Hal Eu Ev) as L. thr.
    destruct (leb_nan _ _ L) as [Nu Nv].
    destruct (f32_ltb t u) eqn:E; [rewrite (lt_le _ _ _ E L); apply leb_refl; exact Nt|]. destruct (f32_ltb t v) eqn:E2; [apply nlt_le; assumption|exact L].
  - apply (below_map _ _ a b oa ob Wa Wb Hi Ra Rb). intros x y c u v Hin Hc Hal Eu Ev. pose proof (Hb x y c u v Hin Hc Hal Eu Ev) as L. thr.
    destruct (f32_ltb t u) eqn:E; [rewrite (lt_le _ _ _ E L); exact L|]. destruct (f32_ltb t v) eqn:E2; [|exact L0].
    apply (leb_trans _ t); [exact Hm|]. apply lt_is_le. exact E2.
Qed.
(** not so for [ToZeroInv]: the darker pixel 90 stays 90, the brighter one 100 becomes 0 *)
Theorem C82_order_refuted p :
  threshold p (one_pixel 90) (f32_of_Z 95) (f32_of_Z 255) ToZeroInv = Ret (one_pixel 90)
  /\ threshold p (one_pixel 100) (f32_of_Z 95) (f32_of_Z 255) ToZeroInv = Ret (one_pixel 0).
Proof. destruct p; split; reflexivity. Qed.
(** a higher threshold leaves fewer white pixels *)
Theorem C82_higher_threshold p (img : image f32) t t' max : wf img -> grayscale img -> f32_leb t t' = true -> f32_leb f32_0 max = true ->
  exists o o', threshold p img t max Binary = Ret o /\ threshold p img t' max Binary = Ret o' /\ below o' o.
Proof.
  intros W Hg Ht Hm. destruct (threshold_map p img t max Binary W Hg) as [o [E R]]. destruct (threshold_map p img t' max Binary W Hg) as [o' [E' R']].
  exists o, o'. split; [exact E|]. split; [exact E'|]. apply (below_map _ _ img img o' o W W eq_refl R' R).
  intros x y c u v Hin Hc Hal Eu Ev. rewrite Eu in Ev. injection Ev as <-. thr. destruct (leb_nan _ _ Hm) as [_ Nm]. destruct (leb_nan _ _ Ht) as [Nt Nt'].
  destruct (f32_ltb t' u) eqn:E2.
  - assert (T : f32_ltb t u = true).
    { destruct (ltb_nan _ _ E2) as [_ Nu]. rewrite ltb_ext in * by assumption. rewrite leb_ext in Ht by assumption.
      destruct (Rle_bool_spec (ext t) (ext t')); [|discriminate]. destruct (Rlt_bool_spec (ext t') (ext u)); [|discriminate]. apply Rlt_bool_true. lra. }
    rewrite T. apply leb_refl. exact Nm.
  - destruct (f32_ltb t u); [exact Hm|reflexivity].
Qed.

(** ** ToZero and ToZeroInv split the image *)
Lemma sub_0 (s : f32) : f32_sub s f32_0 = s.
Proof. destruct s as [[]|[]| |[] m e Hb]; reflexivity. Qed.
Lemma sub_self (s : f32) : is_finite s = true -> f32_sub s s = f32_0.
Proof.
  intros F. destruct s as [[]|[]| |sg m e Hb]; try discriminate; try reflexivity.
  unfold f32_sub, f32_0. set (x := B754_finite sg m e Hb) in *.
  pose proof (Bminus_correct 24 128 eq_refl eq_refl mode_NE x x F F) as C.
  rewrite Rminus_diag_eq, round_0, Rabs_R0 in C by (reflexivity || apply valid_rnd_N).
  rewrite Rlt_bool_true in C by apply bpow_gt_0. destruct C as [V [Fi Sg]].
  rewrite Rcompare_Eq in Sg by reflexivity.
  match type of Sg with Bsign ?z = _ => assert (Sg' : Bsign z = false) by (rewrite Sg; subst x; cbn [Bsign]; destruct sg; reflexivity); clear Sg;
    change (z = B754_zero false); revert V Fi Sg'; generalize z end. clear. intros z V Fi Sg.
  destruct z as [s'|s'| |s' m' e' Hb']; try discriminate Fi.
  - cbn in Sg. subst. reflexivity.
  - exfalso. cbn in V. destruct s'; unfold F2R in V; cbn in V; apply Rmult_integral in V as [V|V]; try (apply eq_IZR in V; discriminate);
      pose proof (bpow_gt_0 radix2 e'); cbn in *; lra.
Qed.
Definition complementary (m m' : thresh) : Prop := (m = ToZero /\ m' = ToZeroInv) \/ (m = ToZeroInv /\ m' = ToZero).
(** what [ToZero] removes is what [ToZeroInv] keeps, bit for bit *)
Theorem C82_split p (img : image f32) t max m m' : wf img -> channels (info_of img) = 1 -> alpha (info_of img) = false ->
  Forall (fun s => is_finite s = true) (data img) -> complementary m m' ->
  (let! o := threshold p img t max m in residual p num_f32 img o) = threshold p img t max m'.
Proof.
  intros W HC HA HF Hm. assert (Hg : grayscale img) by (unfold grayscale; rewrite HA; exact HC).
  destruct (threshold_map p img t max m W Hg) as [o [E R]]. destruct (threshold_map p img t max m' W Hg) as [o' [E' R']].
  rewrite E, bind_Ret, E'. destruct R as (Io & Wo & Ro).
  destruct (C53_residual_f32 p img o W Wo (eq_sym Io)) as [r [Er [Ir [Wr Hr]]]]. rewrite Er. f_equal.
  apply (recolored_unique (thresh_fn t max m') (fun a => a) img); auto. split; [exact Ir|]. split; [exact Wr|].
  intros x y c s Hin Hc Es. rewrite (Hr x y c s _ Hin Hc Es (Ro x y c s Hin Hc Es)). unfold is_alpha. rewrite HA. cbn [andb]. f_equal.
  assert (Fs : is_finite s = true) by (rewrite Forall_forall in HF; apply HF; apply (sample_in_data img x y c); exact Es).
  destruct Hm as [[-> ->]|[-> ->]]; thr; destruct (f32_ltb t s); rewrite ?sub_0, ?(sub_self s Fs); reflexivity.
Qed.

(** ** residual *)
(** swapping the arguments negates the residual (integer samples of size at most 2^23) *)
Theorem C82_residual_swap p (a b : image f32) (u v : Z -> Z -> Z -> Z) : wf a -> wf b -> info_of a = info_of b ->
  (forall x y c, inside a x y -> 0 <= c < channels (info_of a) -> exists s r, sample a x y c = Some s /\ sample b x y c = Some r
      /\ isZ s (u x y c) /\ isZ r (v x y c) /\ Z.abs (u x y c) <= 8388608 /\ Z.abs (v x y c) <= 8388608) ->
  exists o o', residual p num_f32 a b = Ret o /\ residual p num_f32 b a = Ret o'
    /\ forall x y c, inside a x y -> 0 <= c < channels (info_of a) ->
       exists s r, sample o x y c = Some s /\ sample o' x y c = Some r /\ isZ s (u x y c - v x y c) /\ isZ r (v x y c - u x y c).
Proof.
  intros Wa Wb Hi H. destruct (C53_residual_f32 p a b Wa Wb Hi) as [o [E [Io [Wo Ho]]]]. destruct (C53_residual_f32 p b a Wb Wa (eq_sym Hi)) as [o' [E' [Io' [Wo' Ho']]]].
  exists o, o'. split; [exact E|]. split; [exact E'|]. intros x y c Hin Hc. destruct (H x y c Hin Hc) as (s & r & Es & Er & Hs & Hr & Bs & Br).
  exists (f32_sub s r), (f32_sub r s). split; [apply (Ho x y c); auto; lia|]. split.
  - apply (Ho' x y c); auto; [unfold inside in *; rewrite <- Hi; exact Hin|lia].
  - assert (SZ : forall (s r : f32) m n, isZ s m -> isZ r n -> Z.abs m <= 8388608 -> Z.abs n <= 8388608 -> isZ (f32_sub s r) (m - n)).
    { clear. intros s r m n Hs Hr Bm Bn. unfold isZ in *. replace (IZR (m - n)) with (rnd32 (IZR (m - n))) by (unfold rnd32; apply (rnd_Z (m - n)); change (2 ^ 24) with 16777216; lia).
      rewrite minus_IZR. apply sub_fin; auto. rewrite <- minus_IZR, <- abs_IZR. apply Rle_trans with (IZR (2 ^ 24)); [apply IZR_le; lia|].
      rewrite IZR_pow2 by lia. apply bpow_le. lia. }
    split; apply SZ; auto.
Qed.

(** examples *)
Definition gray_row : image f32 := Image (Info 4 1 1 false) (map f32_of_Z [10; 90; 100; 200]).
Theorem C82_example :
  wf gray_row /\ grayscale gray_row /\ separates (f32_of_Z 90) (f32_of_Z 255) /\ Forall (fun s => is_finite s = true) (data gray_row)
  /\ threshold Debug gray_row (f32_of_Z 90) (f32_of_Z 255) Binary = Ret (Image (Info 4 1 1 false) (map f32_of_Z [0; 0; 255; 255]))
  /\ threshold Debug gray_row (f32_of_Z 90) (f32_of_Z 255) Trunc = Ret (Image (Info 4 1 1 false) (map f32_of_Z [10; 90; 90; 90]))
  /\ threshold Debug gray_row (f32_of_Z 90) (f32_of_Z 255) ToZero = Ret (Image (Info 4 1 1 false) (map f32_of_Z [0; 0; 100; 200])).
Proof.
  split; [apply wfb_wf; reflexivity|]. split; [reflexivity|]. split; [split; reflexivity|]. split; [repeat constructor|]. repeat split; reflexivity.
Qed.
