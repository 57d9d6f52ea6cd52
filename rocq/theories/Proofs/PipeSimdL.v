(** * What a debug build with SIMD returns, when it returns (for C101) *)
From Verif.Proofs Require Import BaseL ImageL TransformL PipeL PipeL2.
From Verif.Model Require Import Base Float Image MathM Util Par Convert Simd Colorspace Tone.
From Verif.Spec Require Import ImageS.
Open Scope Z_scope.

Notation B := (Forall is_u8).

Lemma Forall_map2 {A C D} (P : D -> Prop) (Q : A -> Prop) (R : C -> Prop) (f : A -> C -> D) : (forall x y, Q x -> R y -> P (f x y)) ->
  forall a b, Forall Q a -> Forall R b -> Forall P (map2 f a b).
Proof. intros H a b Ha. revert b. induction Ha as [|x a Hx Ha IH]; intros b Hb; [constructor|]. destruct Hb as [|y b Hy Hb]; cbn [map2]; constructor; auto. Qed.
Lemma B_le_bytes n v : B (le_bytes n v).
Proof.
  unfold le_bytes. generalize (seq 0 n). intros l. induction l as [|k l IH]; cbn [map]; constructor; [|exact IH].
  unfold is_u8. generalize (Z.mod_pos_bound (v / 256 ^ Z.of_nat k) 256 eq_refl). lia.
Qed.
Lemma B_set1_epi8 v : B (set1_epi8 v). Proof. apply Forall_rep, cast_u8. Qed.
Lemma B_setzero : B setzero. Proof. apply Forall_rep. unfold is_u8. lia. Qed.
Lemma B_set1_epi32 v : B (set1_epi32 v). Proof. apply Forall_concat'. apply Forall_rep. apply B_le_bytes. Qed.
Lemma B_blend a b m : B a -> B b -> B (blendv_epi8 a b m).
Proof.
  intros Ha Hb. unfold blendv_epi8. apply Forall_map2 with (Q := fun ab : Z * Z => is_u8 (fst ab) /\ is_u8 (snd ab)) (R := fun _ => True); [|  |apply Forall_True].
  - intros [x y] m' [H1 H2] _. destruct (128 <=? m'); assumption.
  - apply Forall_map2 with (Q := is_u8) (R := is_u8); auto.
Qed.
Lemma B_adds a b : B a -> B b -> B (adds_epu8 a b).
Proof. apply Forall_map2. intros x y. unfold is_u8. lia. Qed.
Lemma B_subs a b : B a -> B b -> B (subs_epu8 a b).
Proof. apply Forall_map2. intros x y. unfold is_u8. lia. Qed.
Lemma B_avg a b : B a -> B b -> B (avg_epu8 a b).
Proof. apply Forall_map2. intros x y. unfold is_u8. intros Hx Hy. split; [apply Z.div_pos; lia|]. apply Z.lt_succ_r. apply Z.div_lt_upper_bound; lia. Qed.
Lemma B_interleave a b : B a -> B b -> B (interleave a b).
Proof. intros Ha Hb. unfold interleave. apply Forall_concat'. apply Forall_map2 with (Q := is_u8) (R := is_u8); [|exact Ha|exact Hb]. intros x y Hx Hy. apply Forall_cons; [exact Hx|]. apply Forall_cons; [exact Hy|]. apply Forall_nil. Qed.
Lemma B_bytes a i n : B a -> B (bytes a i n). Proof. intros H. apply Forall_firstn', Forall_skipn', H. Qed.
Lemma B_unpacklo a b : B a -> B b -> B (unpacklo_epi8 a b).
Proof. intros Ha Hb. apply Forall_app. split; apply B_interleave; apply B_bytes; assumption. Qed.
Lemma B_unpackhi a b : B a -> B b -> B (unpackhi_epi8 a b).
Proof. intros Ha Hb. apply Forall_app. split; apply B_interleave; apply B_bytes; assumption. Qed.
Lemma e_loadu v i : B v -> ens B (loadu v i).
Proof. intros H. unfold loadu. destruct (_ && _); [|intros b E; discriminate E]. apply e_Ret. apply Forall_firstn', Forall_skipn', H. Qed.
Definition buf (n : Z) (d : list Z) : Prop := B d /\ len d = n.
Lemma e_store n v i r : buf n v -> B r -> ens (buf n) (store v i r).
Proof.
  intros [Hv Hn] Hr. unfold store. destruct (_ && _) eqn:E; [|intros b K; discriminate K]. apply andb_prop in E as [E1 E2]. apply e_Ret. split.
  - apply Forall_app. split; [apply Forall_firstn'; exact Hv|]. apply Forall_app. split; [exact Hr|apply Forall_skipn'; exact Hv].
  - subst n. unfold len in *. rewrite !app_length, firstn_length, skipn_length. lia.
Qed.
Lemma e_storeu2 n v h l r : buf n v -> B r -> ens (buf n) (storeu2 v h l r).
Proof. intros Hv Hr. unfold storeu2. apply e_bind with (R := buf n); [apply e_store; [exact Hv|apply B_bytes, Hr]|]. intros w Hw. apply e_store; [exact Hw|apply B_bytes, Hr]. Qed.
Lemma e_mwhile {S} (Q : S -> Prop) fuel (c : S -> outcome bool) body : (forall s, Q s -> ens Q (body s)) -> forall s, Q s -> ens Q (mwhile fuel c body s).
Proof.
  intros H. induction fuel as [|n IH]; intros s Hs; cbn [mwhile]; [apply e_Panic|]. apply e_bind_any. intros b. destruct b; [|apply e_Ret; exact Hs].
  apply e_bind with (R := Q); [apply H, Hs|]. intros s' Hs'. apply IH, Hs'.
Qed.
Lemma e_vset_buf n d i x : buf n d -> is_u8 x -> ens (buf n) (vset d i x).
Proof. intros [H1 H2] Hx w E. destruct (e_vset is_u8 d i x H1 Hx w E) as [K1 K2]. split; [exact K1|congruence]. Qed.
Lemma buf_zero n : 0 <= n -> buf n (repeat 0 (Z.to_nat n)).
Proof. intros H. split; [apply Forall_rep; unfold is_u8; lia|]. unfold len. rewrite repeat_length. lia. Qed.
Lemma e_full_size i : ens (fun n => n = width i * height i * channels i /\ 0 <= n) (full_size Debug i).
Proof.
  unfold full_size. eapply e_bind; [apply e_imul|]. intros a [-> _]. eapply e_weak; [apply e_imul|]. intros b [-> H]. split; [reflexivity|]. apply H.
Qed.
Lemma buf_W (img : image Z) c d : W is_u8 img -> 0 <= c <= channels (info_of img) -> buf (width (info_of img) * height (info_of img) * c) d -> W is_u8 (from_vec (width (info_of img)) (height (info_of img)) c (alpha (info_of img)) d).
Proof.
  intros [[] _] Hc [H1 H2]. split; [|exact H1]. unfold from_vec. split; cbn [info_of data width height channels alpha]; try assumption; [lia|].
  eapply Z.le_trans; [apply Z.mul_le_mono_nonneg_l; [apply Z.mul_nonneg_nonneg; lia|exact (proj2 Hc)]|assumption].
Qed.
Lemma e_adds_loop (img : image Z) n step v v256 : B (data img) -> B v256 -> 0 <= n -> ens (fun s => buf n (snd s)) (adds_loop Debug img n step v v256).
Proof.
  intros Hd Hv Hn. unfold adds_loop. apply e_mwhile; [|apply buf_zero, Hn].
  intros [i d] Hs. cbn [snd] in Hs. apply e_bind with (R := B); [apply e_loadu, Hd|]. intros ch Hch. cbv zeta.
  apply e_bind with (R := buf n). { apply e_store; [exact Hs|]. destruct (0 <? v); [apply B_adds|apply B_subs]; assumption. }
  intros d' Hd'. apply e_bind_any. intros i'. apply e_Ret. exact Hd'.
Qed.

Lemma e_adds_256 img v : W is_u8 img -> ens (W is_u8) (adds_256_u8 Debug img v).
Proof.
  intros H. unfold adds_256_u8. cbv zeta. eapply e_bind; [apply e_full_size|]. intros n [Hn Hn0]. apply e_bind_any. intros av.
  eapply e_bind with (R := fun s => buf n (snd s)).
  { apply e_adds_loop; [apply H| |exact Hn0]. destruct (alpha (info_of img)); [apply B_blend; [apply B_set1_epi8|apply B_setzero]|apply B_set1_epi8]. }
  intros [i d] Hd. cbn [snd] in Hd. apply e_bind with (R := buf n).
  - destruct (n <? i); [|apply e_Ret; exact Hd]. apply e_bind_any. intros a. apply e_mfold; [exact Hd|]. intros d' j Hd'.
    apply e_bind_any. intros x. eapply e_bind; [apply e_add_clamped|]. intros y Hy. apply e_vset_buf; assumption.
  - intros d' Hd'. apply e_Ret. apply (buf_W img); [exact H|generalize (W_c _ _ H); lia|]. rewrite <- Hn. exact Hd'.
Qed.
Lemma e_adds_n_256 img v k : W is_u8 img -> ens (W is_u8) (adds_n_256_u8 Debug img v k).
Proof.
  intros H. unfold adds_n_256_u8. cbv zeta. eapply e_bind; [apply e_full_size|]. intros n [Hn Hn0]. apply e_bind_any. intros av.
  eapply e_bind with (R := fun s => buf n (snd s)).
  { apply e_adds_loop; [apply H| |exact Hn0]. apply B_blend; [apply B_setzero|apply B_set1_epi8]. }
  intros [i d] Hd. cbn [snd] in Hd. apply e_bind with (R := buf n).
  - destruct (n <? i); [|apply e_Ret; exact Hd]. apply e_bind_any. intros a. apply e_bind_any. intros js. apply e_mfold; [exact Hd|]. intros d' j Hd'.
    do 2 (apply e_bind_any; intros ?). eapply e_bind; [apply e_add_clamped|]. intros y Hy. apply e_vset_buf; assumption.
  - intros d' Hd'. apply e_Ret. apply (buf_W img); [exact H|generalize (W_c _ _ H); lia|]. rewrite <- Hn. exact Hd'.
Qed.
Lemma e_deint img o c : W is_u8 img -> ens B (deinterleave Debug img o c).
Proof.
  intros [_ H]. unfold deinterleave. cbv zeta. do 3 (apply e_bind_any; intros ?). eapply e_weak; [apply (e_mmap is_u8)|intros l [Hl _]; exact Hl].
  intros i _. apply e_bind_any. intros k. apply e_vget, H.
Qed.
Lemma e_avg_256 img : W is_u8 img -> channels (info_of img) = 3 -> ens (W is_u8) (avg_256_u8 Debug img).
Proof.
  intros H Hc. unfold avg_256_u8. cbv zeta. apply e_bind_any. intros cs. eapply e_bind; [apply e_full_size|]. intros n [Hn Hn0]. rewrite Hc in Hn.
  assert (E : n / 3 = width (info_of img) * height (info_of img) * 1) by (rewrite Hn, Z.div_mul by lia; lia).
  assert (E0 : 0 <= n / 3) by (apply Z.div_pos; lia).
  eapply e_bind with (R := fun s => buf (n / 3) (snd s)).
  { apply e_mwhile; [|apply buf_zero; exact E0]. intros [i d] Hs. cbn [snd] in Hs.
    do 3 (eapply e_bind; [apply e_deint, H|]; intros ? ?). apply e_bind_any. intros o.
    apply e_bind with (R := buf (n / 3)); [apply e_store; [exact Hs|]; apply B_avg; [apply B_avg; assumption|assumption]|].
    intros d' Hd'. apply e_bind_any. intros i'. apply e_Ret. exact Hd'. }
  intros [i d] Hd. cbn [snd] in Hd. apply e_bind with (R := buf (n / 3)).
  - destruct (n <? i); [|apply e_Ret; exact Hd]. do 2 (apply e_bind_any; intros ?). apply e_mfold; [exact Hd|]. intros d' j Hd'.
    do 6 (apply e_bind_any; intros ?). apply e_vset_buf; [exact Hd'|apply f32_to_int_u8].
  - intros d' Hd'. apply e_Ret. apply (buf_W img); [exact H|lia|]. rewrite <- E. exact Hd'.
Qed.
Lemma e_avg_alpha_256 img : W is_u8 img -> channels (info_of img) = 4 -> ens (W is_u8) (avg_alpha_256_u8 Debug img).
Proof.
  intros H Hc. unfold avg_alpha_256_u8. cbv zeta. apply e_bind_any. intros cs. eapply e_bind; [apply e_full_size|]. intros n [Hn Hn0]. rewrite Hc in Hn.
  assert (E : n / 2 = width (info_of img) * height (info_of img) * 2) by (rewrite Hn, <- (Z.div_mul (width (info_of img) * height (info_of img) * 2) 2) by lia; f_equal; lia).
  assert (E0 : 0 <= n / 2) by (apply Z.div_pos; lia).
  eapply e_bind with (R := fun s => buf (n / 2) (snd s)).
  { apply e_mwhile; [|apply buf_zero; exact E0]. intros [i d] Hs. cbn [snd] in Hs.
    do 4 (eapply e_bind; [apply e_deint, H|]; intros ? ?).
    eapply e_bind; [apply e_storeu2; [exact Hs|]; apply B_unpacklo; [apply B_avg; [apply B_avg; assumption|assumption]|assumption]|].
    intros d' Hd'.
    eapply e_bind; [apply e_storeu2; [exact Hd'|]; apply B_unpackhi; [apply B_avg; [apply B_avg; assumption|assumption]|assumption]|].
    intros d2 Hd2. apply e_bind_any. intros i'. apply e_Ret. exact Hd2. }
  intros [i d] Hd. cbn [snd] in Hd. apply e_bind with (R := buf (n / 2)).
  - destruct (n <? i); [|apply e_Ret; exact Hd]. do 2 (apply e_bind_any; intros ?). apply e_mfold; [exact Hd|]. intros d' j Hd'.
    do 5 (apply e_bind_any; intros ?). eapply e_bind; [apply e_vset_buf; [exact Hd'|apply f32_to_int_u8]|]. intros d2 Hd2.
    eapply e_bind; [apply e_vget; apply H|]. intros x3 Hx3. apply e_vset_buf; assumption.
  - intros d' Hd'. apply e_Ret. apply (buf_W img); [exact H|lia|]. rewrite <- E. exact Hd'.
Qed.
Lemma e_gray_simd img : W is_u8 img -> channels (info_of img) - (if alpha (info_of img) then 1 else 0) = 3 -> ens (W is_u8) (rgb_to_grayscale Debug true img).
Proof.
  intros H Hc. unfold rgb_to_grayscale, avg_checked_256_u8. destruct (alpha (info_of img)); [apply e_avg_alpha_256|apply e_avg_256]; try exact H; lia.
Qed.
Lemma e_brightness_b b img v : W is_u8 img -> ens (W is_u8) (brightness Debug b img v).
Proof. intros H. destruct b; [|apply e_brightness; exact H]. unfold brightness. do 2 (apply e_bind_any; intros ?). apply e_adds_256, H. Qed.
Lemma e_saturation_b b img s : W is_u8 img -> ens (W is_u8) (saturation Debug b img s).
Proof.
  intros H. destruct b; [|apply e_saturation; exact H]. unfold saturation. apply e_bind_any; intros ?. eapply e_bind; [apply e_hsv; exact H|]. intros h Hh.
  eapply e_bind; [apply e_adds_n_256; exact Hh|]. intros h' Hh'. apply e_hsv_inv. exact Hh'.
Qed.
