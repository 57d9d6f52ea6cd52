(** * What a debug build returns: lemmas for C101 *)
From Verif.Proofs Require Import BaseL ImageL TransformL.
From Verif.Model Require Import Base Float Image MathM Util Par Convert Simd Colorspace Filter Transform Tone Morph Bilateral Median Trimmed.
From Verif.Spec Require Import ImageS.
Open Scope Z_scope.

(** if the call returns, its value satisfies Q *)
Definition ens {A} (Q : A -> Prop) (o : outcome A) : Prop := forall a, o = Ret a -> Q a.

Lemma e_Ret {A} (Q : A -> Prop) a : Q a -> ens Q (Ret a). Proof. intros H b E. injection E as <-. exact H. Qed.
Lemma e_Panic {A} (Q : A -> Prop) : ens Q Panic. Proof. intros b E. discriminate E. Qed.
Lemma e_Fail {A} (Q : A -> Prop) e : ens Q (Fail e). Proof. intros b E. discriminate E. Qed.
Lemma e_any {A} (o : outcome A) : ens (fun _ => True) o. Proof. intros b _. exact I. Qed.
Lemma e_weak {A} (Q R : A -> Prop) o : ens R o -> (forall a, R a -> Q a) -> ens Q o. Proof. intros H K a E. apply K, H, E. Qed.
Lemma e_bind {A B} (R : A -> Prop) (Q : B -> Prop) (o : outcome A) (f : A -> outcome B) : ens R o -> (forall a, R a -> ens Q (f a)) -> ens Q (bind o f).
Proof. intros H K b E. apply bind_inv in E as (a & Ea & E). exact (K a (H a Ea) b E). Qed.
Lemma e_bind_any {A B} (Q : B -> Prop) (o : outcome A) (f : A -> outcome B) : (forall a, ens Q (f a)) -> ens Q (bind o f).
Proof. intros K. apply (e_bind (fun _ => True)); [apply e_any|]. intros a _. apply K. Qed.
Lemma e_fst {A} (Q R : A -> Prop) o : ens (fun a => Q a /\ R a) o -> ens Q o. Proof. intros H a E. exact (proj1 (H a E)). Qed.
Lemma e_unwrap {A} (Q : A -> Prop) o : ens Q o -> ens Q (unwrap o).
Proof. intros H a E. destruct o; cbn in E; try discriminate. exact (H a E). Qed.
Lemma e_mfold {A S} (Q : S -> Prop) (f : S -> A -> outcome S) l s : Q s -> (forall s a, Q s -> ens Q (f s a)) -> ens Q (mfold f l s).
Proof. revert s. induction l as [|a l IH]; intros s Hs H; cbn [mfold]; [apply e_Ret; exact Hs|]. apply (e_bind Q); [apply H, Hs|]. intros s' Hs'. apply IH; assumption. Qed.
Lemma e_mmap {A B} (Q : B -> Prop) (f : A -> outcome B) l : (forall a, In a l -> ens Q (f a)) -> ens (fun bs => Forall Q bs /\ len bs = len l) (mmap f l).
Proof.
  induction l as [|a l IH]; intros H; cbn [mmap]; [apply e_Ret; split; [constructor|reflexivity]|].
  apply (e_bind Q); [apply H; left; reflexivity|]. intros b Hb. apply (e_bind (fun bs => Forall Q bs /\ len bs = len l)); [apply IH; intros c Hc; apply H; right; exact Hc|].
  intros bs [H1 H2]. apply e_Ret. split; [constructor; assumption|]. unfold len in *. cbn [length]. lia.
Qed.
Lemma e_arith t x : ens (fun y => y = x /\ lo t <= y <= hi t) (arith Debug t x).
Proof. unfold arith. destruct (in_ity t x) eqn:E; [|apply e_Panic]. apply e_Ret. apply in_ity_spec in E. split; [reflexivity|exact E]. Qed.
Lemma e_iadd t a b : ens (fun y => y = a + b /\ lo t <= y <= hi t) (iadd Debug t a b). Proof. apply e_arith. Qed.
Lemma e_isub t a b : ens (fun y => y = a - b /\ lo t <= y <= hi t) (isub Debug t a b). Proof. apply e_arith. Qed.
Lemma e_imul t a b : ens (fun y => y = a * b /\ lo t <= y <= hi t) (imul Debug t a b). Proof. apply e_arith. Qed.
Lemma e_vget {A} (P : A -> Prop) v i : Forall P v -> ens P (vget v i).
Proof. intros H x E. apply vget_inv in E as [_ E]. rewrite Forall_forall in H. apply H. eapply nth_error_In. exact E. Qed.
Lemma Forall_firstn' {A} (P : A -> Prop) n v : Forall P v -> Forall P (firstn n v).
Proof. intros H. rewrite <- (firstn_skipn n v) in H. apply Forall_app in H. apply H. Qed.
Lemma Forall_skipn' {A} (P : A -> Prop) n v : Forall P v -> Forall P (skipn n v).
Proof. intros H. rewrite <- (firstn_skipn n v) in H. apply Forall_app in H. apply H. Qed.
Lemma Forall_upd' {A} (P : A -> Prop) v i x : Forall P v -> P x -> Forall P (upd v i x).
Proof. intros Hv Hx. revert i. induction Hv as [|a v Ha Hv IH]; intros [|i]; cbn [upd]; constructor; auto. Qed.
Lemma e_vset {A} (P : A -> Prop) v i x : Forall P v -> P x -> ens (fun w => Forall P w /\ len w = len v) (vset v i x).
Proof.
  intros Hv Hx. unfold vset. destruct (_ && _); [|apply e_Panic]. apply e_Ret. split; [apply Forall_upd'; assumption|]. unfold len. rewrite upd_length. reflexivity.
Qed.
Lemma e_vslice {A} (P : A -> Prop) v a b : Forall P v -> ens (fun w => Forall P w /\ len w = b - a) (vslice v a b).
Proof.
  intros Hv. unfold vslice. destruct (_ && _) eqn:E; [|apply e_Panic]. apply e_Ret. split; [apply Forall_firstn', Forall_skipn'; exact Hv|].
  unfold len in *. rewrite firstn_length, skipn_length. lia.
Qed.
Lemma e_vcopy {A} (P : A -> Prop) v a b s : Forall P v -> Forall P s -> ens (fun w => Forall P w /\ len w = len v) (vcopy v a b s).
Proof.
  intros Hv Hs. unfold vcopy. destruct (_ && _) eqn:E; [|apply e_Panic]. apply e_Ret. split.
  - apply Forall_app. split; [apply Forall_firstn'; exact Hv|]. apply Forall_app. split; [exact Hs|apply Forall_skipn'; exact Hv].
  - unfold len in *. rewrite !app_length, firstn_length, skipn_length. lia.
Qed.
Lemma Forall_True {A} (v : list A) : Forall (fun _ => True) v. Proof. induction v; constructor; auto. Qed.
Lemma Forall_rep {A} (P : A -> Prop) x n : P x -> Forall P (repeat x n). Proof. intros H. induction n; cbn [repeat]; constructor; assumption. Qed.
Lemma Forall_concat' {A} (P : A -> Prop) (l : list (list A)) : Forall (Forall P) l -> Forall P (concat l).
Proof. induction 1; cbn [concat]; [constructor|]. apply Forall_app. split; assumption. Qed.
Lemma len_concat {A} (l : list (list A)) n : Forall (fun x => len x = n) l -> len (concat l) = len l * n.
Proof.
  intros H. destruct l as [|x l]; [reflexivity|]. assert (Hn : 0 <= n) by (inversion H; subst; unfold len; lia).
  unfold len in *. rewrite (length_concat_const _ (Z.to_nat n)); [nia|]. intros y Hy. rewrite Forall_forall in H. specialize (H y Hy). lia.
Qed.
Lemma f32_to_int_u32 (x : f32) : 0 <= f32_to_int U32 x <= u32_max.
Proof. unfold f32_to_int. generalize (float_to_int_range U32 x). cbn [lo hi U32]. unfold u32_max. lia. Qed.
Lemma f32_to_int_u8 (x : f32) : is_u8 (f32_to_int U8 x).
Proof. unfold f32_to_int, is_u8. generalize (float_to_int_range U8 x). cbn [lo hi U8]. lia. Qed.
Lemma float_to_int_u8 {prec emax} (x : BinarySingleNaN.binary_float prec emax) : is_u8 (float_to_int U8 x).
Proof. unfold is_u8. generalize (float_to_int_range U8 x). cbn [lo hi U8]. lia. Qed.
Lemma cast_u8 x : is_u8 (cast U8 x). Proof. unfold is_u8. generalize (cast_range U8 x). cbn [lo hi U8]. lia. Qed.

(** well-formed, every sample in P *)
Definition W {T} (P : T -> Prop) (img : image T) : Prop := wf img /\ samples P img.
Definition like {T S} (img : image T) (out : image S) : Prop := info_of out = info_of img.
Definition px_ok {T} (P : T -> Prop) (n : Z) (px : list T) : Prop := Forall P px /\ len px = n.

Lemma W_data {T S} (P : T -> Prop) (Q : S -> Prop) (img : image T) (d : list S) : W P img -> len d = len (data img) -> Forall Q d -> W Q (Image (info_of img) d).
Proof. intros [[] _] Hl HQ. split; [|exact HQ]. split; cbn [info_of data]; try assumption. congruence. Qed.
Lemma W_c {T} (P : T -> Prop) (img : image T) : W P img -> 0 <= channels (info_of img) <= 255. Proof. intros [[] _]. assumption. Qed.
Lemma W_True {T} (img : image T) : wf img -> W (fun _ => True) img. Proof. intros H. split; [exact H|]. apply Forall_True. Qed.

Lemma e_like {T S} (Q : image T -> Prop) (a : image S) (b : image T) o : info_of b = info_of a -> ens (fun r => Q r /\ like b r) o -> ens (fun r => Q r /\ like a r) o.
Proof. intros E H r K. destruct (H r K) as [H1 H2]. split; [exact H1|]. unfold like in *. congruence. Qed.

Section Img.
  Context {T : Type} (P : T -> Prop).
  Implicit Types (img : image T).
  Lemma e_img_index img i : W P img -> ens (px_ok P (channels (info_of img))) (img_index Debug img i).
  Proof using Type.
    intros [H1 H2]. unfold img_index. eapply e_bind; [apply e_imul|]. intros s [-> _]. eapply e_bind; [apply e_iadd|]. intros e [-> _].
    eapply e_weak; [apply e_vslice; exact H2|]. intros px [K1 K2]. split; [exact K1|]. lia.
  Qed.
  Lemma e_get_pixel img x y : W P img -> ens (px_ok P (channels (info_of img))) (get_pixel Debug img x y).
  Proof using Type. intros H. unfold get_pixel. do 3 (apply e_bind_any; intros ?). apply e_img_index. exact H. Qed.
  Lemma e_get_pixel_unchecked img x y : W P img -> ens (px_ok P (channels (info_of img))) (get_pixel_unchecked Debug img x y).
  Proof using Type. intros H. unfold get_pixel_unchecked. do 2 (apply e_bind_any; intros ?). apply e_img_index. exact H. Qed.
  Lemma e_vcopy_img img a b px : W P img -> Forall P px -> ens (fun o => W P o /\ like img o) (let! d := vcopy (data img) a b px in Ret (Image (info_of img) d)).
  Proof using Type.
    intros H Hp. eapply e_bind; [apply (e_vcopy P); [apply H|exact Hp]|]. intros d [H1 H2]. apply e_Ret. split; [eapply W_data; eassumption|reflexivity].
  Qed.
  Lemma e_set_pixel img x y px : W P img -> Forall P px -> ens (fun o => W P o /\ like img o) (set_pixel Debug img x y px).
  Proof using Type. intros H Hp. unfold set_pixel. do 4 (apply e_bind_any; intros ?). apply e_vcopy_img; assumption. Qed.
  Lemma e_set_pixel_indexed img i px : W P img -> Forall P px -> ens (fun o => W P o /\ like img o) (set_pixel_indexed Debug img i px).
  Proof using Type. intros H Hp. unfold set_pixel_indexed. do 3 (apply e_bind_any; intros ?). apply e_vcopy_img; assumption. Qed.
  Lemma e_img_index_mut img i f : W P img -> (forall px, Forall P px -> ens (Forall P) (f px)) -> ens (fun o => W P o /\ like img o) (img_index_mut Debug img i f).
  Proof using Type.
    intros H Hf. unfold img_index_mut. do 2 (apply e_bind_any; intros ?). eapply e_bind; [apply (e_vslice P); apply H|]. intros px [K _].
    eapply e_bind; [apply Hf; exact K|]. intros px' K'. apply e_vcopy_img; assumption.
  Qed.
  Lemma e_get_pixel_mut img x y f : W P img -> (forall px, Forall P px -> ens (Forall P) (f px)) -> ens (fun o => W P o /\ like img o) (get_pixel_mut Debug img x y f).
  Proof using Type.
    intros H Hf. unfold get_pixel_mut. do 3 (apply e_bind_any; intros ?). eapply e_bind; [apply (e_vslice P); apply H|]. intros px [K _].
    eapply e_bind; [apply Hf; exact K|]. intros px' K'. apply e_vcopy_img; assumption.
  Qed.
  Lemma e_get_pixel_mut_unchecked img x y f : W P img -> (forall px, Forall P px -> ens (Forall P) (f px)) -> ens (fun o => W P o /\ like img o) (get_pixel_mut_unchecked Debug img x y f).
  Proof using Type. intros H Hf. unfold get_pixel_mut_unchecked. do 2 (apply e_bind_any; intros ?). apply e_img_index_mut; assumption. Qed.

  Lemma e_size i : ens (fun s => s = width i * height i /\ 0 <= s <= u32_max) (size Debug i). Proof using Type. apply e_imul. Qed.
  Lemma e_full_size i : ens (fun s => s = width i * height i * channels i /\ 0 <= s <= u32_max /\ 0 <= width i * height i <= u32_max) (full_size Debug i).
  Proof using Type. unfold full_size. eapply e_bind; [apply e_imul|]. intros s [-> H]. eapply e_weak; [apply e_imul|]. intros t [-> K]. cbn [lo hi U32] in *. unfold u32_max. auto. Qed.

  (** blank images, and images put together from pixels *)
  Lemma e_blank (N : number T) w h c a : P (n_zero N) -> 0 <= w <= u32_max -> 0 <= h <= u32_max -> 0 <= c <= 255 ->
    ens (fun o => W P o /\ info_of o = Info w h c a) (blank Debug N (Info w h c a)).
  Proof using Type.
    intros Hz Hw Hh Hc. unfold blank. eapply e_bind; [apply e_full_size|]. cbn [width height channels]. intros s (-> & H1 & H2). apply e_Ret. split; [|reflexivity].
    split; [|apply Forall_rep; exact Hz]. split; cbn [info_of data width height channels]; try assumption; try lia. rewrite len_repeat. lia.
  Qed.
  Lemma e_blank_like {S} (Q : S -> Prop) (img : image S) (N : number T) : P (n_zero N) -> W Q img -> ens (fun o => W P o /\ info_of o = info_of img) (blank Debug N (info_of img)).
  Proof using Type. intros Hz [[] _]. destruct (info_of img) as [w h c a]. apply e_blank; assumption. Qed.
  Lemma e_from_vec_of_vec w h c a d : 0 <= w <= u32_max -> 0 <= h <= u32_max -> 0 <= c <= 255 -> len d = w * h -> Forall (px_ok P c) d -> ens (W P) (from_vec_of_vec Debug w h c a d).
  Proof using Type.
    intros Hw Hh Hc Hl Hd. unfold from_vec_of_vec. eapply e_bind; [apply e_imul|]. intros s [-> H1]. eapply e_bind; [apply e_imul|]. intros t [-> H2]. cbn [lo hi U32] in *.
    apply e_Ret. rewrite fold_left_app_concat. cbn [app]. split.
    - apply concat_wf; [|exact Hl|]. + unfold info_ok, u32_max in *. cbn [width height channels]. lia. + intros px Hp. rewrite Forall_forall in Hd. apply (Hd px Hp).
    - apply Forall_concat'. eapply Forall_impl; [|exact Hd]. intros px K. apply K.
  Qed.
  Lemma e_from_vec_of_slice w h c a d : 0 <= w <= u32_max -> 0 <= h <= u32_max -> 0 <= c <= 255 -> len d = w * h -> Forall (px_ok P c) d -> ens (W P) (from_vec_of_slice Debug w h c a d).
  Proof using Type. exact (e_from_vec_of_vec w h c a d). Qed.
  Lemma e_par {A} (Q : A -> Prop) sched n (f : Z -> outcome A) : 0 <= n -> (forall k, ens Q (f k)) -> ens (fun d => len d = n /\ Forall Q d) (par_collect sched n f).
  Proof using Type.
    intros Hn Hf. unfold par_collect. set (R := fun s : option A => match s with Some a => Q a | None => True end).
    apply (e_bind (fun slots => Forall R slots /\ len slots = n)).
    - apply e_mfold; [split; [apply Forall_rep; exact I|rewrite len_repeat; lia]|]. intros sl k [H1 H2].
      apply (e_bind Q); [apply Hf|]. intros r Hr. eapply e_weak; [apply (e_vset R); [exact H1|exact Hr]|]. intros w [K1 K2]. split; [exact K1|lia].
    - intros sl [H1 H2]. eapply e_weak; [apply (e_mmap Q)|].
      + intros s Hs. rewrite Forall_forall in H1. specialize (H1 s Hs). destruct s; [apply e_Ret; exact H1|apply e_Panic].
      + intros bs [K1 K2]. split; [lia|exact K1].
  Qed.
  (** a loop that writes pixels *)
  Lemma e_write {A} (f : image T -> A -> outcome (image T)) l img : W P img -> (forall o a, W P o -> like img o -> ens (fun o' => W P o' /\ like img o') (f o a)) ->
    ens (fun o => W P o /\ like img o) (mfold f l img).
  Proof using Type. intros H Hf. apply e_mfold; [split; [exact H|reflexivity]|]. intros o a [H1 H2]. apply Hf; assumption. Qed.

  Lemma e_px_alpha px : Forall P px -> ens P (px_alpha Debug px).
  Proof using Type. intros H. unfold px_alpha. apply e_bind_any. intros i. apply e_vget. exact H. Qed.
  Lemma e_px_cwa px n : px_ok P n px -> ens (px_ok P (n - 1)) (px_channels_without_alpha Debug px).
  Proof using Type.
    intros [H <-]. unfold px_channels_without_alpha. eapply e_bind; [apply e_isub|]. intros i [-> _]. eapply e_weak; [apply e_vslice; exact H|]. intros w [K1 K2]. split; [exact K1|]. lia.
  Qed.
  Lemma e_apply_range f l d : Forall P d -> (forall v, P v -> ens P (f v)) -> ens (fun d' => Forall P d' /\ len d' = len d)
    (mfold (fun d i => let! c := vget d i in let! c' := f c in vset d i c') l d).
  Proof using Type.
    intros Hd Hf. apply e_mfold; [split; [exact Hd|reflexivity]|]. intros d' i [H1 H2]. eapply e_bind; [apply e_vget; exact H1|]. intros c Hc. eapply e_bind; [apply Hf; exact Hc|].
    intros c' Hc'. eapply e_weak; [apply (e_vset P); [exact H1|exact Hc']|]. intros w [K1 K2]. split; [exact K1|congruence].
  Qed.
  Lemma e_px_apply_alpha f g px : Forall P px -> (forall v, P v -> ens P (f v)) -> (forall v, P v -> ens P (g v)) -> ens (Forall P) (px_apply_alpha Debug f g px).
  Proof using Type.
    intros Hp Hf Hg. unfold px_apply_alpha. apply e_bind_any. intros n. eapply e_bind; [apply e_apply_range; assumption|]. intros px1 [H1 _]. apply e_bind_any. intros i.
    eapply e_bind; [apply e_px_alpha; exact H1|]. intros a Ha. eapply e_bind; [apply Hg; exact Ha|]. intros a' Ha'. eapply e_weak; [apply (e_vset P); assumption|]. intros w [K _]. exact K.
  Qed.

  Lemma e_apply_pixels f img : W P img -> (forall px, px_ok P (channels (info_of img)) px -> ens (Forall P) (f px)) -> ens (W P) (apply_pixels Debug f img).
  Proof using Type.
    intros H Hf. unfold apply_pixels. apply e_bind_any. intros sz. eapply e_weak; [apply e_write; [exact H|]|intros o [K _]; exact K].
    intros o i H1 H2. eapply e_bind; [apply e_img_index; exact H1|]. intros px Hp. rewrite H2 in Hp. eapply e_bind; [apply Hf; exact Hp|]. intros out Ho.
    eapply e_weak; [apply e_set_pixel_indexed; [exact H1|exact Ho]|]. intros o' [K1 K2]. split; [exact K1|]. unfold like in *. congruence.
  Qed.
  Lemma e_apply_pixels_if_alpha f g img : W P img -> (forall px, Forall P px -> ens (Forall P) (f px)) -> (forall v, P v -> ens P (g v)) -> ens (W P) (apply_pixels_if_alpha Debug f g img).
  Proof using Type.
    intros H Hf Hg. unfold apply_pixels_if_alpha. destruct (negb _); [apply e_apply_pixels; [exact H|]; intros px [K _]; apply Hf; exact K|]. apply e_bind_any. intros sz.
    eapply e_weak; [apply e_write; [exact H|]|intros o [K _]; exact K].
    intros o i H1 H2. eapply e_bind; [apply e_img_index; exact H1|]. intros px Hp. eapply e_bind; [eapply e_px_cwa; exact Hp|]. intros cs [Hc _].
    eapply e_bind; [apply Hf; exact Hc|]. intros out Ho. eapply e_bind; [apply e_px_alpha; apply Hp|]. intros a Ha. eapply e_bind; [apply Hg; exact Ha|]. intros b Hb.
    eapply e_weak; [apply e_set_pixel_indexed; [exact H1|]; apply Forall_app; auto|]. intros o' [K1 K2]. split; [exact K1|]. unfold like in *. congruence.
  Qed.
  Lemma e_apply_channels f img : W P img -> (forall v, P v -> ens P (f v)) -> ens (W P) (apply_channels Debug f img).
  Proof using Type.
    intros H Hf. unfold apply_channels. apply e_bind_any. intros fs. eapply e_bind; [apply e_apply_range; [apply H|exact Hf]|]. intros d [H1 H2]. apply e_Ret. eapply W_data; eassumption.
  Qed.
  Lemma e_apply_channels_if_alpha f g img : W P img -> (forall v, P v -> ens P (f v)) -> (forall v, P v -> ens P (g v)) -> ens (W P) (apply_channels_if_alpha Debug f g img).
  Proof using Type.
    intros H Hf Hg. unfold apply_channels_if_alpha. destruct (negb _); [apply e_apply_channels; assumption|]. apply e_bind_any. intros sz.
    apply e_mfold; [exact H|]. intros o i H1. eapply e_weak; [apply e_img_index_mut; [exact H1|]|intros o' [K _]; exact K]. intros px Hp. apply e_px_apply_alpha; assumption.
  Qed.
  Lemma e_edit_channel f k img : W P img -> (forall v, P v -> ens P (f v)) -> ens (W P) (edit_channel Debug f k img).
  Proof using Type.
    intros H Hf. unfold edit_channel. apply e_bind_any. intros fs. apply e_bind_any. intros l. eapply e_bind; [apply e_apply_range; [apply H|exact Hf]|]. intros d [H1 H2]. apply e_Ret. eapply W_data; eassumption.
  Qed.
End Img.

Section Map.
  Context {T S : Type} (P : T -> Prop) (Q : S -> Prop).
  Lemma e_map_channels f (img : image T) : W P img -> (forall v, P v -> ens Q (f v)) -> ens (fun o => W Q o /\ like img o) (map_channels Debug f img).
  Proof using Type.
    intros H Hf. unfold map_channels. eapply e_bind; [apply e_full_size|]. intros fs (-> & H1 & H2). eapply e_bind; [apply (e_mmap Q)|].
    - intros i _. eapply e_bind; [apply e_vget; apply H|]. exact Hf.
    - intros d [K1 K2]. apply e_Ret. split; [|reflexivity]. eapply W_data; [exact H| |exact K1]. rewrite K2, len_zrange by lia. destruct H as [[] _]. lia.
  Qed.
  Lemma e_px_map_alpha f g (px : list T) n : px_ok P n px -> (forall v, P v -> ens Q (f v)) -> (forall v, P v -> ens Q (g v)) -> ens (px_ok Q n) (px_map_alpha Debug f g px).
  Proof using Type.
    intros H Hf Hg. unfold px_map_alpha. eapply e_bind; [eapply e_px_cwa; exact H|]. intros cs [H1 H2]. eapply e_bind; [apply (e_mmap Q)|].
    - intros v Hv. apply Hf. rewrite Forall_forall in H1. apply H1, Hv.
    - intros out [K1 K2]. eapply e_bind; [apply e_px_alpha; apply H|]. intros a Ha. eapply e_bind; [apply Hg; exact Ha|]. intros b Hb. apply e_Ret.
      split; [apply Forall_app; auto|]. rewrite len_app, K2, H2. unfold len. cbn [length]. lia.
  Qed.
  Lemma e_map_channels_if_alpha f g (img : image T) : W P img -> (forall v, P v -> ens Q (f v)) -> (forall v, P v -> ens Q (g v)) ->
    ens (fun o => W Q o /\ like img o) (map_channels_if_alpha Debug f g img).
  Proof using Type.
    intros H Hf Hg. unfold map_channels_if_alpha. destruct (negb _); [apply e_map_channels; assumption|]. apply e_bind_any. intros _u. eapply e_bind; [apply e_size|]. intros sz (-> & Hs).
    eapply e_bind; [apply (e_mmap (px_ok Q (channels (info_of img))))|].
    - intros i _. eapply e_bind; [apply e_img_index; exact H|]. intros px Hp. apply e_px_map_alpha; assumption.
    - intros d [K1 K2]. apply e_Ret. split; [|reflexivity]. eapply W_data; [exact H| |].
      + rewrite (len_concat _ (channels (info_of img))); [|eapply Forall_impl; [|exact K1]; intros px K; apply K]. rewrite K2, len_zrange by lia. destruct H as [[] _]. lia.
      + apply Forall_concat'. eapply Forall_impl; [|exact K1]. intros px K. apply K.
  Qed.

  Lemma map_pixels_tail (img : image T) (d : list (list S)) k : W P img -> Forall (px_ok Q k) d -> len d = width (info_of img) * height (info_of img) ->
    (0 < width (info_of img) * height (info_of img) -> 0 <= k <= channels (info_of img)) ->
    ens (fun o => W Q o /\ info_of o = Info (width (info_of img)) (height (info_of img)) k (alpha (info_of img))) (let! ch := idiv U32 (cast U32 (len (concat d))) (width (info_of img) * height (info_of img)) in
      Ret (Image (Info (width (info_of img)) (height (info_of img)) (cast U8 ch) (alpha (info_of img))) (concat d))).
  Proof using Type.
    intros H Hd Hl Hk. destruct H as [[] _]. set (s := width (info_of img) * height (info_of img)) in *.
    assert (Hc : len (concat d) = s * k) by (rewrite (len_concat _ k), Hl; [reflexivity|]; eapply Forall_impl; [|exact Hd]; intros px K; apply K).
    destruct (Z.eq_dec s 0) as [E|E]; [rewrite E; apply e_Panic|]. assert (Hs : 0 < s) by (subst s; nia). specialize (Hk Hs).
    assert (Hb : 0 <= s * k <= u32_max) by nia. rewrite Hc, cast_id by (cbn [lo hi U32]; unfold u32_max in *; lia).
    assert (Hkb : k <= u32_max) by (unfold u32_max in *; nia).
    rewrite idiv_ok by (cbn [lo hi U32]; unfold u32_max in *; lia). rewrite bind_Ret. rewrite Z.mul_comm, Z.div_mul by lia. rewrite cast_id by (cbn [lo hi U8]; lia).
    apply e_Ret. split; [|reflexivity]. split.
    - apply concat_wf; cbn [width height channels]; [|exact Hl|].
      + unfold info_ok. cbn [width height channels]. fold s. repeat split; try lia; try (apply wf_w); try apply wf_h.
      + intros px Hp. rewrite Forall_forall in Hd. apply (Hd px Hp).
    - apply Forall_concat'. eapply Forall_impl; [|exact Hd]. intros px K. apply K.
  Qed.
  Lemma Forall_ex {A} (R : A -> Prop) (X : Prop) d : Forall (fun x => R x /\ X) d -> 0 < len d -> X.
  Proof using Type. intros H Hl. destruct d as [|x d]; [unfold len in Hl; cbn in Hl; lia|]. inversion H; subst. tauto. Qed.
  Lemma e_map_pixels f (img : image T) k : W P img ->
    (forall cs, px_ok P (channels (info_of img)) cs -> ens (fun out => px_ok Q k out /\ k <= channels (info_of img)) (f cs)) ->
    ens (fun o => W Q o /\ info_of o = Info (width (info_of img)) (height (info_of img)) k (alpha (info_of img))) (map_pixels Debug f img).
  Proof using Type.
    intros H Hf. unfold map_pixels. eapply e_bind; [apply e_size|]. intros sz (-> & Hs).
    eapply e_bind; [apply (e_mmap (fun out => px_ok Q k out /\ (0 <= k <= channels (info_of img))))|].
    - intros i _. eapply e_bind; [apply e_img_index; exact H|]. intros px Hp. eapply e_weak; [apply Hf; exact Hp|]. intros out [K1 K2]. split; [exact K1|]. destruct K1 as [_ <-]. unfold len in *. lia.
    - intros d [K1 K2]. rewrite len_zrange in K2 by lia. apply map_pixels_tail with (k := k).
      + exact H. + eapply Forall_impl; [|exact K1]. intros px K. apply K. + lia. + intros Hp. eapply Forall_ex; [exact K1|lia].
  Qed.
  Lemma e_map_pixels_if_alpha f g (img : image T) k : W P img ->
    (forall cs n, px_ok P n cs -> n = channels (info_of img) - (if alpha (info_of img) then 1 else 0) -> ens (fun out => px_ok Q k out /\ k <= n) (f cs)) -> (forall v, P v -> ens Q (g v)) ->
    ens (fun o => W Q o /\ info_of o = Info (width (info_of img)) (height (info_of img)) (k + (if alpha (info_of img) then 1 else 0)) (alpha (info_of img))) (map_pixels_if_alpha Debug f g img).
  Proof using Type.
    intros H Hf Hg. unfold map_pixels_if_alpha. destruct (alpha (info_of img)) eqn:Ea; cbn [negb].
    2: { rewrite Z.add_0_r, <- Ea. eapply e_map_pixels; [exact H|]. intros cs Hc. apply Hf; [exact Hc|lia]. }
    eapply e_bind; [apply e_size|]. intros sz (-> & Hs).
    eapply e_bind; [apply (e_mmap (fun out => px_ok Q (k + 1) out /\ (0 <= k + 1 <= channels (info_of img))))|].
    - intros i _. eapply e_bind; [apply e_img_index; exact H|]. intros px Hp. eapply e_bind; [eapply e_px_cwa; exact Hp|]. intros cs Hc.
      eapply e_bind; [apply (Hf cs _ Hc eq_refl)|]. intros out [K1 K2]. eapply e_bind; [apply e_px_alpha; apply Hp|]. intros a Ha. eapply e_bind; [apply Hg; exact Ha|]. intros b Hb.
      apply e_Ret. destruct K1 as [K1 <-]. split; [split; [apply Forall_app; auto|]|].
      + rewrite len_app. reflexivity. + unfold len in *. lia.
    - intros d [K1 K2]. rewrite len_zrange in K2 by lia. rewrite <- Ea. apply map_pixels_tail with (k := k + 1).
      + exact H. + eapply Forall_impl; [|exact K1]. intros px K. apply K. + lia. + intros Hp. eapply Forall_ex; [exact K1|lia].
  Qed.
End Map.
