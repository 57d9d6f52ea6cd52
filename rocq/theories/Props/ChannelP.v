(** * C92: geometric operations, scaling and linear filters treat the channels separately *)
From Verif.Model Require Import Base Float Image MathM Par Transform.
From Verif.Spec Require Import ImageS ChannelS.
From Verif.Proofs Require Import BaseL ImageL ImageProps Safe TransformL ChannelL.
Open Scope Z_scope.

(** what holds of every result *)
Definition returns {A} (P : A -> Prop) (m : outcome A) : Prop := forall a, m = Ret a -> P a.
Lemma returns_bind {A B} (P : B -> Prop) (m : outcome A) (k : A -> outcome B) :
  (forall a, m = Ret a -> returns P (k a)) -> returns P (bind m k).
Proof. intros H b E. destruct m as [a| | |]; try discriminate. exact (H a eq_refl b E). Qed.
Lemma returns_ret {A} (P : A -> Prop) a : P a -> returns P (Ret a).
Proof. intros H b [= <-]. exact H. Qed.
Lemma returns_mfold {A S} (P : S -> Prop) (f : S -> A -> outcome S) l : (forall s a, In a l -> P s -> returns P (f s a)) ->
  forall s, P s -> returns P (mfold f l s).
Proof.
  induction l as [|a l IH]; intros H s Hs; cbn [mfold]; [apply returns_ret; exact Hs|].
  apply returns_bind. intros t Et. apply IH; [intros; apply H; [right|]; assumption|].
  exact (H s a (or_introl eq_refl) Hs t Et).
Qed.
Lemma returns_set p {T} (img : image T) x y px i : info_of img = i -> returns (fun o => info_of o = i) (set_pixel p img x y px).
Proof. intros E o Eo. pose proof (safe_set_pixel p img x y px) as S. rewrite Eo in S. cbn in S. congruence. Qed.

Lemma blank_info p {T} (N : number T) i (b : image T) : blank p N i = Ret b -> info_of b = i.
Proof. unfold blank. intros E. apply bind_inv in E as (n & _ & E). injection E as <-. reflexivity. Qed.

Ltac keeps :=
  repeat first [ apply returns_set
               | match goal with H : set_pixel ?p ?s ?x ?y ?px = Ret ?a, J : info_of ?s = ?i |- _ =>
                   pose proof (returns_set p s x y px i J a H); clear H; cbv beta in * end
               | apply returns_bind; intros ? ?
               | apply returns_mfold; [intros ? ? ? ?; cbv beta in *|]
               | match goal with |- returns _ (if ?c then _ else _) => destruct c end
               | match goal with H : info_of ?x = _ |- returns _ (Ret ?x) => apply returns_ret; exact H end
               | assumption ].

(** the common shape: a blank image is filled by a loop that keeps its layout *)
Lemma fill_sim p {T} (N : number T) ks (img img' out : image T) (i i' : info) (loop loop' : image T -> outcome (image T)) :
  selection ks img img' -> width i' = width i -> height i' = height i -> channels i = channels (info_of img) -> channels i' = channels (info_of img') ->
  alpha i' = alpha (info_of img') ->
  (forall b', info_of b' = i' -> returns (fun o => info_of o = i') (loop' b')) ->
  (forall b b', info_of b = i -> info_of b' = i' -> selection ks b b' -> osim (selection ks) (loop b) (loop' b')) ->
  (let! b := blank p N i in loop b) = Ret out -> info_ok i ->
  exists out', (let! b := blank p N i' in loop' b) = Ret out' /\ selection ks out out' /\ alpha (info_of out') = alpha (info_of img').
Proof.
  intros H Ew Eh Ec Ec' Ea K' L E Hok. destruct (blank p N i) as [b| | |] eqn:Eb; try discriminate. cbn [bind] in E.
  pose proof (blank_info p N i b Eb) as Ib.
  destruct (blank_sim p ks N i i' Hok Ew Eh) with (a := b) as (b' & Eb' & Sb & _ & Ib'); auto.
  - rewrite Ec'. apply (sl_c _ _ _ H).
  - rewrite Ec. apply (sl_le _ _ _ H).
  - rewrite Ec. apply (sl_ks _ _ _ H).
  - rewrite Eb'. cbn [bind]. destruct (L b b' Ib Ib' Sb out E) as (out' & Eo & So). exists out'. conj; auto.
    rewrite (K' b' Ib' out' Eo). exact Ea.
Qed.
Lemma fill_channelwise p {T} (N : number T) ks (img img' out : image T) (i i' : info) (loop loop' : image T -> outcome (image T)) :
  selection ks img img' -> width i' = width i -> height i' = height i -> channels i = channels (info_of img) -> channels i' = channels (info_of img') ->
  alpha i' = alpha (info_of img') ->
  (forall b, info_of b = i -> returns (fun o => info_of o = i) (loop b)) ->
  (forall b', info_of b' = i' -> returns (fun o => info_of o = i') (loop' b')) ->
  (forall b b', info_of b = i -> info_of b' = i' -> selection ks b b' -> osim (selection ks) (loop b) (loop' b')) ->
  (let! b := blank p N i in loop b) = Ret out -> wf out ->
  exists out', (let! b := blank p N i' in loop' b) = Ret out' /\ selection ks out out' /\ alpha (info_of out') = alpha (info_of img').
Proof.
  intros H Ew Eh Ec Ec' Ea K K' L E W. apply (fill_sim p N ks img img' out i i' loop loop'); auto.
  destruct (blank p N i) as [b| | |] eqn:Eb; try discriminate. cbn [bind] in E.
  rewrite <- (K b (blank_info p N i b Eb) out E). apply wf_info_ok; exact W.
Qed.

(** the other shape: the pixels are collected in parallel *)
Lemma collect_sim p sched {T} ks (img img' out : image T) (i i' : info) (f f' : Z -> outcome (list T)) :
  selection ks img img' -> width i' = width i -> height i' = height i -> channels i = channels (info_of img) -> channels i' = channels (info_of img') ->
  alpha i' = alpha (info_of img') ->
  (forall k, 0 <= k < width i * height i -> returns (fun px => len px = channels i) (f k)) ->
  (forall k, 0 <= k < width i * height i -> osim (picks ks) (f k) (f' k)) ->
  (let! sz := imul p U32 (width i) (height i) in
   let! d := par_collect sched sz f in from_vec_of_vec p (width i) (height i) (channels i) (alpha i) d) = Ret out -> info_ok i ->
  exists out', (let! sz := imul p U32 (width i') (height i') in
                let! d := par_collect sched sz f' in from_vec_of_vec p (width i') (height i') (channels i') (alpha i') d) = Ret out'
    /\ selection ks out out' /\ alpha (info_of out') = alpha (info_of img').
Proof.
  intros H Ew Eh Ec Ec' Ea K L E Hok.
  assert (Hle : 0 < len ks <= channels i) by (rewrite Ec; apply (sl_le _ _ _ H)).
  assert (Hc' : channels i' = len ks) by (rewrite Ec'; apply (sl_c _ _ _ H)).
  assert (Hok' : info_ok i') by (apply (info_ok_less i); auto; lia).
  assert (M : forall j, info_ok j -> imul p U32 (width j) (height j) = Ret (width j * height j)).
  { intros j (? & ? & ? & ? & ?). apply imul_ok. unfold u32_max in *. cbn. nia. }
  rewrite M in E by assumption. rewrite M by assumption. rewrite bind_Ret in *.
  apply bind_inv in E as (d & Ed & E).
  rewrite Ew, Eh.
  destruct (par_collect_sim (picks ks) sched (width i * height i) f f' L d Ed) as (d' & Ed' & HR). rewrite Ed'. cbn [bind].
  destruct (par_collect_facts (fun px => len px = channels i) sched _ f d (fun k a Hk Ek => K k Hk a Ek) Ed) as [Ld Fd].
  assert (V : forall j (l : list (list T)), info_ok j -> from_vec_of_vec p (width j) (height j) (channels j) (alpha j) l = Ret (Image j (concat l))).
  { intros j l Hj. unfold from_vec_of_vec. rewrite M by exact Hj. cbn [bind]. destruct Hj as (? & ? & ? & ? & ?).
    rewrite imul_ok by (unfold u32_max in *; cbn; nia). cbn [bind]. rewrite fold_left_app_concat. destruct j; reflexivity. }
  rewrite V in E by exact Hok. rewrite <- Ew, <- Eh. rewrite V by exact Hok'. injection E as <-.
  eexists. split; [reflexivity|]. split; [|exact Ea]. apply concat_sim; auto.
  - rewrite Ec. apply (sl_ks _ _ _ H).
  - unfold len. rewrite Ld. destruct Hok as (? & ? & ?). nia.
Qed.

Lemma collect_channelwise p sched {T} ks (img img' out : image T) (i i' : info) (f f' : Z -> outcome (list T)) :
  selection ks img img' -> width i' = width i -> height i' = height i -> channels i = channels (info_of img) -> channels i' = channels (info_of img') ->
  alpha i' = alpha (info_of img') ->
  (forall k, 0 <= k < width i * height i -> returns (fun px => len px = channels i) (f k)) ->
  (forall k, 0 <= k < width i * height i -> osim (picks ks) (f k) (f' k)) ->
  (let! sz := imul p U32 (width i) (height i) in
   let! d := par_collect sched sz f in from_vec_of_vec p (width i) (height i) (channels i) (alpha i) d) = Ret out -> wf out ->
  exists out', (let! sz := imul p U32 (width i') (height i') in
                let! d := par_collect sched sz f' in from_vec_of_vec p (width i') (height i') (channels i') (alpha i') d) = Ret out'
    /\ selection ks out out' /\ alpha (info_of out') = alpha (info_of img').
Proof.
  intros H Ew Eh Ec Ec' Ea K L E W. apply (collect_sim p sched ks img img' out i i' f f'); auto.
  assert (Io : info_of out = i).
  { apply bind_inv in E as (sz & _ & E). apply bind_inv in E as (d & _ & E). unfold from_vec_of_vec in E.
    apply bind_inv in E as (? & _ & E). apply bind_inv in E as (? & _ & E). injection E as <-. destruct i; reflexivity. }
  rewrite <- Io; apply wf_info_ok; exact W.
Qed.

Lemma safe_returns {A} (P : A -> Prop) (m : outcome A) : safe P m -> returns P m.
Proof. intros H a E. rewrite E in H. exact H. Qed.

Lemma coords_sim p {T} ks (i : info) (f f' : Z -> Z -> outcome (list T)) k : 0 <= k < width i * height i -> 0 <= width i <= u32_max -> k <= u32_max ->
  (forall x y, 0 <= x -> 0 <= y -> osim (picks ks) (f x y) (f' x y)) ->
  osim (picks ks) (let! '(x, y) := get_2d_coords p k (width i) in f x y) (let! '(x, y) := get_2d_coords p k (width i) in f' x y).
Proof.
  intros Hk Hw Hk2 H. assert (width i <> 0) by (intros Z0; rewrite Z0, Z.mul_0_l in Hk; lia). assert (0 < width i) by lia. rewrite get_2d_coords_ok by (unfold u32_max in *; lia). cbn [bind].
  apply H; [apply Z.mod_pos_bound; lia|apply Z.div_pos; lia].
Qed.

Ltac u32s := repeat match goal with
  | H : iadd ?p U32 _ _ = Ret ?a |- _ => apply (u32_arith p) in H
  | H : isub ?p U32 _ _ = Ret ?a |- _ => apply (u32_arith p) in H
  | H : In _ (zrange _ _) |- _ => apply in_zrange in H end.

Theorem C92_crop p {T} (N : number T) x y w h : 0 <= w -> 0 <= h -> channelwise (fun img : image T => crop_seq p N img x y w h).
Proof.
  intros Hw0 Hh0 ks img img' out H E W. cbv beta in *. unfold crop_seq in *.
  apply bind_inv in E as ([] & Ec & E).
  assert (Ec' : crop_check p img' x y w h = Ret tt) by (unfold crop_check in *; rewrite (sl_w _ _ _ H), (sl_h _ _ _ H); exact Ec).
  rewrite Ec'. cbn [bind].
  revert E W. apply (fill_channelwise p N ks img img'); auto; cbn [width height channels alpha].
  - intros b Ib. keeps.
  - intros b Ib. keeps.
  - intros b b' Ib Ib' Sb. apply osim_mfold; [|exact Sb]. intros j s s' Hj Ss. apply osim_mfold; [|exact Ss].
    intros i t t' Hi St. apply osim_same. intros ix Ex. apply osim_same. intros jy Ey. u32s.
    apply (osim_bind (picks ks)); [apply get_pixel_sim; auto; lia|]. intros px px' _ _ Hp. apply set_pixel_sim; auto; lia.
Qed.

Theorem C92_translate p {T} (N : number T) x y : 0 <= x -> 0 <= y -> channelwise (fun img : image T => translate p N img x y).
Proof.
  intros Hx0 Hy0 ks img img' out H E W. cbv beta in *. unfold translate in *. rewrite (sl_w _ _ _ H), (sl_h _ _ _ H).
  revert E W. apply (fill_channelwise p N ks img img'); auto; try apply (sl_w _ _ _ H); try apply (sl_h _ _ _ H).
  - intros b Ib. keeps.
  - intros b Ib. keeps.
  - intros b b' Ib Ib' Sb. apply osim_mfold; [|exact Sb]. intros j s s' Hj Ss. apply osim_mfold; [|exact Ss].
    intros i t t' Hi St. apply osim_same. intros ix Ex. apply osim_same. intros jy Ey. u32s.
    apply (osim_bind (picks ks)); [apply get_pixel_sim; auto; lia|]. intros px px' _ _ Hp. apply set_pixel_sim; auto; lia.
Qed.

Theorem C92_reflect p {T} (N : number T) axis : channelwise (fun img : image T => reflect_image p N img axis).
Proof.
  intros ks img img' out H E W. cbv beta in *. unfold reflect_image in *. rewrite (sl_w _ _ _ H), (sl_h _ _ _ H). cbv zeta in *.
  revert E W. apply (fill_channelwise p N ks img img'); auto; try apply (sl_w _ _ _ H); try apply (sl_h _ _ _ H).
  - intros b Ib. destruct axis; keeps.
  - intros b Ib. destruct axis; keeps.
  - intros b b' Ib Ib' Sb. destruct axis; (apply osim_mfold; [|exact Sb]); intros j s s' Hj Ss; (apply osim_mfold; [|exact Ss]);
    intros i t t' Hi St; apply osim_same; intros ix Ex; apply osim_same; intros jy Ey; u32s;
    (apply (osim_bind (picks ks)); [apply get_pixel_sim; auto; lia|]); intros px px' _ _ Hp; apply set_pixel_sim; auto; lia.
Qed.

Theorem C92_shear p sx sy : channelwise (fun img : image f32 => shear p img sx sy).
Proof.
  intros ks img img' out H E W. cbv beta in *. unfold shear in *. rewrite (sl_w _ _ _ H), (sl_h _ _ _ H). cbv zeta in *.
  apply bind_inv in E as (w & Ew & E). apply bind_inv in E as (h & Eh & E). rewrite Ew, Eh. cbn [bind].
  revert E W. apply (fill_channelwise p num_f32 ks img img'); auto.
  - intros b Ib. keeps.
  - intros b Ib. keeps.
  - intros b b' Ib Ib' Sb. apply osim_mfold; [|exact Sb]. intros j s s' Hj Ss. apply osim_mfold; [|exact Ss].
    intros i t t' Hi St. apply osim_same. intros cs Ecs. apply osim_same. intros c0 E0. apply osim_same. intros c1 E1. u32s.
    apply (osim_bind (picks ks)); [apply get_pixel_sim; auto; lia|]. intros px px' _ _ Hp. apply set_pixel_sim; auto; apply u32_range.
Qed.

Theorem C92_rotate p lm degrees : channelwise (fun img : image f32 => rotate p lm img degrees).
Proof.
  intros ks img img' out H E W. cbv beta in *. unfold rotate, rotate_by in *. rewrite (sl_w _ _ _ H), (sl_h _ _ _ H). cbv zeta in *.
  repeat (let v := fresh "v" in let Ev := fresh "Ev" in
          match type of E with bind (blank _ _ _) _ = _ => fail 1 | _ => apply bind_inv in E as (v & Ev & E); rewrite Ev; cbn [bind] end).
  revert E W. apply (fill_channelwise p num_f32 ks img img'); auto.
  - intros b Ib. keeps.
  - intros b Ib. keeps.
  - intros b b' Ib Ib' Sb. apply osim_mfold; [|exact Sb]. intros j s s' Hj Ss. apply osim_mfold; [|exact Ss].
    intros i t t' Hi St. apply osim_same. intros cs Ecs. apply osim_same. intros c0 E0. apply osim_same. intros c1 E1. u32s.
    apply (osim_bind (picks ks)); [apply get_pixel_sim; auto; lia|]. intros px px' _ _ Hp.
    apply (osim_bind (selection ks)); [apply set_pixel_sim; auto; apply u32_range|]. intros u u' _ _ Su.
    destruct (f32_geb _ _); [|apply osim_ret; exact Su].
    apply osim_same. intros cm Em. u32s. apply set_pixel_sim; auto; try lia; apply u32_range.
Qed.

Theorem C92_crop_par p sched {T} x y w h : 0 <= w -> 0 <= h -> channelwise (fun img : image T => crop_par p sched img x y w h).
Proof.
  intros Hw0 Hh0 ks img img' out H E W. cbv beta in *. unfold crop_par in *.
  apply bind_inv in E as ([] & Ec & E).
  assert (Ec' : crop_check p img' x y w h = Ret tt) by (unfold crop_check in *; rewrite (sl_w _ _ _ H), (sl_h _ _ _ H); exact Ec).
  rewrite Ec'. cbn [bind]. pose proof (sl_wf _ _ _ H) as Hwf.
  assert (Io : info_of out = Info w h (channels (info_of img)) (alpha (info_of img))).
  { apply bind_inv in E as (? & _ & E). apply bind_inv in E as (? & _ & E). unfold from_vec_of_slice in E.
    apply bind_inv in E as (? & _ & E). apply bind_inv in E as (? & _ & E). injection E as <-. reflexivity. }
  pose proof (wf_info_ok out W) as Hok. rewrite Io in Hok. destruct Hok as (O1 & O2 & O3 & O4 & O5). cbn [width height channels] in *.
  revert E W. apply (collect_channelwise p sched ks img img' out (Info w h (channels (info_of img)) (alpha (info_of img))) (Info w h (channels (info_of img')) (alpha (info_of img')))); auto.
  - intros k Hk. apply returns_bind. intros [u v] _. apply returns_bind. intros u2 _. apply returns_bind. intros v2 _.
    apply safe_returns. apply safe_get_pixel; apply Hwf.
  - intros k Hk. cbn [width height] in Hk. apply (coords_sim p ks (Info w h 1 false) (fun a b => let! ax := iadd p U32 a x in let! by_ := iadd p U32 b y in get_pixel p img ax by_)
      (fun a b => let! ax := iadd p U32 a x in let! by_ := iadd p U32 b y in get_pixel p img' ax by_)); cbn [width height]; try lia.
    intros u v Hu Hv. apply osim_same. intros u2 E2. apply osim_same. intros v2 E3. u32s. apply get_pixel_sim; auto; lia.
Qed.

(** ** scaling *)
Section Interp.
  Context (p : profile) (lm : libm) (ks : list nat) (img img' : image f32) (H : selection ks img img').
  Lemma ch_range : 0 <= channels (info_of img) <= 255.
  Proof using H. apply (sl_wf _ _ _ H). Qed.

  Lemma mix_sim (g : f32 -> f32 -> f32 -> f32 -> f32) p1 p2 p3 p4 q1 q2 q3 q4 :
    len p1 = channels (info_of img) -> len p2 = channels (info_of img) -> len p3 = channels (info_of img) -> len p4 = channels (info_of img) ->
    picks ks p1 q1 -> picks ks p2 q2 -> picks ks p3 q3 -> picks ks p4 q4 ->
    osim (picks ks)
      (mmap (fun c => let! a1 := vget p1 c in let! a2 := vget p2 c in let! a3 := vget p3 c in let! a4 := vget p4 c in Ret (g a1 a2 a3 a4)) (zrange 0 (channels (info_of img))))
      (mmap (fun c => let! a1 := vget q1 c in let! a2 := vget q2 c in let! a3 := vget q3 c in let! a4 := vget q4 c in Ret (g a1 a2 a3 a4)) (zrange 0 (channels (info_of img')))).
  Proof using H.
    intros L1 L2 L3 L4 P1 P2 P3 P4.
    assert (G : forall c r1 r2 r3 r4, len r1 = c -> len r2 = c -> len r3 = c -> len r4 = c ->
      mmap (fun c => let! a1 := vget r1 c in let! a2 := vget r2 c in let! a3 := vget r3 c in let! a4 := vget r4 c in Ret (g a1 a2 a3 a4)) (zrange 0 c)
      = Ret (map (fun c => let at_ r := nth (Z.to_nat c) r f32_0 in g (at_ r1) (at_ r2) (at_ r3) (at_ r4)) (zrange 0 c))).
    { intros c r1 r2 r3 r4 E1 E2 E3 E4. apply mmap_Ret. intros j Hj. apply in_zrange in Hj.
      rewrite (vget_ok r1 j f32_0), (vget_ok r2 j f32_0), (vget_ok r3 j f32_0), (vget_ok r4 j f32_0) by lia. reflexivity. }
    rewrite (sl_c _ _ _ H). rewrite !G by (try assumption; eapply picks_len; eassumption). apply osim_ret.
    apply picks_zrange; [apply (sl_ks _ _ _ H)|]. intros j k Ek. cbv zeta. rewrite !Nat2Z.id.
    f_equal; apply nth_error_nth'_eq; eapply picks_nth; eassumption.
  Qed.

  Lemma resample_sim rng x y w : osim (picks ks) (resample p img rng x y w) (resample p img' rng x y w).
  Proof using H.
    unfold resample. pose proof ch_range as Hc. rewrite (sl_w _ _ _ H), (sl_h _ _ _ H), (sl_c _ _ _ H). cbv zeta.
    assert (S : osim (fun o o' => len o = channels (info_of img) /\ picks ks o o') (resample p img rng x y w) (resample p img' rng x y w)).
    { unfold resample. rewrite (sl_w _ _ _ H), (sl_h _ _ _ H), (sl_c _ _ _ H). cbv zeta.
      apply osim_mfold.
      - intros m s s' _ Ss. apply osim_same. intros xc _. apply osim_mfold; [|exact Ss]. intros n t t' _ [Lt Pt].
        apply osim_same. intros yc _. apply (osim_bind (picks ks)); [apply get_pixel_unchecked_sim; exact H|].
        intros px px' Epx _ Pp. apply (each_sample_sim ks (channels (info_of img)) (fun v o => f32_add o (f32_mul v (w m n))) _ _ _ _ f32_0); auto; [apply (sl_ks _ _ _ H)|].
        pose proof (safe_get_pixel_unchecked p img (f32_to_int U32 xc) (f32_to_int U32 yc) ltac:(lia) ltac:(lia)) as S. rewrite Epx in S. exact S.
      - rewrite len_repeat. split; [lia|]. unfold len. rewrite Nat2Z.id. apply picks_repeat.
        eapply Forall_impl; [|apply (sl_ks _ _ _ H)]. cbv beta. intros; lia. }
    intros o Eo. unfold resample in S. rewrite (sl_w _ _ _ H), (sl_h _ _ _ H), (sl_c _ _ _ H) in S. cbv zeta in S. destruct (S o Eo) as (o' & E' & _ & P'). exists o'. auto.
  Qed.

  Lemma lanczos_sim xf yf sz x y : osim (picks ks) (interpolate_lanczos p lm img xf yf sz x y) (interpolate_lanczos p lm img' xf yf sz x y).
  Proof using H. unfold interpolate_lanczos. cbv zeta. apply osim_same. intros a _. apply osim_same. intros b _. apply resample_sim. Qed.

  Lemma interp_sim m xf yf x y : 0 <= x -> 0 <= y -> osim (picks ks) (scale_interp p lm m img xf yf x y) (scale_interp p lm m img' xf yf x y).
  Proof using H.
    intros Hx Hy. pose proof ch_range as Hc. destruct m; cbn [scale_interp].
    - unfold interpolate_nearest_neighbor. cbv zeta. apply osim_same. intros x1 _. apply osim_same. intros y1 _. apply get_pixel_sim; auto; apply u32_range.
    - unfold interpolate_bilinear. cbv zeta. rewrite (sl_w _ _ _ H), (sl_h _ _ _ H). apply osim_same. intros wm Ew. apply osim_same. intros hm Eh. u32s.
      assert (N : forall a b, 0 <= b <= u32_max -> 0 <= Z.min (f32_to_int U32 a) b) by (intros a b0 Hb; pose proof (u32_range a); lia).
      assert (G : forall a b, 0 <= a -> 0 <= b -> osim (fun px px' => len px = channels (info_of img) /\ picks ks px px') (get_pixel p img a b) (get_pixel p img' a b)).
      { intros a b0 Ha Hb px Epx. destruct (get_pixel_sim p ks img img' a b0 H Ha Hb px Epx) as (px' & E' & P'). exists px'. conj; auto.
        pose proof (safe_get_pixel p img a b0 ltac:(lia) ltac:(lia)) as S. rewrite Epx in S. exact S. }
      do 4 (eapply osim_bind; [apply G; solve [apply u32_range|apply N; assumption]|]; intros ? ? _ _ [? ?]).
      apply (mix_sim (fun a1 a2 a3 a4 => bilinear_mix a1 a2 a3 a4 _ _)); assumption.
    - apply resample_sim.
    - apply lanczos_sim.
  Qed.
  Lemma interp_len m xf yf x y : returns (fun px => len px = channels (info_of img)) (scale_interp p lm m img xf yf x y).
  Proof using H. pose proof ch_range. apply safe_returns. apply safe_interp; lia. Qed.
End Interp.

Lemma scale_loop_channelwise p ks (img img' out : image f32) xf yf (f f' : Z -> Z -> outcome (list f32)) : selection ks img img' ->
  (forall x y, 0 <= x -> 0 <= y -> osim (picks ks) (f x y) (f' x y)) ->
  (let! b := blank p num_f32 (scale_info img xf yf) in scale_loop_seq p f b) = Ret out -> wf out ->
  exists out', (let! b := blank p num_f32 (scale_info img' xf yf) in scale_loop_seq p f' b) = Ret out' /\ selection ks out out' /\ alpha (info_of out') = alpha (info_of img').
Proof.
  intros H L. apply (fill_channelwise p num_f32 ks img img'); auto; try (unfold scale_info; cbn [width height channels alpha]; rewrite ?(sl_w _ _ _ H), ?(sl_h _ _ _ H); reflexivity).
  - intros b Ib. unfold scale_loop_seq. keeps.
  - intros b Ib. unfold scale_loop_seq. keeps.
  - intros b b' Ib Ib' Sb. unfold scale_loop_seq. rewrite (sl_w _ _ _ Sb), (sl_h _ _ _ Sb).
    apply osim_mfold; [|exact Sb]. intros j s s' Hj Ss. apply osim_mfold; [|exact Ss]. intros i t t' Hi St. u32s.
    apply (osim_bind (picks ks)); [apply L; lia|]. intros px px' _ _ Hp. apply set_pixel_sim; auto; lia.
Qed.

Theorem C92_scale p lm m xf yf : channelwise (fun img : image f32 => scale_seq p lm img xf yf m).
Proof.
  intros ks img img' out H E W. cbv beta in *. unfold scale_seq in *.
  apply bind_inv in E as ([] & E1 & E). apply bind_inv in E as ([] & E2 & E). rewrite E1, E2. cbn [bind].
  revert E W. apply scale_loop_channelwise; auto. intros x y Hx Hy. apply interp_sim; auto.
Qed.
Theorem C92_scale_lanczos p lm sz xf yf : channelwise (fun img : image f32 => scale_lanczos_seq p lm img xf yf sz).
Proof.
  intros ks img img' out H E W. cbv beta in *. unfold scale_lanczos_seq in *.
  apply bind_inv in E as ([] & E1 & E). apply bind_inv in E as ([] & E2 & E). apply bind_inv in E as ([] & E3 & E). rewrite E1, E2, E3. cbn [bind].
  revert E W. apply scale_loop_channelwise; auto. intros x y Hx Hy. apply lanczos_sim; auto.
Qed.

Lemma scale_par_channelwise p sched ks (img img' out : image f32) xf yf (f f' : Z -> Z -> outcome (list f32)) : selection ks img img' ->
  (forall x y, returns (fun px => len px = channels (info_of img)) (f x y)) ->
  (forall x y, 0 <= x -> 0 <= y -> osim (picks ks) (f x y) (f' x y)) ->
  scale_loop_par p sched f (scale_info img xf yf) = Ret out -> wf out ->
  exists out', scale_loop_par p sched f' (scale_info img' xf yf) = Ret out' /\ selection ks out out' /\ alpha (info_of out') = alpha (info_of img').
Proof.
  intros H K L E W. unfold scale_loop_par, size in *.
  assert (Ew : width (scale_info img' xf yf) = width (scale_info img xf yf)) by (unfold scale_info; cbn [width]; rewrite (sl_w _ _ _ H); reflexivity).
  assert (Eh : height (scale_info img' xf yf) = height (scale_info img xf yf)) by (unfold scale_info; cbn [height]; rewrite (sl_h _ _ _ H); reflexivity).
  assert (Io : info_of out = scale_info img xf yf).
  { apply bind_inv in E as (? & _ & E). apply bind_inv in E as (? & _ & E). unfold from_vec_of_vec in E.
    apply bind_inv in E as (? & _ & E). apply bind_inv in E as (? & _ & E). injection E as <-. reflexivity. }
  pose proof (wf_info_ok out W) as Hok. rewrite Io in Hok. destruct Hok as (O1 & O2 & O3 & O4 & O5).
  revert E W. apply (collect_channelwise p sched ks img img'); auto.
  - intros k Hk. apply returns_bind. intros [u v] _. apply K.
  - intros k Hk. rewrite Ew. apply coords_sim; auto; lia.
Qed.
Theorem C92_scale_par p sched lm m xf yf : channelwise (fun img : image f32 => scale_par p lm sched img xf yf m).
Proof.
  intros ks img img' out H E W. cbv beta in *. unfold scale_par in *.
  apply bind_inv in E as ([] & E1 & E). apply bind_inv in E as ([] & E2 & E). rewrite E1, E2. cbn [bind].
  revert E W. apply scale_par_channelwise; auto.
  - intros x y. apply (interp_len p lm ks img img' H).
  - intros x y Hx Hy. apply interp_sim; auto.
Qed.
Theorem C92_scale_lanczos_par p sched lm sz xf yf : channelwise (fun img : image f32 => scale_lanczos_par p lm sched img xf yf sz).
Proof.
  intros ks img img' out H E W. cbv beta in *. unfold scale_lanczos_par in *.
  apply bind_inv in E as ([] & E1 & E). apply bind_inv in E as ([] & E2 & E). apply bind_inv in E as ([] & E3 & E). rewrite E1, E2, E3. cbn [bind].
  revert E W. apply scale_par_channelwise; auto.
  - intros x y. pose proof (ch_range ks img img' H). apply safe_returns. apply safe_lanczos; lia.
  - intros x y Hx Hy. apply lanczos_sim; auto.
Qed.
