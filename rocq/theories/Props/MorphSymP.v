(** * C86: morphology treats all directions alike, looks no further than its radius, and is self-dual away from the border *)
From Verif.Model Require Import Morph Transform.
From Verif.Spec Require Import ImageS SumS MorphS.
From Verif.Proofs Require Import BaseL ImageL ImageOps ToneL FloatL SumL Safe MorphL TransformL.
From Verif.Props Require Import UtilP MorphP MorphLawP TransformP.
From Verif.Spec Require Import MorphS.
Open Scope Z_scope.

(** what each of the six operators shows *)
Definition shows_of (op : image Z -> Z -> outcome (image Z)) (Q : image Z -> Z -> Z -> Z -> Prop) : Prop :=
  forall (a : image Z) r, morph_ok a r ->
    exists o, op a r = Ret o /\ wf o /\ info_of o = info_of a /\ binary o /\ forall x y, white o x y <-> Q a r x y.
Definition q_dil (a : image Z) r x y := inside a x y /\ dilated_actual a r x y.
Definition q_open (a : image Z) r x y := exists x' y', near r x y x' y' /\ eroded a r x' y'.
Definition q_close (a : image Z) r x y := forall x' y', near r x y x' y' -> q_dil a r x' y'.
Definition q_grad (a : image Z) r x y := q_dil a r x y /\ ~ eroded a r x y.
Definition q_all : list (image Z -> Z -> Z -> Z -> Prop) := [eroded; q_dil; q_dil; q_open; q_close; q_grad].

Lemma shows_grad p : shows_of (gradient p) q_grad.
Proof.
  intros a r H. destruct (morph_sums a r H) as [G S]. destruct (erode_shows p a r H) as (e & Ee & We & Ie & Be & Pe).
  destruct (dilate_shows p a r H) as (d & Ed & Wd & Id & Bd & Pd). destruct H as (W & B & Sz & R & Rh & M).
  destruct (C37_gradient p a r W B S M R Rh) as (d' & e' & g & Ed' & Ee' & Eg & Wg & Ig & Bg & Pg).
  replace d' with d in * by congruence. replace e' with e in * by congruence.
  exists g. conj; auto. intros x y. unfold q_grad, q_dil. rewrite <- Pd, <- Pe. split; intros Hw.
  - apply Pg; [|exact Hw]. destruct Hw as [Hi _]. unfold inside in *. rewrite <- Ig. exact Hi.
  - apply Pg; [|exact Hw]. destruct Hw as [[Hi _] _]. unfold inside in *. rewrite <- Id. exact Hi.
Qed.
Lemma shows_close p : shows_of (morph_close p) q_close.
Proof.
  intros a r H. destruct (dilate_shows p a r H) as (d & Ed & Wd & Id & Bd & Pd).
  destruct (erode_shows p d r (morph_ok_same a d r H Wd Bd Id)) as (c & Ec & Wc & Ic & Bc & Pc).
  exists c. unfold morph_close. rewrite Ed, bind_Ret. conj; auto; [congruence|].
  intros x y. rewrite Pc. unfold eroded, q_close, q_dil. split; intros Hq x' y' Hn; apply Pd, Hq, Hn.
Qed.
Lemma shows_all p op : In op (morph_ops p) -> exists Q, In Q q_all /\ shows_of op Q.
Proof.
  unfold morph_ops, q_all. intros [<-|[<-|[<-|[<-|[<-|[<-|[]]]]]]].
  - exists eroded. split; [cbn; tauto|]. exact (erode_shows p).
  - exists q_dil. split; [cbn; tauto|]. exact (dilate_shows p).
  - exists q_dil. split; [cbn; tauto|]. exact (dilate_shows p).
  - exists q_open. split; [cbn; tauto|]. exact (C69_open_is_opening p).
  - exists q_close. split; [cbn; tauto|]. exact (shows_close p).
  - exists q_grad. split; [cbn; tauto|]. exact (shows_grad p).
Qed.

(** ** symmetries: involutions of the plane that keep distances and windows *)
Section Sym.
  Context (a b : image Z) (r : Z) (sx sy : Z -> Z -> Z).
  Context (inv : forall x y, sx (sx x y) (sy x y) = x /\ sy (sx x y) (sy x y) = y).
  Context (dist : forall x y x' y', near r x y x' y' -> near r (sx x y) (sy x y) (sx x' y') (sy x' y')).
  Let wina (x y x' y' : Z) := reach (width (info_of a)) r x x' /\ reach (height (info_of a)) r y y'.
  Let winb (x y x' y' : Z) := reach (width (info_of b)) r x x' /\ reach (height (info_of b)) r y y'.
  Context (wdw : forall x y x' y', winb x y x' y' <-> wina (sx x y) (sy x y) (sx x' y') (sy x' y')).
  Context (ins : forall x y, inside b x y <-> inside a (sx x y) (sy x y)).
  Context (col : forall x y, white b x y <-> white a (sx x y) (sy x y)).

  Lemma dist' x y x' y' : near r (sx x y) (sy x y) x' y' -> near r x y (sx x' y') (sy x' y').
  Proof using inv dist. intros H. apply dist in H. destruct (inv x y) as [E1 E2]. rewrite E1, E2 in H. exact H. Qed.
  Lemma col' x y : white b (sx x y) (sy x y) <-> white a x y.
  Proof using inv col. pose proof (col (sx x y) (sy x y)) as H. destruct (inv x y) as [E1 E2]. rewrite E1, E2 in H. exact H. Qed.
  Lemma wdw' x y x' y' : wina (sx x y) (sy x y) x' y' <-> winb x y (sx x' y') (sy x' y').
  Proof using inv wdw. pose proof (wdw x y (sx x' y') (sy x' y')) as H. destruct (inv x' y') as [E1 E2]. rewrite E1, E2 in H. symmetry. exact H. Qed.
  Lemma sym_eroded x y : eroded b r x y <-> eroded a r (sx x y) (sy x y).
  Proof using inv dist col.
    split; intros H x' y' Hn.
    - apply col'. apply H. apply dist'. exact Hn.
    - apply col. apply H. apply dist. exact Hn.
  Qed.
  Lemma eroded' x y : eroded b r (sx x y) (sy x y) <-> eroded a r x y.
  Proof using inv dist col. pose proof (sym_eroded (sx x y) (sy x y)) as H. destruct (inv x y) as [E1 E2]. rewrite E1, E2 in H. exact H. Qed.
  Lemma sym_dil x y : q_dil b r x y <-> q_dil a r (sx x y) (sy x y).
  Proof using inv wdw ins col.
    unfold q_dil, dilated_actual. rewrite ins. split; intros [Hi (x' & y' & H1 & H2 & H3)]; (split; [exact Hi|]).
    - exists (sx x' y'), (sy x' y'). rewrite <- and_assoc. split; [apply wdw; split; assumption|apply col; exact H3].
    - exists (sx x' y'), (sy x' y'). rewrite <- and_assoc. split; [|apply col'; exact H3]. apply wdw'. split; assumption.
  Qed.
  Lemma dil' x y : q_dil b r (sx x y) (sy x y) <-> q_dil a r x y.
  Proof using inv wdw ins col. pose proof (sym_dil (sx x y) (sy x y)) as H. destruct (inv x y) as [E1 E2]. rewrite E1, E2 in H. exact H. Qed.
  Lemma sym_all Q x y : In Q q_all -> (Q b r x y <-> Q a r (sx x y) (sy x y)).
  Proof using inv dist wdw ins col.
    unfold q_all. intros [<-|[<-|[<-|[<-|[<-|[<-|[]]]]]]].
    - apply sym_eroded.
    - apply sym_dil.
    - apply sym_dil.
    - unfold q_open. split; intros (x' & y' & Hn & He); exists (sx x' y'), (sy x' y').
      + split; [apply dist; exact Hn|apply sym_eroded; exact He].
      + split; [apply dist'; exact Hn|apply eroded'; exact He].
    - unfold q_close. split; intros H x' y' Hn.
      + apply dil'. apply H. apply dist'. exact Hn.
      + apply sym_dil. apply H. apply dist. exact Hn.
    - unfold q_grad. rewrite sym_dil, sym_eroded. tauto.
  Qed.
End Sym.

Lemma reach_mirror w r x x' : reach w r x x' <-> reach w r (w - 1 - x) (w - 1 - x').
Proof. split; intros H; reaches. Qed.
(** ** left and right, up and down *)
Theorem C86_mirror p op (a : image Z) r axis : In op (morph_ops p) -> morph_ok a r ->
  exists mirrored out result, reflect_image p num_u8 a axis = Ret mirrored /\ op a r = Ret out
    /\ op mirrored r = Ret result /\ reflect_image p num_u8 out axis = Ret result.
Proof.
  intros Hop H. destruct (shows_all p op Hop) as (Q & HQ & S). destruct (S a r H) as (out & E & Wo & Io & Bo & Po).
  pose proof H as (W & B & Sz & R & Rh & M).
  destruct (C21_reflect p num_u8 a axis W) as (m & Em & Wm & Im & Pm). destruct (C21_reflect p num_u8 out axis Wo) as (res & Er & Wr & Ir & Pr).
  assert (Bm : forall c d : image Z, wf c -> wf d -> binary c -> info_of d = info_of c ->
     (forall x y, inside c x y -> pixel_at d x y = match axis with Vertical => pixel_at c (width (info_of c) - 1 - x) y | Horizontal => pixel_at c x (height (info_of c) - 1 - y) end) -> binary d).
  { intros c d Wc Wd (Ha & HC & Hs) I P. split; [rewrite I; exact Ha|]. split; [rewrite I; exact HC|]. apply samples_pixels; [exact Wd|].
    intros x y Hi. unfold inside in Hi. rewrite I in Hi. rewrite P by exact Hi. destruct axis; apply pixels_samples; exact Hs. }
  pose proof (Bm a m W Wm B Im Pm) as Bm'. pose proof (Bm out res Wo Wr Bo Ir Pr) as Br.
  destruct (S m r (morph_ok_same a m r H Wm Bm' Im)) as (res' & Er' & Wr' & Ir' & Br' & Pr').
  exists m, out, res'. conj; auto. rewrite Er. f_equal. apply binary_ext; auto; [congruence|].
  pose (sx := fun x (y : Z) => match axis with Vertical => width (info_of a) - 1 - x | Horizontal => x end).
  pose (sy := fun (x : Z) y => match axis with Vertical => y | Horizontal => height (info_of a) - 1 - y end).
  assert (Wh : forall c d : image Z, info_of d = info_of c -> info_of c = info_of a ->
     (forall x y, inside c x y -> pixel_at d x y = match axis with Vertical => pixel_at c (width (info_of c) - 1 - x) y | Horizontal => pixel_at c x (height (info_of c) - 1 - y) end) ->
     forall x y, white d x y <-> white c (sx x y) (sy x y)).
  { intros c d I Ic P x y. unfold white, inside, sx, sy. rewrite I, Ic. destruct axis; (split; intros [Hi Hp]; (split; [lia|])).
    - rewrite <- Ic at 1. rewrite P in Hp by (unfold inside; rewrite Ic; lia). rewrite ?Ic in *. exact Hp.
    - rewrite P by (unfold inside; rewrite Ic; lia). rewrite ?Ic in *. exact Hp.
    - rewrite <- Ic at 1. rewrite P in Hp by (unfold inside; rewrite Ic; lia). rewrite ?Ic in *. exact Hp.
    - rewrite P by (unfold inside; rewrite Ic; lia). rewrite ?Ic in *. exact Hp. }
  intros x y _. rewrite (Wh out res Ir Io Pr x y), Po, Pr'. symmetry. apply (sym_all a m r sx sy); auto.
  - intros x0 y0. unfold sx, sy. destruct axis; split; lia.
  - intros x0 y0 x1 y1. unfold near, sx, sy. destruct axis; lia.
  - intros x0 y0 x1 y1. rewrite Im. unfold sx, sy. destruct axis; rewrite <- reach_mirror; reflexivity.
  - intros x0 y0. unfold inside, sx, sy. rewrite Im. destruct axis; lia.
Qed.

(** ** rows and columns *)
Definition transposed (a b : image Z) : Prop :=
  info_of b = Info (height (info_of a)) (width (info_of a)) (channels (info_of a)) (alpha (info_of a))
  /\ forall x y, inside a x y -> pixel_at b y x = pixel_at a x y.
Lemma transposed_white a b : transposed a b -> forall x y, white b x y <-> white a y x.
Proof.
  intros [I P] x y. unfold white, inside. rewrite I. cbn [width height]. split; intros [Hi Hp]; (split; [lia|]).
  - rewrite P in Hp by (unfold inside; lia). exact Hp.
  - rewrite P by (unfold inside; lia). exact Hp.
Qed.
(** the shade of a pixel of a binary image is settled by [white] *)
Lemma binary_pixel (a b : image Z) x y x' y' : wf a -> binary a -> wf b -> binary b -> inside a x y -> inside b x' y' ->
  (white a x y <-> white b x' y') -> pixel_at a x y = pixel_at b x' y'.
Proof.
  intros Wa Ba Wb Bb Ha Hb H. pose proof (binary_gray a Wa Ba) as Ga. pose proof (binary_gray b Wb Bb) as Gb.
  rewrite (gray_white a x y Ga Ha), (gray_white b x' y' Gb Hb) in H.
  destruct (gray_pixel a x y Ga Ha) as [Ea _]. destruct (gray_pixel b x' y' Gb Hb) as [Eb _].
  assert (D : forall (c : image Z) u v, gray c -> binary c -> inside c u v -> sample_at c u v 0 = 0 \/ sample_at c u v 0 = 255).
  { intros c u v Gc (_ & _ & Hs) Hi. destruct (gray_pixel c u v Gc Hi) as [E _].
    pose proof (pixels_samples _ c u v Hs) as F. rewrite E in F. exact (Forall_inv F). }
  destruct (D a x y Ga Ba Ha), (D b x' y' Gb Bb Hb); rewrite Ea, Eb; f_equal; lia.
Qed.
Theorem C86_transpose p op (a b : image Z) r : In op (morph_ops p) -> morph_ok a r -> morph_ok b r -> transposed a b ->
  exists out out', op a r = Ret out /\ op b r = Ret out' /\ transposed out out'.
Proof.
  intros Hop Ha Hb T. destruct (shows_all p op Hop) as (Q & HQ & S).
  destruct (S a r Ha) as (out & E & Wo & Io & Bo & Po). destruct (S b r Hb) as (out' & E' & Wo' & Io' & Bo' & Po').
  exists out, out'. conj; auto. pose proof (transposed_white a b T) as Tw. destruct T as [Tb _].
  split; [rewrite Io', Io; exact Tb|]. intros x y Hin.
  assert (Hin' : inside out' y x) by (unfold inside in *; rewrite Io', Tb; rewrite Io in Hin; cbn [width height]; lia).
  apply binary_pixel; auto. rewrite Po, Po'. apply (sym_all a b r (fun _ y => y) (fun x _ => x)); auto.
  - intros x0 y0 x1 y1. unfold near. lia.
  - intros x0 y0 x1 y1. rewrite Tb. cbn [width height]. tauto.
  - intros x0 y0. unfold inside. rewrite Tb. cbn [width height]. lia.
Qed.

(** ** no pixel depends on anything further away than the radius (twice the radius for open and close) *)
Definition morph_reach (p : profile) : list ((image Z -> Z -> outcome (image Z)) * Z) :=
  [(erode p, 1); (dilate p, 1); (majority p, 1); (morph_open p, 2); (morph_close p, 2); (gradient p, 1)].
Definition q_reach : list ((image Z -> Z -> Z -> Z -> Prop) * Z) := [(eroded, 1); (q_dil, 1); (q_dil, 1); (q_open, 2); (q_close, 2); (q_grad, 1)].
Lemma shows_reach p op k : In (op, k) (morph_reach p) -> exists Q, In (Q, k) q_reach /\ shows_of op Q.
Proof.
  unfold morph_reach, q_reach. intros [H|[H|[H|[H|[H|[H|[]]]]]]]; injection H as <- <-.
  - exists eroded. split; [cbn; tauto|]. exact (erode_shows p).
  - exists q_dil. split; [cbn; tauto|]. exact (dilate_shows p).
  - exists q_dil. split; [cbn; tauto|]. exact (dilate_shows p).
  - exists q_open. split; [cbn; tauto|]. exact (C69_open_is_opening p).
  - exists q_close. split; [cbn; tauto|]. exact (shows_close p).
  - exists q_grad. split; [cbn; tauto|]. exact (shows_grad p).
Qed.
Section Local.
  Context (a c : image Z) (r x0 y0 : Z) (Hr : 0 <= r).
  Context (Hx0 : 0 <= x0) (Hy0 : 0 <= y0) (Hxw : x0 + width (info_of c) <= width (info_of a)) (Hyh : y0 + height (info_of c) <= height (info_of a)).
  Context (P : forall i j, inside c i j -> pixel_at c i j = pixel_at a (x0 + i) (y0 + j)).
  (** at least d away from the border of c *)
  Definition deep (d i j : Z) : Prop := d <= i < width (info_of c) - d /\ d <= j < height (info_of c) - d.
  Lemma deep_near d i j i' j' : near r i j i' j' -> deep (d + r) i j -> deep d i' j'.
  Proof using Hr. unfold near, deep. lia. Qed.
  Lemma loc_white i j : deep 0 i j -> (white c i j <-> white a (x0 + i) (y0 + j)).
  Proof using Hx0 Hy0 Hxw Hyh P.
    intros D. assert (Hi : inside c i j) by (unfold deep, inside in *; lia). unfold white. rewrite (P i j Hi).
    split; intros [_ H]; (split; [|exact H]); [|exact Hi]. unfold deep, inside in *. lia.
  Qed.
  Lemma loc_eroded i j : deep r i j -> (eroded c r i j <-> eroded a r (x0 + i) (y0 + j)).
  Proof using Hx0 Hy0 Hxw Hyh P Hr.
    intros D. split; intros H x' y' Hn.
    - replace x' with (x0 + (x' - x0)) by lia. replace y' with (y0 + (y' - y0)) by lia. assert (N : near r i j (x' - x0) (y' - y0)) by (unfold near in *; lia).
      apply loc_white; [|apply H; exact N]. apply (deep_near 0 i j); [exact N|]. exact D.
    - apply loc_white; [apply (deep_near 0 i j); [exact Hn|exact D]|]. apply H. unfold near in *. lia.
  Qed.
  Lemma loc_dil i j : deep r i j -> (q_dil c r i j <-> q_dil a r (x0 + i) (y0 + j)).
  Proof using Hx0 Hy0 Hxw Hyh P Hr.
    intros D. unfold q_dil, dilated_actual.
    assert (I : inside c i j /\ inside a (x0 + i) (y0 + j)) by (unfold deep, inside in *; lia).
    assert (Rc : forall x' y', reach (width (info_of c)) r i x' /\ reach (height (info_of c)) r j y' <-> near r i j x' y').
    { intros x' y'. unfold deep, near in *. split; [intros [H1 H2]|intros [H1 H2]; split]; [split| |]; reaches. }
    assert (Ra : forall x' y', reach (width (info_of a)) r (x0 + i) x' /\ reach (height (info_of a)) r (y0 + j) y' <-> near r (x0 + i) (y0 + j) x' y').
    { intros x' y'. unfold deep, near in *. split; [intros [H1 H2]|intros [H1 H2]; split]; [split| |]; reaches. }
    split; intros [_ (x' & y' & H1 & H2 & H3)].
    - split; [apply I|]. assert (N : near r i j x' y') by (apply Rc; split; assumption). exists (x0 + x'), (y0 + y'). rewrite <- and_assoc, Ra. split; [unfold near in *; lia|].
      apply loc_white; [|exact H3]. apply (deep_near 0 i j); [exact N|exact D].
    - split; [apply I|]. assert (N : near r (x0 + i) (y0 + j) x' y') by (apply Ra; split; assumption). exists (x' - x0), (y' - y0). rewrite <- and_assoc, Rc.
      assert (N' : near r i j (x' - x0) (y' - y0)) by (unfold near in *; lia). split; [exact N'|].
      apply loc_white; [apply (deep_near 0 i j); [exact N'|exact D]|]. replace (x0 + (x' - x0)) with x' by lia. replace (y0 + (y' - y0)) with y' by lia. exact H3.
  Qed.
  Lemma loc_all Q k i j : In (Q, k) q_reach -> deep (k * r) i j -> (Q c r i j <-> Q a r (x0 + i) (y0 + j)).
  Proof using Hx0 Hy0 Hxw Hyh P Hr.
    unfold q_reach. intros [H|[H|[H|[H|[H|[H|[]]]]]]] D; injection H as <- <-.
    - rewrite Z.mul_1_l in D. apply loc_eroded; exact D.
    - rewrite Z.mul_1_l in D. apply loc_dil; exact D.
    - rewrite Z.mul_1_l in D. apply loc_dil; exact D.
    - replace (2 * r) with (r + r) in D by lia. unfold q_open. split; intros (x' & y' & Hn & He).
      + exists (x0 + x'), (y0 + y'). split; [unfold near in *; lia|]. apply loc_eroded; [|exact He]. apply (deep_near r i j); [exact Hn|exact D].
      + assert (N : near r i j (x' - x0) (y' - y0)) by (unfold near in *; lia). exists (x' - x0), (y' - y0). split; [exact N|].
        apply loc_eroded; [apply (deep_near r i j); [exact N|exact D]|]. replace (x0 + (x' - x0)) with x' by lia. replace (y0 + (y' - y0)) with y' by lia. exact He.
    - replace (2 * r) with (r + r) in D by lia. unfold q_close. split; intros H x' y' Hn.
      + replace x' with (x0 + (x' - x0)) by lia. replace y' with (y0 + (y' - y0)) by lia. assert (N : near r i j (x' - x0) (y' - y0)) by (unfold near in *; lia).
        apply loc_dil; [apply (deep_near r i j); [exact N|exact D]|]. apply H. exact N.
      + apply loc_dil; [apply (deep_near r i j); [exact Hn|exact D]|]. apply H. unfold near in *. lia.
    - rewrite Z.mul_1_l in D. unfold q_grad. rewrite loc_dil, loc_eroded by exact D. tauto.
  Qed.
End Local.
Theorem C86_local p op k (a : image Z) r x y w h : In (op, k) (morph_reach p) -> morph_ok a r ->
  0 <= x -> 0 <= y -> r <= w -> r <= h -> x + w < width (info_of a) -> y + h < height (info_of a) ->
  exists part out out', crop_seq p num_u8 a x y w h = Ret part /\ op a r = Ret out /\ op part r = Ret out'
    /\ forall i j, k * r <= i < w - k * r -> k * r <= j < h - k * r -> pixel_at out' i j = pixel_at out (x + i) (y + j).
Proof.
  intros Hop Ha Hx Hy Hw Hh Hxw Hyh. destruct (shows_reach p op k Hop) as (Q & HQ & S).
  destruct (S a r Ha) as (out & E & Wo & Io & Bo & Po). pose proof Ha as (W & B & Sz & R & Rh & M).
  destruct (crop_seq_ok p num_u8 a x y w h W) as (c & Ec & Wc & Ic & Pc); try lia.
  assert (Hc : morph_ok c r).
  { unfold morph_ok. rewrite Ic. cbn [width height]. conj; auto; try lia.
    - destruct B as (Ba & BC & Bs). split; [rewrite Ic; exact Ba|]. split; [rewrite Ic; exact BC|]. apply samples_pixels; [exact Wc|]. intros i j Hi. rewrite Pc by exact Hi. apply pixels_samples. exact Bs.
    - eapply Z.le_trans; [|exact Sz]. apply Z.mul_le_mono_nonneg; lia. }
  destruct (S c r Hc) as (out' & E' & Wo' & Io' & Bo' & Po'). exists c, out, out'. conj; auto. intros i j Hi Hj.
  assert (0 <= k) by (cbn in Hop; destruct Hop as [H|[H|[H|[H|[H|[H|[]]]]]]]; injection H as _ <-; lia). assert (0 <= k * r) by nia.
  apply binary_pixel; auto.
  - unfold inside. rewrite Io', Ic. cbn [width height]. lia.
  - unfold inside. rewrite Io. lia.
  - rewrite Po, Po'. apply (loc_all a c r x y) with (k := k); auto; try (rewrite Ic; cbn [width height]; lia); try lia.
    unfold deep. rewrite Ic. cbn [width height]. lia.
Qed.

(** ** black and white swapped *)
Definition negative (a b : image Z) : Prop :=
  info_of b = info_of a /\ forall x y, inside a x y -> pixel_at b x y = map (fun s => 255 - s) (pixel_at a x y).
Definition inner (a : image Z) (r x y : Z) : Prop := r <= x < width (info_of a) - r /\ r <= y < height (info_of a) - r.
Lemma negative_white a b : wf a -> binary a -> negative a b -> forall x y, inside a x y -> (white b x y <-> ~ white a x y).
Proof.
  intros W B [I P] x y Hi. pose proof (binary_gray a W B) as G. rewrite (gray_white a x y G Hi). unfold white, inside. rewrite I.
  destruct (gray_pixel a x y G Hi) as [E _]. rewrite (P x y Hi), E. cbn [map].
  pose proof B as (_ & _ & Hs). pose proof (pixels_samples _ a x y Hs) as F. rewrite E in F. pose proof (Forall_inv F) as D. cbv beta in D.
  split; [intros [_ H] H'; apply (f_equal (fun l => hd 0 l)) in H; cbn [hd] in H; lia|]. intros H. split; [exact Hi|]. f_equal. lia.
Qed.
(** in the interior: dilating the negative is the negative of eroding, and vice versa; the gradients agree *)
Theorem C86_duality p (a b : image Z) r : morph_ok a r -> morph_ok b r -> negative a b ->
  exists ea eb da db ga gb, erode p a r = Ret ea /\ erode p b r = Ret eb /\ dilate p a r = Ret da /\ dilate p b r = Ret db
    /\ gradient p a r = Ret ga /\ gradient p b r = Ret gb
    /\ forall x y, inner a r x y ->
         pixel_at db x y = map (fun s => 255 - s) (pixel_at ea x y) /\ pixel_at eb x y = map (fun s => 255 - s) (pixel_at da x y)
         /\ pixel_at ga x y = pixel_at gb x y.
Proof.
  intros Ha Hb N. destruct (erode_shows p a r Ha) as (ea & Eea & Wea & Iea & Bea & Pea). destruct (erode_shows p b r Hb) as (eb & Eeb & Web & Ieb & Beb & Peb).
  destruct (dilate_shows p a r Ha) as (da & Eda & Wda & Ida & Bda & Pda). destruct (dilate_shows p b r Hb) as (db & Edb & Wdb & Idb & Bdb & Pdb).
  destruct (shows_grad p a r Ha) as (ga & Ega & Wga & Iga & Bga & Pga). destruct (shows_grad p b r Hb) as (gb & Egb & Wgb & Igb & Bgb & Pgb).
  exists ea, eb, da, db, ga, gb. conj; auto. intros x y D. pose proof Ha as (W & B & Sz & R & Rh & M). pose proof (negative_white a b W B N) as Nw.
  destruct N as [Inf _].
  assert (Hi : inside a x y) by (unfold inner, inside in *; lia).
  assert (Wn : forall x' y', near r x y x' y' -> inside a x' y') by (intros x' y'; unfold near, inner, inside in *; lia).
  assert (Rr : forall (c : image Z) x' y', info_of c = info_of a -> (reach (width (info_of c)) r x x' /\ reach (height (info_of c)) r y y' <-> near r x y x' y')).
  { intros c x' y' ->. unfold inner, near in *. split; [intros [H1 H2]|intros [H1 H2]; split]; [split| |]; reaches. }
  assert (Dn : forall c : image Z, info_of c = info_of a -> (q_dil c r x y <-> exists x' y', near r x y x' y' /\ white c x' y')).
  { intros c Ic. unfold q_dil, dilated_actual. split.
    - intros [_ (x' & y' & H1 & H2 & H3)]. exists x', y'. split; [apply (Rr c); auto|exact H3].
    - intros (x' & y' & H1 & H3). split; [unfold inside; rewrite Ic; exact Hi|]. exists x', y'. rewrite <- and_assoc. split; [apply (Rr c); auto|exact H3]. }
  assert (Dec : forall c : image Z, (forall x' y', {white c x' y'} + {~ white c x' y'})).
  { intros c x' y'. unfold white, inside.
    destruct (Z_le_dec 0 x'), (Z_lt_dec x' (width (info_of c))), (Z_le_dec 0 y'), (Z_lt_dec y' (height (info_of c))), (list_eq_dec Z.eq_dec (pixel_at c x' y') [255]);
      (left; conj; assumption) || (right; intros [[[? ?] [? ?]] ?]; tauto). }
  (* the window holds a pixel that is not white, or all are white *)
  assert (Ex : forall c : image Z, (forall x' y', near r x y x' y' -> inside c x' y') -> ~ eroded c r x y -> exists x' y', near r x y x' y' /\ ~ white c x' y').
  { intros c Hc Hn.
    pose (l := list_prod (zrange (x - r) (x + r + 1)) (zrange (y - r) (y + r + 1))).
    destruct (forallb (fun q => if Dec c (fst q) (snd q) then true else false) l) eqn:F.
    - exfalso. apply Hn. intros x' y' Hne. rewrite forallb_forall in F. specialize (F (x', y')). cbn [fst snd] in F.
      destruct (Dec c x' y') as [Hw|]; [exact Hw|]. discriminate F. apply in_prod; apply in_zrange; unfold near in Hne; lia.
    - assert (exists q, In q l /\ (if Dec c (fst q) (snd q) then true else false) = false) as [[x' y'] [Hq Hd]].
      { clear - F. induction l as [|q l IH]; [discriminate|]. cbn in F. apply andb_false_iff in F as [F|F]; [exists q; split; [left; reflexivity|exact F]|].
        destruct (IH F) as [q' [? ?]]. exists q'. split; [right; assumption|assumption]. }
      cbn [fst snd] in Hd. destruct (Dec c x' y') as [|Hw]; [discriminate|]. exists x', y'. split; [|exact Hw].
      apply in_prod_iff in Hq as [H1 H2]. apply in_zrange in H1, H2. unfold near. lia. }
  assert (K1 : q_dil b r x y <-> ~ eroded a r x y).
  { rewrite (Dn b Inf). split.
    - intros (x' & y' & H1 & H2) He. apply Nw in H2; [|apply Wn; exact H1]. apply H2, He, H1.
    - intros Hn. destruct (Ex a Wn Hn) as (x' & y' & H1 & H2). exists x', y'. split; [exact H1|]. apply Nw; auto. }
  assert (K2 : eroded b r x y <-> ~ q_dil a r x y).
  { rewrite (Dn a eq_refl). split.
    - intros He (x' & y' & H1 & H2). pose proof (He x' y' H1) as Hw. apply Nw in Hw; auto.
    - intros Hn x' y' H1. apply Nw; [apply Wn; exact H1|]. intros Hw. apply Hn. exists x', y'. split; assumption. }
  assert (Neg : forall c d : image Z, wf c -> binary c -> wf d -> binary d -> inside c x y -> inside d x y -> (white d x y <-> ~ white c x y) -> pixel_at d x y = map (fun s => 255 - s) (pixel_at c x y)).
  { intros c d Wc Bc Wd Bd Hc Hd H. pose proof (binary_gray c Wc Bc) as Gc. pose proof (binary_gray d Wd Bd) as Gd.
    rewrite (gray_white c x y Gc Hc), (gray_white d x y Gd Hd) in H.
    destruct (gray_pixel c x y Gc Hc) as [Ec _]. destruct (gray_pixel d x y Gd Hd) as [Ed _].
    assert (Dv : forall e : image Z, gray e -> binary e -> inside e x y -> sample_at e x y 0 = 0 \/ sample_at e x y 0 = 255).
    { intros e Ge (_ & _ & Hs) He. destruct (gray_pixel e x y Ge He) as [E _]. pose proof (pixels_samples _ e x y Hs) as F. rewrite E in F. exact (Forall_inv F). }
    rewrite Ec, Ed. cbn [map]. destruct (Dv c Gc Bc Hc), (Dv d Gd Bd Hd); f_equal; lia. }
  assert (Ii : forall c : image Z, info_of c = info_of a -> inside c x y) by (intros c Ic; unfold inside; rewrite Ic; exact Hi).
  conj.
  - apply Neg; auto; try (apply Ii; congruence). rewrite Pdb, Pea. exact K1.
  - apply Neg; auto; try (apply Ii; congruence). rewrite Peb, Pda. exact K2.
  - apply binary_pixel; auto; try (apply Ii; congruence). rewrite Pga, Pgb. unfold q_grad. rewrite K1, K2. split; [|intros [H1 H2]].
    + intros [H1 H2]. tauto.
    + split; [|exact H1]. destruct (forallb (fun q => if Dec a (fst q) (snd q) then false else true) (list_prod (zrange (x - r) (x + r + 1)) (zrange (y - r) (y + r + 1)))) eqn:F.
      * exfalso. apply H2. rewrite (Dn a eq_refl). intros (x' & y' & H3 & H4). rewrite forallb_forall in F. specialize (F (x', y')). cbn [fst snd] in F.
        destruct (Dec a x' y') as [|Hw]; [|exact (Hw H4)]. discriminate F. apply in_prod; apply in_zrange; unfold near in H3; lia.
      * apply (Dn a eq_refl). assert (exists q, In q (list_prod (zrange (x - r) (x + r + 1)) (zrange (y - r) (y + r + 1))) /\ (if Dec a (fst q) (snd q) then false else true) = false) as [[x' y'] [Hq Hd]].
        { revert F. generalize (list_prod (zrange (x - r) (x + r + 1)) (zrange (y - r) (y + r + 1))). intros l F. clear - F. induction l as [|q l IH]; [discriminate|]. cbn in F. apply andb_false_iff in F as [F|F]; [exists q; split; [left; reflexivity|exact F]|].
          destruct (IH F) as [q' [? ?]]. exists q'. split; [right; assumption|assumption]. }
        cbn [fst snd] in Hd. destruct (Dec a x' y') as [Hw|]; [|discriminate]. exists x', y'. split; [|exact Hw].
        apply in_prod_iff in Hq as [H3 H4]. apply in_zrange in H3, H4. unfold near. lia.
Qed.

(** Expected: the same at every pixel. Actual: at the border erosion sees black outside and dilation sees nothing, so neither law holds there *)
Theorem C86_duality_border_refuted p : exists (a b ea db : image Z) x y, morph_ok a 1 /\ morph_ok b 1 /\ negative a b /\ inside a x y
  /\ erode p a 1 = Ret ea /\ dilate p b 1 = Ret db /\ pixel_at ea x y = [0] /\ pixel_at db x y = [0].
Proof.
  exists (Image (Info 3 3 1 false) (repeat 255 9)), (Image (Info 3 3 1 false) (repeat 0 9)),
    (Image (Info 3 3 1 false) [0; 0; 0; 0; 255; 0; 0; 0; 0]), (Image (Info 3 3 1 false) (repeat 0 9)), 0, 0.
  assert (K : forall v, v = 0 \/ v = 255 -> morph_ok (Image (Info 3 3 1 false) (repeat v 9)) 1).
  { intros v Hv. unfold morph_ok, mask_fits, u32_max. cbn [info_of width height]. conj; try lia; [apply wfb_wf; destruct Hv; subst; reflexivity|].
    unfold binary. cbn [info_of alpha channels]. conj; auto. apply Forall_forall. intros s Hs. cbn [data] in Hs. apply repeat_spec in Hs. subst. exact Hv. }
  split; [apply K; lia|]. split; [apply K; lia|].
  split; [|split; [split; cbn; lia|]; split; [destruct p; vm_compute; reflexivity|]; split; [destruct p; vm_compute; reflexivity|]; split; reflexivity].
  split; [reflexivity|]. intros x y [Hx Hy]. cbn [info_of width height] in *.
  assert (Ex : x = 0 \/ x = 1 \/ x = 2) by lia. assert (Ey : y = 0 \/ y = 1 \/ y = 2) by lia.
  destruct Ex as [->|[->| ->]]; destruct Ey as [->|[->| ->]]; reflexivity.
Qed.

(** the premises are met: an L-shaped pattern, mirrored, transposed, negated and cropped *)
Definition ell : image Z := Image (Info 5 5 1 false)
  [255; 255; 255; 0; 0;  255; 255; 255; 0; 0;  255; 255; 255; 255; 255;  255; 255; 255; 255; 255;  0; 0; 0; 255; 255].
Theorem C86_example p : morph_ok ell 1 /\ erode p ell 1 = Ret (Image (Info 5 5 1 false)
    [0; 0; 0; 0; 0;  0; 255; 0; 0; 0;  0; 255; 0; 0; 0;  0; 0; 0; 0; 0;  0; 0; 0; 0; 0])
  /\ exists mirrored out result, reflect_image p num_u8 ell Vertical = Ret mirrored /\ mirrored <> ell /\ erode p ell 1 = Ret out
    /\ erode p mirrored 1 = Ret result /\ reflect_image p num_u8 out Vertical = Ret result /\ result <> out.
Proof.
  assert (A : morph_ok ell 1).
  { unfold morph_ok, mask_fits, u32_max. cbn [info_of width height ell]. conj; try lia; [apply wfb_wf; reflexivity|apply ex_binary; reflexivity]. }
  split; [exact A|].
  assert (Z0 : erode p ell 1 = Ret (Image (Info 5 5 1 false) [0; 0; 0; 0; 0;  0; 255; 0; 0; 0;  0; 255; 0; 0; 0;  0; 0; 0; 0; 0;  0; 0; 0; 0; 0])) by (destruct p; vm_compute; reflexivity).
  split; [exact Z0|].
  destruct (C86_mirror p (erode p) ell 1 Vertical ltac:(left; reflexivity) A) as (m & o & res & E1 & E2 & E3 & E4).
  exists m, o, res. conj; auto.
  - intros ->. revert E1. destruct p; vm_compute; discriminate.
  - intros ->. rewrite Z0 in E2. injection E2 as <-. revert E4. destruct p; vm_compute; discriminate.
Qed.
