(** * C69: the algebra of src/morphology.rs *)
From Verif.Model Require Import Morph.
From Verif.Spec Require Import SumS MorphS.
From Verif.Proofs Require Import BaseL ImageL ImageOps FloatL SumL Safe MorphL.
From Verif.Props Require Import UtilP MorphP.
Open Scope Z_scope.

(** every white pixel of [a] is white in [b] *)
Definition below (a b : image Z) : Prop := forall x y, white a x y -> white b x y.
(** binary images of at most 32896 pixels (so that all sums are exact in f32), and radii that fit *)
Definition morph_ok (img : image Z) (r : Z) : Prop :=
  wf img /\ binary img /\ width (info_of img) * height (info_of img) <= 32896
  /\ 0 <= r <= width (info_of img) /\ r <= height (info_of img) /\ mask_fits r.

Lemma binary_ext (a b : image Z) : wf a -> wf b -> binary a -> binary b -> info_of a = info_of b ->
  (forall x y, inside a x y -> (white a x y <-> white b x y)) -> a = b.
Proof.
  intros Wa Wb Ba Bb I H. apply image_ext; auto. intros x y Hin.
  pose proof (binary_gray a Wa Ba) as Ga. pose proof (binary_gray b Wb Bb) as Gb.
  assert (Hin' : inside b x y) by (unfold inside in *; rewrite <- I; exact Hin).
  specialize (H x y Hin). rewrite (gray_white a x y Ga Hin), (gray_white b x y Gb Hin') in H.
  destruct (gray_pixel a x y Ga Hin) as [Ea _]. destruct (gray_pixel b x y Gb Hin') as [Eb _].
  assert (D : forall c : image Z, gray c -> binary c -> inside c x y -> sample_at c x y 0 = 0 \/ sample_at c x y 0 = 255).
  { intros c Gc (_ & _ & Hs) Hi. destruct (gray_pixel c x y Gc Hi) as [E _].
    assert (F : Forall (fun s => s = 0 \/ s = 255) (pixel_at c x y)) by (unfold pixel_at; apply Forall_firstn_ss, Forall_skipn_ss; exact Hs).
    rewrite E in F. exact (Forall_inv F). }
  destruct (D a Ga Ba Hin), (D b Gb Bb Hin'); rewrite Ea, Eb; f_equal; lia.
Qed.

Lemma morph_ok_same (a b : image Z) r : morph_ok a r -> wf b -> binary b -> info_of b = info_of a -> morph_ok b r.
Proof. intros (_ & _ & S & R & Rh & M) W B I. unfold morph_ok. rewrite I. conj; auto. all: lia. Qed.
Lemma morph_sums (a : image Z) r : morph_ok a r -> gray a /\ small_sums a.
Proof.
  intros (W & B & S & _). pose proof (binary_gray a W B) as G. split; [exact G|]. apply small_sums_size; [exact W|apply G|exact S].
Qed.

(** what the four operators show *)
Lemma erode_shows p (a : image Z) r : morph_ok a r ->
  exists e, erode p a r = Ret e /\ wf e /\ info_of e = info_of a /\ binary e /\ forall x y, white e x y <-> eroded a r x y.
Proof.
  intros H. destruct (morph_sums a r H) as [G S]. destruct H as (W & B & Sz & R & Rh & M).
  destruct (C34_erode p a r G S M R Rh) as [e (E & We & Ie & Be & Pe)]. exists e. conj; auto.
  intros x y. split; intros Hw.
  - apply Pe; [|exact Hw]. destruct Hw as [Hin _]. unfold inside in *. rewrite <- Ie. exact Hin.
  - apply Pe; [|exact Hw]. destruct (Hw x y) as [Hin _]; [split; lia|exact Hin].
Qed.
Lemma dilate_shows p (a : image Z) r : morph_ok a r ->
  exists d, dilate p a r = Ret d /\ wf d /\ info_of d = info_of a /\ binary d
    /\ forall x y, white d x y <-> inside a x y /\ dilated_actual a r x y.
Proof.
  intros H. destruct (morph_sums a r H) as [G S]. destruct H as (W & B & Sz & R & Rh & M).
  destruct (C35_dilate p a r W B S R Rh) as [d (E & Wd & Id & Bd & Pd & _)]. exists d. conj; auto.
  intros x y. split.
  - intros Hw. assert (Hin : inside a x y) by (destruct Hw as [Hin _]; unfold inside in *; rewrite <- Id; exact Hin).
    split; [exact Hin|]. apply Pd; assumption.
  - intros [Hin Hd]. apply Pd; assumption.
Qed.

Ltac reaches := unfold reach in *; repeat match goal with
  | H : context [Z.leb ?a ?b] |- _ => destruct (Z.leb_spec a b)
  | H : context [Z.ltb ?a ?b] |- _ => destruct (Z.ltb_spec a b)
  | |- context [Z.leb ?a ?b] => destruct (Z.leb_spec a b)
  | |- context [Z.ltb ?a ?b] => destruct (Z.ltb_spec a b) end; try lia.

Lemma reach_near w r x x' : 0 <= r -> reach w r x x' -> Z.abs (x' - x) <= r.
Proof. intros. reaches. Qed.
Lemma near_reach w r x x' : 0 <= r -> r <= x' < w - r -> Z.abs (x' - x) <= r -> reach w r x x'.
Proof. intros. reaches. Qed.
(** a centre whose whole window is white keeps distance r from the border *)
Lemma eroded_inner (a : image Z) r x y : 0 <= r -> eroded a r x y ->
  r <= x < width (info_of a) - r /\ r <= y < height (info_of a) - r.
Proof.
  intros Hr H. destruct (H (x - r) (y - r)) as [[? ?] _]; [split; lia|]. destruct (H (x + r) (y + r)) as [[? ?] _]; [split; lia|]. lia.
Qed.

(** the opening: the union of the white squares *)
Theorem C69_open_is_opening p (a : image Z) r : morph_ok a r ->
  exists o, morph_open p a r = Ret o /\ wf o /\ info_of o = info_of a /\ binary o
    /\ forall x y, white o x y <-> exists x' y', near r x y x' y' /\ eroded a r x' y'.
Proof.
  intros H. destruct (erode_shows p a r H) as (e & Ee & We & Ie & Be & Pe).
  destruct (dilate_shows p e r (morph_ok_same a e r H We Be Ie)) as (o & Eo & Wo & Io & Bo & Po).
  destruct H as (W & B & Sz & R & Rh & M).
  exists o. conj; auto.
  - unfold morph_open. rewrite Ee. exact Eo.
  - congruence.
  - intros x y. rewrite Po. unfold dilated_actual. rewrite Ie. split.
    + intros (Hin & x' & y' & Rx & Ry & Hw). exists x', y'. split; [|apply Pe; exact Hw].
      split; [apply (reach_near (width (info_of a)))|apply (reach_near (height (info_of a)))]; auto; lia.
    + intros (x' & y' & [Nx Ny] & He). pose proof (eroded_inner a r x' y' ltac:(lia) He) as [? ?].
      split; [split; rewrite Ie; lia|]. exists x', y'. conj; [apply near_reach; lia|apply near_reach; lia|apply Pe; exact He].
Qed.

(** erosion shrinks, dilation grows, opening shrinks *)
Theorem C69_between p (a : image Z) r : morph_ok a r ->
  exists e d o, erode p a r = Ret e /\ dilate p a r = Ret d /\ morph_open p a r = Ret o
    /\ below e o /\ below o a /\ below a d.
Proof.
  intros H. destruct (erode_shows p a r H) as (e & Ee & We & Ie & Be & Pe).
  destruct (dilate_shows p a r H) as (d & Ed & Wd & Id & Bd & Pd).
  destruct (C69_open_is_opening p a r H) as (o & Eo & Wo & Io & Bo & Po).
  destruct H as (W & B & Sz & R & Rh & M).
  exists e, d, o. conj; auto.
  - intros x y Hw. apply Po. exists x, y. split; [split; lia|]. apply Pe. exact Hw.
  - intros x y Hw. apply Po in Hw as (x' & y' & [? ?] & He). apply He. split; lia.
  - intros x y Hw. apply Pd. split; [apply Hw|]. exists x, y. conj; [reaches|reaches|exact Hw].
Qed.

(** all operators are monotone *)
Theorem C69_monotone p (a b : image Z) r : morph_ok a r -> morph_ok b r -> info_of a = info_of b -> below a b ->
  exists ea eb da db oa ob ca cb,
    erode p a r = Ret ea /\ erode p b r = Ret eb /\ below ea eb /\
    dilate p a r = Ret da /\ dilate p b r = Ret db /\ below da db /\
    morph_open p a r = Ret oa /\ morph_open p b r = Ret ob /\ below oa ob /\
    morph_close p a r = Ret ca /\ morph_close p b r = Ret cb /\ below ca cb.
Proof.
  intros Ha Hb I L.
  destruct (erode_shows p a r Ha) as (ea & Eea & Wea & Iea & Bea & Pea).
  destruct (erode_shows p b r Hb) as (eb & Eeb & Web & Ieb & Beb & Peb).
  destruct (dilate_shows p a r Ha) as (da & Eda & Wda & Ida & Bda & Pda).
  destruct (dilate_shows p b r Hb) as (db & Edb & Wdb & Idb & Bdb & Pdb).
  destruct (C69_open_is_opening p a r Ha) as (oa & Eoa & _ & _ & _ & Poa).
  destruct (C69_open_is_opening p b r Hb) as (ob & Eob & _ & _ & _ & Pob).
  destruct (erode_shows p da r (morph_ok_same a da r Ha Wda Bda Ida)) as (ca & Eca & _ & _ & _ & Pca).
  destruct (erode_shows p db r (morph_ok_same b db r Hb Wdb Bdb Idb)) as (cb & Ecb & _ & _ & _ & Pcb).
  assert (Le : forall x y, eroded a r x y -> eroded b r x y) by (intros x y H x' y' N; apply L, H; exact N).
  assert (Ld : below da db).
  { intros x y Hw. apply Pda in Hw as (Hin & x' & y' & Rx & Ry & Hw). apply Pdb. unfold inside, dilated_actual in *. rewrite <- I.
    split; [exact Hin|]. exists x', y'. conj; auto. }
  exists ea, eb, da, db, oa, ob, ca, cb. conj; auto.
  - intros x y Hw. apply Peb, Le, Pea. exact Hw.
  - intros x y Hw. apply Poa in Hw as (x' & y' & N & He). apply Pob. exists x', y'. auto.
  - unfold morph_close. rewrite Eda. exact Eca.
  - unfold morph_close. rewrite Edb. exact Ecb.
  - intros x y Hw. apply Pca in Hw. apply Pcb. intros x' y' N. apply Ld, Hw. exact N.
Qed.

(** opening twice is opening once *)
Theorem C69_open_idempotent p (a : image Z) r : morph_ok a r ->
  exists o, morph_open p a r = Ret o /\ morph_open p o r = Ret o.
Proof.
  intros H. destruct (C69_open_is_opening p a r H) as (o & Eo & Wo & Io & Bo & Po).
  pose proof (morph_ok_same a o r H Wo Bo Io) as Ho.
  destruct (C69_open_is_opening p o r Ho) as (o' & Eo' & Wo' & Io' & Bo' & Po').
  exists o. split; [exact Eo|]. rewrite Eo'. f_equal. destruct H as (_ & _ & _ & R & _).
  apply binary_ext; auto. intros x y Hin. rewrite Po', Po. split.
  - intros (x' & y' & [? ?] & He). assert (Hw : white o x y) by (apply He; split; lia). apply Po in Hw. exact Hw.
  - intros (x' & y' & N & He). exists x', y'. split; [exact N|]. intros x2 y2 [? ?]. apply Po. exists x', y'. split; [split; lia|exact He].
Qed.

(** closing: extensive on the part of the image that keeps distance r from the border, black on the rest; idempotent *)
Theorem C69_close p (a : image Z) r : morph_ok a r ->
  exists c, morph_close p a r = Ret c /\ morph_close p c r = Ret c
    /\ (forall x y, white a x y -> r <= x < width (info_of a) - r -> r <= y < height (info_of a) - r -> white c x y)
    /\ (forall x y, white c x y -> r <= x < width (info_of a) - r /\ r <= y < height (info_of a) - r).
Proof.
  intros H. destruct (dilate_shows p a r H) as (d & Ed & Wd & Id & Bd & Pd).
  pose proof (morph_ok_same a d r H Wd Bd Id) as Hd.
  destruct (erode_shows p d r Hd) as (c & Ec & Wc & Ic & Bc & Pc).
  assert (Ica : info_of c = info_of a) by congruence.
  pose proof (morph_ok_same a c r H Wc Bc Ica) as Hc.
  destruct (dilate_shows p c r Hc) as (d2 & Ed2 & Wd2 & Id2 & Bd2 & Pd2).
  assert (Hd2 : morph_ok d2 r) by (apply (morph_ok_same a); auto; congruence).
  destruct (erode_shows p d2 r Hd2) as (c2 & Ec2 & Wc2 & Ic2 & Bc2 & Pc2).
  destruct H as (_ & _ & _ & R & Rh & _).
  (* extensive inside, for any image *)
  assert (Ext : forall u v : image Z, (forall x y, white v x y <-> inside u x y /\ dilated_actual u r x y) ->
     forall x y, white u x y -> r <= x < width (info_of u) - r -> r <= y < height (info_of u) - r -> eroded v r x y).
  { intros u v Hv x y Hw Hx Hy x' y' [? ?]. apply Hv. split; [split; lia|]. exists x, y.
    conj; [apply near_reach; lia|apply near_reach; lia|exact Hw]. }
  assert (In : forall x y, white c x y -> r <= x < width (info_of a) - r /\ r <= y < height (info_of a) - r).
  { intros x y Hw. apply Pc in Hw. rewrite <- Id. apply eroded_inner; [lia|exact Hw]. }
  exists c. conj; auto.
  - unfold morph_close. rewrite Ed. exact Ec.
  - unfold morph_close. rewrite Ed2, bind_Ret, Ec2. f_equal. apply binary_ext; auto; [congruence|]. intros x y Hin. rewrite Pc2. split.
    + intros He. apply Pc. intros x' y' N. specialize (He x' y' N). apply Pd2 in He as (Hin' & x2 & y2 & Rx & Ry & Hw).
      apply Pc in Hw. apply Hw. split; [apply (reach_near (width (info_of c)) r x') in Rx|apply (reach_near (height (info_of c)) r y') in Ry]; lia.
    + intros Hw. apply (Ext c d2 Pd2); [exact Hw| |]; rewrite Ica; destruct (In x y Hw); assumption.
  - intros x y Hw Hx Hy. apply Pc. apply (Ext a d Pd); assumption.
Qed.

(** eroding by r and then by s is eroding by r + s *)
Theorem C69_erode_erode p (a : image Z) r s : morph_ok a r -> morph_ok a s -> morph_ok a (r + s) ->
  exists e out, erode p a r = Ret e /\ erode p e s = Ret out /\ erode p a (r + s) = Ret out.
Proof.
  intros Hr Hs Hrs. destruct (erode_shows p a r Hr) as (e & Ee & We & Ie & Be & Pe).
  destruct (erode_shows p e s (morph_ok_same a e s Hs We Be Ie)) as (o & Eo & Wo & Io & Bo & Po).
  destruct (erode_shows p a (r + s) Hrs) as (o2 & Eo2 & Wo2 & Io2 & Bo2 & Po2).
  exists e, o. conj; auto. rewrite Eo2. f_equal. destruct Hr as (_ & _ & _ & R & _). destruct Hs as (_ & _ & _ & S & _).
  apply binary_ext; auto; [congruence|]. intros x y _. rewrite Po, Po2. split.
  - intros H x' y' [Nx Ny]. apply Pe. intros x2 y2 [? ?]. apply H. split; lia.
  - intros H x' y' [Nx Ny].
    (* a centre between *)
    set (cx := Z.max (x - s) (Z.min (x + s) x')). set (cy := Z.max (y - s) (Z.min (y + s) y')).
    assert (Hc : white e cx cy) by (apply H; unfold cx, cy; split; lia).
    apply Pe in Hc. apply Hc. unfold cx, cy. split; lia.
Qed.

(** radius 0 changes nothing, for all four operators; the gradient is then black *)
Theorem C69_radius_zero p (a : image Z) : morph_ok a 0 ->
  erode p a 0 = Ret a /\ dilate p a 0 = Ret a /\ majority p a 0 = Ret a /\ morph_open p a 0 = Ret a /\ morph_close p a 0 = Ret a
  /\ exists g, gradient p a 0 = Ret g /\ forall x y, ~ white g x y.
Proof.
  intros H. destruct (erode_shows p a 0 H) as (e & Ee & We & Ie & Be & Pe).
  destruct (dilate_shows p a 0 H) as (d & Ed & Wd & Id & Bd & Pd).
  destruct (morph_sums a 0 H) as [G S].
  assert (W : wf a) by apply H. assert (B : binary a) by apply H.
  assert (E1 : e = a).
  { apply binary_ext; auto. intros x y Hin. rewrite Pe. split; intros Hw; [apply Hw; split; lia|].
    intros x' y' [? ?]. replace x' with x by lia. replace y' with y by lia. exact Hw. }
  assert (E2 : d = a).
  { apply binary_ext; auto. intros x y Hin. rewrite Pd. split.
    - intros (_ & x' & y' & Rx & Ry & Hw). replace x with x' by reaches. replace y with y' by reaches. exact Hw.
    - intros Hw. split; [apply Hw|]. exists x, y. conj; [reaches|reaches|exact Hw]. }
  subst e d. conj; auto.
  - unfold morph_open. rewrite Ee. exact Ed.
  - unfold morph_close. rewrite Ed. exact Ee.
  - destruct H as (_ & _ & _ & R & Rh & M).
    destruct (C37_gradient p a 0 W B S M R Rh) as (d & e & g & Ed' & Ee' & Eg & Wg & Ig & Bg & Pg).
    exists g. split; [exact Eg|]. intros x y Hw. rewrite Ed in Ed'. rewrite Ee in Ee'. injection Ed' as <-. injection Ee' as <-.
    assert (Hin : inside a x y) by (destruct Hw as [Hin _]; unfold inside in *; rewrite <- Ig; exact Hin).
    apply (Pg x y Hin) in Hw as [? ?]. contradiction.
Qed.

(** dilation by a larger radius is not larger: near the border the window shrinks *)
Theorem C69_dilate_radius_refuted p : exists (a d1 d2 : image Z) x y, morph_ok a 1 /\ morph_ok a 2
  /\ dilate p a 1 = Ret d1 /\ dilate p a 2 = Ret d2 /\ white d1 x y /\ ~ white d2 x y.
Proof.
  exists ex_corner, (Image (Info 3 3 1 false) [255; 255; 255; 255; 255; 255; 0; 0; 0]), (Image (Info 3 3 1 false) [255; 255; 255; 0; 0; 0; 255; 255; 255]), 1, 1.
  assert (W : wf ex_corner) by (apply wfb_wf; reflexivity).
  assert (B : binary ex_corner) by (apply ex_binary; reflexivity).
  conj; try (unfold morph_ok, mask_fits, u32_max; cbn; conj; auto; lia); try (destruct p; vm_compute; reflexivity).
  - split; [split; cbn; lia|reflexivity].
  - intros [_ H]. discriminate.
Qed.

(** two images meeting the hypotheses, with an opening and a closing that do something *)
Definition ex_blob : image Z := Image (Info 5 4 1 false)
  [255; 255; 255;   0;   0;
   255; 255; 255;   0; 255;
   255; 255; 255; 255;   0;
     0;   0;   0;   0;   0].
Example C69_example p : morph_ok ex_blob 1 /\ morph_ok ex_blob 0 /\ below ex_blob ex_blob
  /\ morph_open p ex_blob 1 = Ret (Image (Info 5 4 1 false)
       [255; 255; 255; 0; 0; 255; 255; 255; 0; 0; 255; 255; 255; 0; 0; 0; 0; 0; 0; 0])
  /\ morph_close p ex_blob 1 = Ret (Image (Info 5 4 1 false)
       [0; 0; 0; 0; 0; 0; 255; 255; 255; 0; 0; 255; 255; 255; 0; 0; 0; 0; 0; 0]).
Proof.
  assert (W : wf ex_blob) by (apply wfb_wf; reflexivity).
  assert (B : binary ex_blob) by (apply ex_binary; reflexivity).
  conj; try (unfold morph_ok, mask_fits, u32_max; cbn; conj; auto; lia); try (destruct p; vm_compute; reflexivity).
  intros x y H. exact H.
Qed.
Print Assumptions C69_close.
