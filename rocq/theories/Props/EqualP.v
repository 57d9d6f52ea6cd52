(** * C91: what `==` on images means *)
From Verif.Model Require Import Base Float Image Equal.
From Verif.Spec Require Import ImageS.
From Verif.Proofs Require Import BaseL ImageL ImageProps.
From Verif.Props Require Import ImageP.
From Flocq Require Import Core BinarySingleNaN.
Open Scope Z_scope.

(** The number of IEEE 754 comparisons: two floats are the same number if neither is NaN and they are
    either the same float or two zeros (of any signs). *)
Definition is_nan32 (x : f32) : Prop := x = f32_nan.
Definition is_zero32 (x : f32) : Prop := exists s, x = B754_zero s.
Definition same_number (x y : f32) : Prop :=
  ~ is_nan32 x /\ ~ is_nan32 y /\ (x = y \/ (is_zero32 x /\ is_zero32 y)).

Lemma vec_eqb_spec {T} (N : number T) (a b : list T) :
  vec_eqb N a b = true <-> Forall2 (fun x y => n_eqb N x y = true) a b.
Proof.
  revert b. induction a as [|x a IH]; intros [|y b]; cbn [vec_eqb].
  - split; [constructor|reflexivity].
  - split; [discriminate|intros H; inversion H].
  - split; [discriminate|intros H; inversion H].
  - rewrite andb_true_iff, IH. split.
    + intros [H1 H2]. constructor; assumption.
    + intros H. inversion H; subst. split; assumption.
Qed.

Lemma image_eqb_spec {T} (N : number T) (a b : image T) :
  image_eqb N a b = true <-> info_of a = info_of b /\ Forall2 (fun x y => n_eqb N x y = true) (data a) (data b).
Proof. unfold image_eqb. rewrite andb_true_iff, info_eqb_eq, vec_eqb_spec. reflexivity. Qed.

Lemma forall2_eq {T} (a b : list T) : Forall2 eq a b <-> a = b.
Proof.
  split.
  - induction 1; congruence.
  - intros <-. induction a; constructor; auto.
Qed.

Lemma forall2_imp {A B} (P Q : A -> B -> Prop) (a : list A) (b : list B) :
  (forall x y, P x y -> Q x y) -> Forall2 P a b -> Forall2 Q a b.
Proof. intros H. induction 1; constructor; auto. Qed.

(** Images of integers (any width): `==` is identity of the whole value ... *)
Theorem C91_integers (t : ity) (a b : image Z) : image_eqb (num_int t) a b = true <-> a = b.
Proof.
  rewrite image_eqb_spec. cbn [n_eqb num_int]. split.
  - intros [Hi H]. apply image_eq; [exact Hi|]. apply forall2_eq.
    eapply forall2_imp; [|exact H]. intros x y E. apply Z.eqb_eq. exact E.
  - intros <-. split; [reflexivity|]. eapply forall2_imp; [|apply forall2_eq; reflexivity].
    intros x y ->. apply Z.eqb_refl.
Qed.

(** ... which, for images as the library builds them, is what a caller can see: the same width, height,
    channel count and alpha flag, and the same pixel at every position. *)
Theorem C91_pixels (t : ity) (p : profile) (a b : image Z) : wf a -> wf b ->
  image_eqb (num_int t) a b = true <->
  width (info_of a) = width (info_of b) /\ height (info_of a) = height (info_of b)
  /\ channels (info_of a) = channels (info_of b) /\ alpha (info_of a) = alpha (info_of b)
  /\ forall x y, 0 <= x < width (info_of a) -> 0 <= y < height (info_of a) -> get_pixel p a x y = get_pixel p b x y.
Proof.
  intros Ha Hb. rewrite C91_integers. split.
  - intros <-. conj; reflexivity.
  - intros (E1 & E2 & E3 & E4 & H).
    assert (Hi : info_of a = info_of b).
    { destruct (info_of a), (info_of b); cbn in *; congruence. }
    apply image_ext; auto. intros x y Hin. pose proof Hin as [Hx Hy]. specialize (H x y Hx Hy).
    rewrite get_pixel_ok in H by assumption. rewrite get_pixel_ok in H by (unfold inside; rewrite <- ?Hi; auto).
    congruence.
Qed.

(** Writing a pixel leaves an image equal to the old one exactly when the pixel already was there. *)
Theorem C91_write (t : ity) (p : profile) (img img' : image Z) (x y : Z) (px : list Z) :
  wf img -> inside img x y -> len px = channels (info_of img) -> set_pixel p img x y px = Ret img' ->
  image_eqb (num_int t) img img' = true <-> get_pixel p img x y = Ret px.
Proof.
  intros Hwf Hin Hl E. destruct (C02_set_get p img x y px Hwf Hin Hl) as (o & Eo & Io & Wo & G & O).
  assert (o = img') by congruence. subst o. rewrite C91_integers. split.
  - intros <-. exact G.
  - intros Gp. apply image_ext; auto. intros x' y' Hin'. pose proof Hin' as [Hx' Hy'].
    assert (Q : get_pixel p img' x' y' = get_pixel p img x' y').
    { destruct (Z.eq_dec x' x) as [-> | Nx]; [destruct (Z.eq_dec y' y) as [-> | Ny]|].
      - congruence.
      - apply O; try lia. congruence.
      - apply O; try lia. congruence. }
    rewrite !get_pixel_ok in Q by (auto; unfold inside; rewrite ?Io; auto). congruence.
Qed.

Lemma eqb32 (x y : f32) : f32_eqb x y = true <-> same_number x y.
Proof.
  unfold f32_eqb, same_number, is_nan32, is_zero32, f32_nan. split.
  - intros E. conj.
    + intros ->. destruct y; discriminate.
    + intros ->. destruct x as [s|s| |s m e B]; discriminate.
    + destruct x as [s|s| |s m e B]; destruct y as [s'|s'| |s' m' e' B'];
        try discriminate; try (exfalso; destruct s; discriminate); try (exfalso; destruct s'; discriminate).
      * right. split; eexists; reflexivity.
      * destruct s, s'; try discriminate; left; reflexivity.
      * left. apply B2R_inj; [reflexivity|reflexivity|].
        rewrite Beqb_correct in E by reflexivity.
        revert E. case Req_bool_spec; auto. discriminate.
  - intros (N1 & N2 & [-> | [[s ->] [s' ->]]]).
    + destruct y as [s|s| |s m e B]; try reflexivity.
      * destruct s; reflexivity.
      * exfalso. apply N1. reflexivity.
      * rewrite Beqb_correct by reflexivity. case Req_bool_spec; auto.
    + reflexivity.
Qed.

(** Images of f32: the same layout, as many samples, and pairwise the same number. *)
Theorem C91_f32 (a b : image f32) :
  image_eqb num_f32 a b = true <->
  info_of a = info_of b /\ len (data a) = len (data b)
  /\ forall k x y, nth_error (data a) k = Some x -> nth_error (data b) k = Some y -> same_number x y.
Proof.
  rewrite image_eqb_spec. cbn [n_eqb num_f32]. apply and_iff_compat_l. split.
  - intros H. split.
    + unfold len. f_equal. induction H as [|u v l l' E H IH]; cbn [length]; congruence.
    + induction H as [|u v l l' E H IH]; intros [|k] x y; cbn [nth_error]; try discriminate.
      * intros [= <-] [= <-]. apply eqb32. exact E.
      * apply IH.
  - intros [L H]. apply Nat2Z.inj in L. revert L H. generalize (data b). generalize (data a). clear a b.
    induction l as [|u l IH]; intros [|v l'] L H; try discriminate; constructor.
    + apply eqb32. apply (H O); reflexivity.
    + apply IH; [cbn in L; congruence|]. intros k. apply (H (S k)).
Qed.

(** `==` is symmetric and transitive on f32 images, and an image equals its clone exactly when it
    holds no NaN. *)
Theorem C91_f32_laws :
  (forall (a : image f32), image_eqb num_f32 a a = true <-> samples (fun x => ~ is_nan32 x) a)
  /\ (forall (a b : image f32), image_eqb num_f32 a b = image_eqb num_f32 b a)
  /\ (forall (a b c : image f32), image_eqb num_f32 a b = true -> image_eqb num_f32 b c = true -> image_eqb num_f32 a c = true).
Proof.
  assert (Sy : forall x y, same_number x y -> same_number y x).
  { intros x y (A & B & [C | [C D]]); unfold same_number; auto. }
  assert (Tr : forall x y z, same_number x y -> same_number y z -> same_number x z).
  { intros x y z (A & B & C) (A' & B' & C'). split; [auto|]. split; [auto|].
    destruct C as [-> | [C D]]; destruct C' as [<- | [C' D']]; auto. }
  conj.
  - intros a. rewrite C91_f32. unfold samples. rewrite Forall_forall. split.
    + intros (_ & _ & H) x Hx. apply In_nth_error in Hx as [k Hk]. apply (H k x x Hk Hk).
    + intros H. conj; auto. intros k x y E1 E2. assert (x = y) by congruence. subst y.
      apply nth_error_In in E1. specialize (H x E1). unfold same_number. auto.
  - intros a b.
    assert (Q : forall a b : image f32, image_eqb num_f32 a b = true -> image_eqb num_f32 b a = true).
    { clear a b. intros a b H. apply C91_f32 in H as (I & L & H). apply C91_f32. conj; auto.
      intros k x y E1 E2. apply Sy. exact (H k y x E2 E1). }
    destruct (image_eqb num_f32 a b) eqn:E.
    + symmetry. apply Q. exact E.
    + destruct (image_eqb num_f32 b a) eqn:E'; [|reflexivity]. apply Q in E'. congruence.
  - intros a b c Hab Hbc. apply C91_f32 in Hab as (I & L & H). apply C91_f32 in Hbc as (I' & L' & H').
    apply C91_f32. split; [congruence|]. split; [congruence|]. intros k x z E1 E3.
    destruct (nth_error (data b) k) as [y|] eqn:E2.
    + exact (Tr _ _ _ (H k x y E1 E2) (H' k y z E2 E3)).
    + exfalso. apply nth_error_None in E2.
      assert (N : nth_error (data a) k <> None) by congruence. apply nth_error_Some in N.
      unfold len in L. apply Nat2Z.inj in L. lia.
Qed.

(** The unexpected part: an f32 image need not equal its own clone, and two equal images can be told
    apart by what a pixelwise function makes of them (0 and -0 are equal, their reciprocals are not). *)
Theorem C91_f32_refuted :
  (exists a : image f32, wf a /\ image_eqb num_f32 a a = false)
  /\ exists a b a' b' : image f32, wf a /\ wf b /\ image_eqb num_f32 a b = true
       /\ map_channels Release (fun c => Ret (f32_div f32_1 c)) a = Ret a'
       /\ map_channels Release (fun c => Ret (f32_div f32_1 c)) b = Ret b'
       /\ image_eqb num_f32 a' b' = false.
Proof.
  split.
  - exists (Image (Info 1 1 1 false) [f32_nan]). split; [apply wfb_wf; reflexivity|reflexivity].
  - exists (Image (Info 1 1 1 false) [f32_0]), (Image (Info 1 1 1 false) [f32_neg f32_0]).
    eexists. eexists. conj; try (apply wfb_wf; reflexivity); try reflexivity.
Qed.

Example C91_example :
  image_eqb num_u8 ex_rgba ex_rgba = true
  /\ image_eqb num_u8 (Image (Info 2 1 1 false) [1; 2]) (Image (Info 1 2 1 false) [1; 2]) = false
  /\ image_eqb num_u8 (Image (Info 2 1 1 false) [1; 2]) (Image (Info 2 1 1 false) [1; 3]) = false
  /\ image_eqb num_u8 (Image (Info 1 1 2 true) [1; 2]) (Image (Info 1 1 2 false) [1; 2]) = false
  /\ same_number (f32_neg f32_0) f32_0 /\ ~ same_number f32_0 f32_1.
Proof.
  conj; try reflexivity.
  - apply eqb32. reflexivity.
  - rewrite <- eqb32. discriminate.
Qed.
