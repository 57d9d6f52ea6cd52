(** * Sequences of pixel writes at computed positions: the last write wins. *)
From Verif.Model Require Import Image.
From Verif.Spec Require Import ImageS.
From Verif.Proofs Require Import BaseL ImageL.
Open Scope Z_scope.

Section Writes.
  Context {T : Type}.
  Definition write := (Z * Z * list T)%type.

  Definition hits (x y : Z) (w : write) : bool := (fst (fst w) =? x) && (snd (fst w) =? y).
  (** value at (x,y) after the writes [ws], [d] being the value before *)
  Definition last_write (ws : list write) (x y : Z) (d : list T) : list T :=
    fold_left (fun d w => if hits x y w then snd w else d) ws d.
  Definition misses (ws : list write) (x y : Z) : Prop := forall w, In w ws -> hits x y w = false.

  Lemma last_write_app ws1 ws2 x y d : last_write (ws1 ++ ws2) x y d = last_write ws2 x y (last_write ws1 x y d).
  Proof. apply fold_left_app. Qed.
  Lemma last_write_miss ws x y d : misses ws x y -> last_write ws x y d = d.
  Proof.
    revert d. induction ws as [|w ws IH]; intros d H; [reflexivity|]. cbn.
    rewrite (H w) by (left; reflexivity). apply IH. intros w' Hw. apply H. right. exact Hw.
  Qed.
  Lemma misses_app ws1 ws2 x y : misses ws1 x y -> misses ws2 x y -> misses (ws1 ++ ws2) x y.
  Proof. intros H1 H2 w Hw. apply in_app_iff in Hw as [Hw|Hw]; auto. Qed.
  Lemma misses_flat_map {A} (f : A -> list write) l x y : (forall a, In a l -> misses (f a) x y) -> misses (flat_map f l) x y.
  Proof. intros H w Hw. apply in_flat_map in Hw as [a [Ha Hw]]. exact (H a Ha w Hw). Qed.

  (** loop over [lo, hi): iteration k leaves [px] at (x,y), later iterations do not touch it *)
  Lemma last_write_zrange (f : Z -> list write) lo hi x y d k px :
    lo <= k < hi -> (forall k', k < k' < hi -> misses (f k') x y) ->
    (forall d, last_write (f k) x y d = px) ->
    last_write (flat_map f (zrange lo hi)) x y d = px.
  Proof.
    intros Hk Hm Hl. rewrite (zrange_app lo k hi) by lia. rewrite (zrange_cons k hi) by lia.
    rewrite flat_map_app, last_write_app. cbn [flat_map]. rewrite last_write_app, Hl.
    apply last_write_miss. apply misses_flat_map. intros a Ha. apply in_zrange in Ha. apply Hm. lia.
  Qed.

  Lemma writes_ok p (ws : list write) (img : image T) :
    wf img ->
    (forall w, In w ws -> inside img (fst (fst w)) (snd (fst w)) /\ len (snd w) = channels (info_of img)) ->
    exists out, mfold (fun im (w : write) => set_pixel p im (fst (fst w)) (snd (fst w)) (snd w)) ws img = Ret out
      /\ wf out /\ info_of out = info_of img
      /\ forall x y, inside img x y -> pixel_at out x y = last_write ws x y (pixel_at img x y).
  Proof.
    revert img. induction ws as [|[[a b] px] ws IH]; intros img Hwf H.
    - exists img. cbn. conj; auto.
    - destruct (H _ (or_introl eq_refl)) as [Hin Hlen]. cbn [fst snd] in *.
      cbn [mfold fst snd]. rewrite set_pixel_ok by assumption. cbn [bind].
      destruct (IH (put img (b * width (info_of img) + a) px)) as [out (E & W & I & P)].
      + destruct Hin as [? ?]. apply put_wf; auto. destruct (wf_c _ Hwf).
        destruct (pos_bound (width (info_of img)) (height (info_of img)) (channels (info_of img)) a b); lia.
      + intros w Hw. apply (H w). right. exact Hw.
      + exists out. conj; auto. intros x y Hxy. rewrite (P x y Hxy), pixel_at_put by assumption.
        cbn [last_write fold_left]. unfold hits at 2. cbn [fst snd].
        rewrite (Z.eqb_sym a x), (Z.eqb_sym b y). reflexivity.
  Qed.

  (** a double loop whose body performs a list of writes *)
  Lemma loop_writes p (g : Z -> Z -> list write) body w h (img : image T) :
    wf img ->
    (forall im i j, 0 <= i < w -> 0 <= j < h -> info_of im = info_of img -> wf im ->
       body im i j = mfold (fun im (w : write) => set_pixel p im (fst (fst w)) (snd (fst w)) (snd w)) (g i j) im) ->
    (forall i j wr, 0 <= i < w -> 0 <= j < h -> In wr (g i j) ->
       inside img (fst (fst wr)) (snd (fst wr)) /\ len (snd wr) = channels (info_of img)) ->
    exists out, mfold (fun im j => mfold (fun im i => body im i j) (zrange 0 w) im) (zrange 0 h) img = Ret out
      /\ wf out /\ info_of out = info_of img
      /\ forall x y, inside img x y ->
         pixel_at out x y
         = last_write (flat_map (fun j => flat_map (fun i => g i j) (zrange 0 w)) (zrange 0 h)) x y (pixel_at img x y).
  Proof.
    intros Hwf Hbody Hok.
    destruct (writes_ok p (flat_map (fun j => flat_map (fun i => g i j) (zrange 0 w)) (zrange 0 h)) img Hwf) as [out (E & W & I & P)].
    { intros wr Hw. apply in_flat_map in Hw as [j [Hj Hw]]. apply in_flat_map in Hw as [i [Hi Hw]].
      apply in_zrange in Hi, Hj. apply (Hok i j); auto. }
    exists out. conj; auto. rewrite <- E. rewrite mfold_flat_map.
    assert (G : forall im i j, 0 <= i < w -> 0 <= j < h -> info_of im = info_of img /\ wf im ->
      forall im', mfold (fun im (w : write) => set_pixel p im (fst (fst w)) (snd (fst w)) (snd w)) (g i j) im = Ret im' ->
      info_of im' = info_of img /\ wf im').
    { intros im i j Hi Hj [Hinf Hw] im' E'. destruct (writes_ok p (g i j) im Hw) as [o (E2 & W2 & I2 & _)].
      - intros wr Hwr. unfold inside. rewrite Hinf. apply (Hok i j wr Hi Hj Hwr).
      - rewrite E2 in E'. injection E' as <-. split; [congruence|exact W2]. }
    apply (mfold_ext_inv (fun im => info_of im = info_of img /\ wf im)).
    - split; [reflexivity|exact Hwf].
    - intros im j [Hinf Hw] Hj. rewrite mfold_flat_map. apply in_zrange in Hj.
      apply (mfold_ext_inv (fun im => info_of im = info_of img /\ wf im)).
      + split; assumption.
      + intros im1 i [? ?] Hi. apply in_zrange in Hi. apply Hbody; auto.
      + intros im1 i im2 Him Hi E2. apply in_zrange in Hi. eapply G; eauto.
    - intros im j im' Him Hj E'. apply in_zrange in Hj. rewrite mfold_flat_map in E'.
      assert (Q : exists s', mfold (fun s b => mfold (fun im (w : write) => set_pixel p im (fst (fst w)) (snd (fst w)) (snd w)) (g b j) s) (zrange 0 w) im = Ret s' /\ (info_of s' = info_of img /\ wf s')).
      { apply (mfold_inv (fun im => info_of im = info_of img /\ wf im)); [exact Him|].
        intros im1 i Him1 Hi. apply in_zrange in Hi.
        destruct (writes_ok p (g i j) im1 (proj2 Him1)) as [o (E2 & W2 & I2 & _)].
        - intros wr Hwr. unfold inside. rewrite (proj1 Him1). apply (Hok i j wr); auto.
        - exists o. split; [exact E2|]. split; [rewrite I2; apply Him1|exact W2]. }
      destruct Q as [s' [E2 Q]]. rewrite E2 in E'. injection E' as <-. exact Q.
  Qed.
End Writes.
