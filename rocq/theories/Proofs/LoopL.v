(** * Loops that fill a vector *)
From Verif.Model Require Import Base.
From Verif.Proofs Require Import BaseL.
Open Scope Z_scope.

Lemma upd_same {A} (v : list A) i d : (i < length v)%nat -> upd v i (nth i v d) = v.
Proof.
  revert i. induction v as [|a v IH]; intros [|i] H; cbn in *; try lia; [reflexivity|].
  f_equal. apply IH. lia.
Qed.
Lemma upd_upd {A} (v : list A) i x y : upd (upd v i x) i y = upd v i y.
Proof. revert i. induction v as [|a v IH]; intros [|i]; cbn; auto. f_equal. auto. Qed.

(** accumulating into one cell *)
Lemma acc_loop {A B} (g : Z -> outcome B) (h : A -> B -> outcome A) (l : list Z) (out : list A) i d :
  0 <= i < len out ->
  mfold (fun out j => let! b := g j in let! o := vget out i in let! o' := h o b in vset out i o') l out
  = (let! a := mfold (fun a j => let! b := g j in h a b) l (nth (Z.to_nat i) out d) in Ret (upd out (Z.to_nat i) a)).
Proof.
  revert out. induction l as [|j l IH]; intros out Hi; cbn [mfold].
  - cbn. rewrite upd_same by (unfold len in Hi; lia). reflexivity.
  - rewrite (vget_ok out i d Hi). destruct (g j) as [b| | |]; cbn; auto.
    destruct (h (nth (Z.to_nat i) out d) b) as [a| | |]; cbn; auto.
    rewrite vset_ok by exact Hi. cbn [bind]. rewrite IH by (rewrite len_upd; exact Hi).
    rewrite nth_upd by (unfold len in Hi; lia). rewrite Nat.eqb_refl.
    destruct (mfold _ l a); cbn; auto. rewrite upd_upd. reflexivity.
Qed.

(** writing the cells of a vector one after the other *)
Lemma fill_loop {A} (R : Z -> A -> outcome A) (init : list A) d :
  mfold (fun out i => let! a := R i (nth (Z.to_nat i) out d) in Ret (upd out (Z.to_nat i) a)) (zrange 0 (len init)) init
  = mmap (fun i => R i (nth (Z.to_nat i) init d)) (zrange 0 (len init)).
Proof.
  assert (forall (todo : list A) done k, k = len done -> (forall i, k <= i -> nth (Z.to_nat i) init d = nth (Z.to_nat (i - k)) todo d) ->
    mfold (fun out i => let! a := R i (nth (Z.to_nat i) out d) in Ret (upd out (Z.to_nat i) a)) (zrange k (k + len todo)) (done ++ todo)
    = (let! bs := mmap (fun i => R i (nth (Z.to_nat i) init d)) (zrange k (k + len todo)) in Ret (done ++ bs))) as G.
  { induction todo as [|t todo IH]; intros done k Hk Hn.
    - cbn [len length]. rewrite zrange_nil by (cbn; lia). cbn. reflexivity.
    - assert (Hl : len (t :: todo) = len todo + 1) by (unfold len; cbn; lia). rewrite Hl.
      rewrite zrange_cons by (unfold len in *; lia). cbn [mfold mmap].
      assert (Hkn : Z.to_nat k = length done) by (unfold len in Hk; lia).
      rewrite Hkn, app_nth2, Nat.sub_diag by lia. cbn [nth].
      rewrite <- Hkn, (Hn k) by lia. replace (Z.to_nat (k - k)) with 0%nat by lia. cbn [nth].
      destruct (R k t) as [a| | |]; cbn [bind]; auto. rewrite Hkn, upd_app.
      replace (done ++ a :: todo) with ((done ++ [a]) ++ todo) by (rewrite <- app_assoc; reflexivity).
      replace (k + (len todo + 1)) with (k + 1 + len todo) by lia.
      rewrite (IH (done ++ [a]) (k + 1)).
      + destruct (mmap _ _); cbn [bind]; auto. rewrite <- app_assoc. reflexivity.
      + rewrite len_app. unfold len in *. cbn. lia.
      + intros i Hi. rewrite (Hn i) by lia. replace (Z.to_nat (i - k)) with (S (Z.to_nat (i - (k + 1)))) by lia. reflexivity. }
  specialize (G init [] 0 eq_refl). cbn [app] in G. replace (0 + len init) with (len init) in G by lia.
  rewrite G; [|intros i Hi; f_equal; lia]. destruct (mmap _ _); reflexivity.
Qed.
