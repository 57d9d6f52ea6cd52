(** * Numeric bounds of pi and e *)
From Coq Require Import Reals Lra Lia Machin Rtrigo_def AltSeries Ratan.
Open Scope R_scope.

Lemma Ratan_S x n : Ratan_seq x n = x ^ (2 * n + 1) / INR (2 * n + 1).
Proof. reflexivity. Qed.
Lemma pi_bounds : 3.14159265 <= PI <= 3.14159266.
Proof.
  pose proof (PI_2_3_7_ineq 5) as H. unfold tg_alt, PI_2_3_7_tg in H. cbn [Nat.mul Nat.add sum_f_R0] in H.
  rewrite !Ratan_S in H. cbn [Nat.mul Nat.add] in H. rewrite !INR_IZR_INZ in H.
  cbn [Z.of_nat Pos.of_succ_nat Pos.succ pow] in H. lra.
Qed.

Lemma fact_S n : INR (fact (S n)) = IZR (Z.of_nat (S n)) * INR (fact n).
Proof. rewrite fact_simpl, mult_INR, INR_IZR_INZ. reflexivity. Qed.
Lemma exp_neg1_ineq N : sum_f_R0 (tg_alt (fun n => / INR (fact n))) (S (2 * N)) <= exp (-1)
    <= sum_f_R0 (tg_alt (fun n => / INR (fact n))) (2 * N).
Proof.
  apply alternated_series_ineq.
  - intros n. apply Rinv_le_contravar; [apply INR_fact_lt_0|]. apply le_INR. apply fact_le. lia.
  - intros eps He. destruct (cv_speed_pow_fact 1 eps He) as [M HM]. exists M. intros n Hn. specialize (HM n Hn).
    rewrite pow1 in HM. unfold Rdiv in HM. rewrite Rmult_1_l in HM. exact HM.
  - unfold exp. destruct (exist_exp (-1)) as [l Hl]. cbn [proj1_sig]. intros eps He. destruct (Hl eps He) as [M HM]. exists M.
    intros n Hn. specialize (HM n Hn). erewrite sum_eq; [exact HM|]. intros i _. unfold tg_alt. cbv beta. apply Rmult_comm.
Qed.
Lemma e_bounds : 2.71828182 <= exp 1 <= 2.71828184.
Proof.
  pose proof (exp_neg1_ineq 6) as H. unfold tg_alt in H. cbn [Nat.mul Nat.add sum_f_R0] in H.
  rewrite !fact_S in H. cbn [fact INR pow Z.of_nat Pos.of_succ_nat Pos.succ] in H.
  assert (E : exp 1 = / exp (-1)) by (rewrite <- exp_Ropp; f_equal; ring).
  pose proof (exp_pos (-1)) as P.
  assert (0.367879440 <= exp (-1) <= 0.367879442) by lra.
  rewrite E. split.
  - apply Rmult_le_reg_r with (exp (-1)); [lra|]. rewrite Rinv_l by lra. lra.
  - apply Rmult_le_reg_r with (exp (-1)); [lra|]. rewrite Rinv_l by lra. lra.
Qed.
