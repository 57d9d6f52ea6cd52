(** * C88: the text of an ImageInfo *)
From Coq Require Import Lia.
From Verif.Model Require Import Display.
From Verif.Spec Require Import ImageS DisplayS.
From Verif.Proofs Require Import BaseL.
Open Scope Z_scope.

Lemma digit_of d : 0 <= d <= 9 -> is_digit (digit_char d) /\ digit_value (digit_char d) = d.
Proof.
  intros H. assert (D : d = 0 \/ d = 1 \/ d = 2 \/ d = 3 \/ d = 4 \/ d = 5 \/ d = 6 \/ d = 7 \/ d = 8 \/ d = 9) by lia.
  unfold is_digit. repeat destruct D as [->|D]; try subst d; (split; [vm_compute; split; discriminate|reflexivity]).
Qed.
Lemma digit_zero d : 0 <= d <= 9 -> digit_char d = "0"%char -> d = 0.
Proof. intros H E. destruct (digit_of d H) as [_ V]. rewrite E in V. change (digit_value "0") with 0 in V. lia. Qed.

(** the loop puts the numeral of n in front *)
Lemma loop_spec fuel : forall n text, 0 <= n -> n < Z.of_nat fuel ->
  exists s, s <> EmptyString /\ all_digits s /\ (forall b, read_from b s = b * 10 ^ Z.of_nat (String.length s) + n)
    /\ (forall rest, s = String "0" rest -> rest = EmptyString) /\ decimal_loop fuel n text = (s ++ text)%string.
Proof.
  induction fuel as [|f IH]; intros n text Hn Hf; [lia|]. cbn [decimal_loop].
  pose proof (Z.mod_pos_bound n 10 ltac:(lia)) as Hm. pose proof (Z.div_mod n 10 ltac:(lia)) as Hd.
  destruct (digit_of (n mod 10) ltac:(lia)) as [D1 D2].
  destruct (Z.ltb_spec n 10) as [L|L].
  - exists (String (digit_char (n mod 10)) EmptyString). split; [discriminate|]. split; [split; [exact D1|exact I]|].
    split; [|split; [intros rest E; injection E as _ E; symmetry; exact E|reflexivity]].
    intros b. cbn [read_from String.length]. rewrite D2, Z.mod_small by lia. change (10 ^ Z.of_nat 1) with 10. lia.
  - destruct (IH (n / 10) (String (digit_char (n mod 10)) text)) as (s & S1 & S2 & S3 & S4 & S5); [lia|lia|].
    exists (s ++ String (digit_char (n mod 10)) EmptyString)%string. 
    assert (A : forall t u : string, all_digits t -> all_digits u -> all_digits (t ++ u)%string).
    { intros t. induction t as [|c t IHt]; intros u Ht Hu; [exact Hu|]. destruct Ht as [H1 H2]. split; [exact H1|apply IHt; assumption]. }
    assert (B : forall t u b, read_from b (t ++ u)%string = read_from (read_from b t) u).
    { intros t. induction t as [|c t IHt]; intros u b; [reflexivity|]. cbn. apply IHt. }
    assert (C : forall t u, String.length (t ++ u)%string = (String.length t + String.length u)%nat).
    { intros t. induction t as [|c t IHt]; intros u; [reflexivity|]. cbn. rewrite IHt. reflexivity. }
    assert (D : forall t u v : string, ((t ++ u) ++ v = t ++ (u ++ v))%string).
    { intros t. induction t as [|c t IHt]; intros u v; [reflexivity|]. cbn. rewrite IHt. reflexivity. }
    split; [destruct s; discriminate|]. split; [apply A; [exact S2|split; [exact D1|exact I]]|]. split; [|split].
    + intros b. rewrite B, S3. cbn [read_from]. rewrite D2, C. cbn [String.length]. rewrite Nat2Z.inj_add. change (Z.of_nat 1) with 1.
      rewrite Z.pow_add_r by lia. change (10 ^ 1) with 10. lia.
    + intros rest E. destruct s as [|c s]; [congruence|]. cbn [append] in E.
      assert (E1 : c = "0"%char) by (injection E as E1 _; exact E1). exfalso.
      assert (s = EmptyString) by (apply S4; rewrite E1; reflexivity). subst s.
      pose proof (S3 0) as V. cbn [read_from] in V. subst c. change (digit_value "0") with 0 in V. lia.
    + rewrite S5, D. reflexivity.
Qed.
Lemma fmt_uint_numeral n : 0 <= n -> numeral n (fmt_uint n).
Proof.
  intros H. destruct (loop_spec (S (Z.to_nat n)) n EmptyString H ltac:(lia)) as (s & S1 & S2 & S3 & S4 & S5).
  assert (E : fmt_uint n = s).
  { unfold fmt_uint. rewrite S5. clear. induction s as [|c s IH]; [reflexivity|]. cbn. rewrite IH. reflexivity. }
  rewrite E. split; [exact S1|]. split; [exact S2|]. split; [rewrite S3; lia|exact S4].
Qed.

(** a text contains at most one numeral up to the next character that is no digit *)
Lemma split_digits s : forall t u v, all_digits s -> all_digits t ->
  (s ++ String (ascii_of_nat 10) u = t ++ String (ascii_of_nat 10) v)%string -> s = t /\ u = v.
Proof.
  assert (N : ~ is_digit (ascii_of_nat 10)) by (vm_compute; intros [K _]; apply K; reflexivity).
  induction s as [|c s IH]; intros [|d t] u v Hs Ht E; cbn in E.
  - injection E as E. auto.
  - injection E as E _. destruct Ht as [Ht _]. rewrite <- E in Ht. exfalso. apply N. exact Ht.
  - injection E as E _. destruct Hs as [Hs _]. rewrite E in Hs. exfalso. apply N. exact Hs.
  - injection E as E1 E2. destruct Hs as [_ Hs]. destruct Ht as [_ Ht]. destruct (IH t u v Hs Ht E2) as [-> ->]. subst. auto.
Qed.


(** ** a number has one numeral *)
Lemma read_bounds s : forall b, all_digits s ->
  b * 10 ^ Z.of_nat (String.length s) <= read_from b s < (b + 1) * 10 ^ Z.of_nat (String.length s).
Proof.
  induction s as [|c s IH]; intros b Hs; cbn [read_from String.length].
  - change (10 ^ Z.of_nat 0) with 1. lia.
  - destruct Hs as [Hc Hs]. specialize (IH (10 * b + digit_value c) Hs). rewrite Nat2Z.inj_succ, Z.pow_succ_r by lia.
    unfold is_digit in Hc. unfold digit_value in *. set (P := 10 ^ Z.of_nat (String.length s)) in *.
    assert (0 < P) by (apply Z.pow_pos_nonneg; lia). nia.
Qed.
Lemma read_inj s : forall t b b', all_digits s -> all_digits t -> String.length s = String.length t ->
  read_from b s = read_from b' t -> b = b' /\ s = t.
Proof.
  induction s as [|c s IH]; intros [|d t] b b' Hs Ht L E; try discriminate L; [auto|].
  destruct Hs as [Hc Hs]. destruct Ht as [Hd Ht]. cbn [String.length read_from] in L, E. injection L as L.
  destruct (IH t _ _ Hs Ht L E) as [E1 ->]. unfold is_digit in Hc, Hd. unfold digit_value in E1.
  assert (b = b') by lia. split; [assumption|]. f_equal. subst b'.
  rewrite <- (ascii_nat_embedding c), <- (ascii_nat_embedding d). f_equal. lia.
Qed.
Lemma digit_nonzero c : is_digit c -> c <> "0"%char -> 1 <= digit_value c.
Proof.
  intros H N. unfold is_digit in H. unfold digit_value. assert (nat_of_ascii c <> 48%nat); [|lia].
  intros E. apply N. rewrite <- (ascii_nat_embedding c), E. reflexivity.
Qed.
Lemma numeral_length n s t : numeral n s -> numeral n t -> (String.length s <= String.length t)%nat.
Proof.
  intros (S1 & S2 & S3 & S4) (T1 & T2 & T3 & T4).
  destruct s as [|c s]; [congruence|]. destruct t as [|d t]; [congruence|]. cbn [String.length].
  destruct (ascii_dec c "0") as [->|N]; [rewrite (S4 s eq_refl); cbn; lia|].
  pose proof (read_bounds s (digit_value c) (proj2 S2)) as Bs. pose proof (read_bounds t (digit_value d) (proj2 T2)) as Bt.
  cbn [read_from] in S3, T3. rewrite Z.mul_0_r, Z.add_0_l in S3, T3. rewrite S3 in Bs. rewrite T3 in Bt.
  pose proof (digit_nonzero c (proj1 S2) N) as Hc. pose proof (proj1 T2) as Hd. unfold is_digit in Hd.
  assert (Hd' : digit_value d <= 9) by (unfold digit_value; lia).
  set (i := Z.of_nat (String.length s)) in *. set (j := Z.of_nat (String.length t)) in *.
  assert (0 < 10 ^ i) by (apply Z.pow_pos_nonneg; lia). assert (0 < 10 ^ j) by (apply Z.pow_pos_nonneg; lia).
  assert (L : 10 ^ i < 10 ^ (j + 1)) by (rewrite Z.pow_add_r by lia; change (10 ^ 1) with 10; nia).
  apply Z.pow_lt_mono_r_iff in L; lia.
Qed.
Theorem C88_one_numeral n s t : numeral n s -> numeral n t -> s = t.
Proof.
  intros Hs Ht. pose proof (numeral_length n s t Hs Ht). pose proof (numeral_length n t s Ht Hs).
  destruct Hs as (_ & S2 & S3 & _). destruct Ht as (_ & T2 & T3 & _).
  apply (read_inj s t 0 0); auto; [lia|congruence].
Qed.

(** ** the four lines *)
Theorem C88_text (inf : info) : 0 <= width inf -> 0 <= height inf -> 0 <= channels inf ->
  exists w h c, numeral (width inf) w /\ numeral (height inf) h /\ numeral (channels inf) c /\
    fmt_info inf = ("width: " ++ w ++ newline ++ "height: " ++ h ++ newline ++ "channels: " ++ c ++ newline
                    ++ "alpha: " ++ (if alpha inf then "true" else "false"))%string.
Proof.
  intros Hw Hh Hc. exists (fmt_uint (width inf)), (fmt_uint (height inf)), (fmt_uint (channels inf)).
  split; [apply fmt_uint_numeral, Hw|]. split; [apply fmt_uint_numeral, Hh|]. split; [apply fmt_uint_numeral, Hc|]. reflexivity.
Qed.
Lemma read_line (k : string) (a b u v : string) : all_digits a -> all_digits b ->
  (k ++ a ++ newline ++ u = k ++ b ++ newline ++ v)%string -> a = b /\ u = v.
Proof.
  intros Ha Hb E. assert (E' : (a ++ newline ++ u = b ++ newline ++ v)%string).
  { induction k as [|c k IH]; [exact E|]. apply IH. cbn in E. injection E as E. exact E. }
  exact (split_digits a b u v Ha Hb E').
Qed.
Lemma decimal_inj n m : 0 <= n -> 0 <= m -> fmt_uint n = fmt_uint m -> n = m.
Proof.
  intros Hn Hm E. destruct (fmt_uint_numeral n Hn) as (_ & _ & V & _). destruct (fmt_uint_numeral m Hm) as (_ & _ & V' & _). congruence.
Qed.
(** the text determines the layout *)
Theorem C88_faithful (i j : info) : info_ok i -> info_ok j -> fmt_info i = fmt_info j -> i = j.
Proof.
  intros (Wi & Hi & Ci & _) (Wj & Hj & Cj & _) E. unfold fmt_info in E.
  apply read_line in E as [E1 E]; try (apply fmt_uint_numeral; lia).
  apply read_line in E as [E2 E]; try (apply fmt_uint_numeral; lia).
  apply read_line in E as [E3 E]; try (apply fmt_uint_numeral; lia).
  apply decimal_inj in E1, E2, E3; try lia.
  destruct i as [w h c a], j as [w' h' c' a']. cbn [width height channels alpha] in *. subst. f_equal.
  destruct a, a'; try reflexivity; discriminate E.
Qed.
Theorem C88_example : fmt_info (Info 640 480 4 true) =
  ("width: 640" ++ newline ++ "height: 480" ++ newline ++ "channels: 4" ++ newline ++ "alpha: true")%string
  /\ fmt_info (Info 0 4294967295 255 false) =
  ("width: 0" ++ newline ++ "height: 4294967295" ++ newline ++ "channels: 255" ++ newline ++ "alpha: false")%string.
Proof. split; [reflexivity|]. unfold fmt_info. cbn [width height channels alpha].
  rewrite (C88_one_numeral 4294967295 (fmt_uint 4294967295) "4294967295"); [reflexivity|apply fmt_uint_numeral; lia|].
  split; [discriminate|]. split; [repeat (split; [vm_compute; split; discriminate|]); exact I|]. split; [reflexivity|]. intros rest E. discriminate E.
Qed.
