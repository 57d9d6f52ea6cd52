(** Lemmas about the AVX2 loops of src/simd.rs. *)
From Verif.Proofs Require Export ToneL.
From Verif.Model Require Export Simd.
Open Scope Z_scope.

Lemma mwhile_S {S} n (c : S -> outcome bool) body s :
  mwhile (Datatypes.S n) c body s = (let! b := c s in if b then let! s' := body s in mwhile n c body s' else Ret s).
Proof. reflexivity. Qed.

Lemma mwhile_step {S} n (c : S -> outcome bool) body s s' : c s = Ret true -> body s = Ret s' ->
  mwhile (Datatypes.S n) c body s = mwhile n c body s'.
Proof. intros H1 H2. rewrite mwhile_S, H1, bind_Ret, H2. reflexivity. Qed.

Lemma map2_length {A B C} (f : A -> B -> C) a b : length (map2 f a b) = Nat.min (length a) (length b).
Proof. revert b. induction a as [|x a IH]; intros [|y b]; cbn; auto. Qed.
Lemma nth_map2 {A B C} (f : A -> B -> C) a b k da db dc : (k < length a)%nat -> (k < length b)%nat ->
  nth k (map2 f a b) dc = f (nth k a da) (nth k b db).
Proof.
  revert b k. induction a as [|x a IH]; intros [|y b] [|k] Ha Hb; cbn in *; try lia; auto.
  apply IH; lia.
Qed.

Lemma loadu_ok v i : 0 <= i -> i + 32 <= len v -> loadu v i = Ret (firstn 32 (skipn (Z.to_nat i) v)).
Proof. intros. unfold loadu. replace ((0 <=? i) && (i + 32 <=? len v)) with true by lia. reflexivity. Qed.
Lemma loadu_UB v i : i + 32 > len v -> loadu v i = UB.
Proof. intros. unfold loadu. replace ((0 <=? i) && (i + 32 <=? len v)) with false by lia. reflexivity. Qed.
Lemma store_ok v i r : 0 <= i -> i + len r <= len v ->
  exists out, store v i r = Ret out /\ length out = length v
   /\ forall j d, nth j out d = if (Z.to_nat i <=? j)%nat && (j <? Z.to_nat i + length r)%nat
                                then nth (j - Z.to_nat i) r d else nth j v d.
Proof.
  intros Hi Hl. unfold store. replace ((0 <=? i) && (i + len r <=? len v)) with true by lia.
  eexists. split; [reflexivity|]. unfold len in *. split.
  - rewrite !app_length, firstn_length, skipn_length. lia.
  - intros j d. destruct (Nat.leb_spec (Z.to_nat i) j) as [H1|H1]; cbn [andb].
    + rewrite app_nth2 by (rewrite firstn_length; lia). rewrite firstn_length.
      replace (Nat.min (Z.to_nat i) (length v)) with (Z.to_nat i) by lia.
      destruct (Nat.ltb_spec j (Z.to_nat i + length r)) as [H2|H2].
      * rewrite app_nth1 by lia. reflexivity.
      * rewrite app_nth2 by lia. rewrite nth_skipn. f_equal. lia.
    + rewrite app_nth1 by (rewrite firstn_length; lia). rewrite nth_firstn by lia. reflexivity.
Qed.

(** ** The chunk loop of adds_256_u8 and adds_n_256_u8 *)
Section Adds.
  Context (p : profile) (img : image Z) (Hwf : wf img) (val : Z) (vr : reg) (s : Z).
  Context (Hs : 0 < s <= 32) (Hs2 : 16 <= s) (Hvr : length vr = 32%nat).
  Notation N := (len (data img)).
  Definition sat (x v : Z) : Z := if 0 <? val then Z.min 255 (x + v) else Z.max 0 (x - v).
  Definition xv (j : Z) : Z := nth (Z.to_nat j) (data img) 0.
  Definition vv (k : Z) : Z := nth (Z.to_nat k) vr 0.
  Definition chunk_state (m : Z) : list Z :=
    map (fun j => if j <? s * m then sat (xv j) (vv (j mod s))
                  else if (0 <? m) && (j <? s * m + (32 - s)) then sat (xv j) (vv (j - s * m + s)) else 0) (zrange 0 N).

  Notation cond := (fun '(i, _) => let! e := iadd p U32 i s in Ret (e <=? N)).
  Notation body := (fun '(i, d) =>
        let! chunk := loadu (data img) i in
        let res := if 0 <? val then adds_epu8 chunk vr else subs_epu8 chunk vr in
        let! d := store d i res in
        let! i := iadd p U32 i s in
        Ret (i, d)).

  Lemma chunk_init : repeat 0 (Z.to_nat N) = chunk_state 0.
  Proof.
    apply list_ext with (d := 0).
    - unfold chunk_state. rewrite repeat_length, map_length, zrange_length. f_equal. lia.
    - rewrite repeat_length. intros j Hj. rewrite nth_repeat' by exact Hj.
      unfold chunk_state. replace j with (Z.to_nat (Z.of_nat j)) at 1 by lia.
      rewrite nth_map_zrange by lia. replace (0 + Z.of_nat j <? s * 0) with false by lia. reflexivity.
  Qed.

  Lemma N_le : N <= u32_max.
  Proof. rewrite (wf_data _ Hwf). apply (wf_full _ Hwf). Qed.

  Lemma chunk_step m : 0 <= m -> s * m + 32 <= N -> s * (m + 1) <= u32_max ->
    body (s * m, chunk_state m) = Ret (s * (m + 1), chunk_state (m + 1)).
  Proof.
    intros Hm Hn Hu. pose proof N_le as HN. unfold u32_max in *.
    rewrite loadu_ok by lia. rewrite bind_Ret.
    set (chunk := firstn 32 (skipn (Z.to_nat (s * m)) (data img))).
    assert (Hcl : length chunk = 32%nat).
    { unfold chunk. rewrite firstn_length, skipn_length. unfold len in Hn. lia. }
    assert (Hch : forall k, (k < 32)%nat -> nth k chunk 0 = xv (s * m + Z.of_nat k)).
    { intros k Hk. unfold chunk, xv. rewrite nth_firstn by exact Hk. rewrite nth_skipn. f_equal. lia. }
    set (res := if 0 <? val then adds_epu8 chunk vr else subs_epu8 chunk vr). cbv zeta.
    assert (Hrl : length res = 32%nat).
    { unfold res, adds_epu8, subs_epu8. destruct (0 <? val); rewrite map2_length; lia. }
    assert (Hr : forall k, (k < 32)%nat -> nth k res 0 = sat (xv (s * m + Z.of_nat k)) (vv (Z.of_nat k))).
    { intros k Hk. unfold res, sat, vv, adds_epu8, subs_epu8. rewrite Nat2Z.id, <- Hch by exact Hk.
      destruct (0 <? val); rewrite (nth_map2 _ _ _ _ 0 0) by lia; reflexivity. }
    assert (Hsl : length (chunk_state m) = length (data img)).
    { unfold chunk_state. rewrite map_length, zrange_length. unfold len. lia. }
    destruct (store_ok (chunk_state m) (s * m) res) as [out [E [Hl Hn']]]; try (unfold len in *; nia).
    rewrite E, bind_Ret. rewrite iadd_ok by (cbn; lia). rewrite bind_Ret. f_equal. f_equal; [lia|].
    apply list_ext with (d := 0).
    - unfold chunk_state at 1. rewrite map_length, zrange_length. unfold len in *. lia.
    - intros j Hj. rewrite Hl, Hsl in Hj. rewrite Hn'.
      unfold chunk_state at 2.
      replace j with (Z.to_nat (Z.of_nat j)) at 5 by lia. rewrite nth_map_zrange by (unfold len; lia). rewrite Z.add_0_l.
      destruct (Nat.leb_spec (Z.to_nat (s * m)) j) as [H1|H1]; cbn [andb].
      + destruct (Nat.ltb_spec j (Z.to_nat (s * m) + length res)) as [H2|H2].
        * rewrite Hr by lia. replace (s * m + Z.of_nat (j - Z.to_nat (s * m))) with (Z.of_nat j) by lia.
          destruct (Z.ltb_spec (Z.of_nat j) (s * (m + 1))) as [H3|H3].
          { f_equal. f_equal. assert (0 <= s * m) by nia. apply (Z.mod_unique_pos _ _ m); lia. }
          { replace (0 <? m + 1) with true by lia. cbn [andb].
            replace (Z.of_nat j <? s * (m + 1) + (32 - s)) with true by lia. f_equal. f_equal. lia. }
        * unfold chunk_state. replace j with (Z.to_nat (Z.of_nat j)) at 1 by lia.
          rewrite nth_map_zrange by (unfold len; lia). rewrite Z.add_0_l.
          replace (Z.of_nat j <? s * m) with false by lia.
          replace (Z.of_nat j <? s * m + (32 - s)) with false by lia. rewrite andb_false_r.
          replace (Z.of_nat j <? s * (m + 1)) with false by lia.
          replace (Z.of_nat j <? s * (m + 1) + (32 - s)) with false by lia. rewrite andb_false_r. reflexivity.
      + unfold chunk_state. replace j with (Z.to_nat (Z.of_nat j)) at 1 by lia.
        rewrite nth_map_zrange by (unfold len; lia). rewrite Z.add_0_l.
        replace (Z.of_nat j <? s * m) with true by lia.
        replace (Z.of_nat j <? s * (m + 1)) with true by lia. reflexivity.
  Qed.

  Lemma chunk_steps m fuel : 0 <= m -> (0 < m -> s * (m - 1) + 32 <= N /\ s * m <= u32_max) ->
    mwhile (Z.to_nat m + fuel) cond body (0, repeat 0 (Z.to_nat N)) = mwhile fuel cond body (s * m, chunk_state m).
  Proof.
    revert fuel. induction (Z_le_dec 0 m) as [_|]; [|lia].
    intros fuel Hm. revert fuel. pattern m. apply natlike_ind; [| |exact Hm].
    - intros fuel _. rewrite chunk_init. rewrite Z.mul_0_r. reflexivity.
    - intros m' Hm' IH fuel Hc. unfold Z.succ in *.
      destruct Hc as [Hc Hu]; [lia|]. replace (m' + 1 - 1) with m' in Hc by lia.
      replace (Z.to_nat (m' + 1) + fuel)%nat with (Z.to_nat m' + Datatypes.S fuel)%nat by lia.
      rewrite IH.
      2: { intros _. unfold u32_max in *. split; nia. }
      pose proof N_le. apply mwhile_step.
      + unfold u32_max in *. rewrite iadd_ok by (cbn; nia). rewrite bind_Ret. f_equal. nia.
      + apply chunk_step; assumption.
  Qed.

  (** the loop ends after the last whole chunk ... *)
  Lemma adds_loop_end : N + s <= u32_max -> N < s \/ 32 - s <= N mod s ->
    adds_loop p img N s val vr = Ret (s * (N / s), chunk_state (N / s)).
  Proof.
    intros Hu Hr. pose proof (len_nonneg (data img)). pose proof (Z.div_mod N s) as Hdm.
    pose proof (Z.mod_pos_bound N s) as Hmb.
    assert (H0 : 0 <= N / s) by (apply Z.div_pos; lia). unfold u32_max in *.
    assert (Hle : N / s <= N) by (apply Z.div_le_upper_bound; nia).
    unfold adds_loop.
    replace (Datatypes.S (Z.to_nat N)) with (Z.to_nat (N / s) + Datatypes.S (Z.to_nat (N - N / s)))%nat by lia.
    rewrite chunk_steps.
    - rewrite mwhile_S. rewrite iadd_ok by (cbn; lia). rewrite !bind_Ret.
      replace (s * (N / s) + s <=? N) with false by lia. reflexivity.
    - exact H0.
    - intros Hp. unfold u32_max. destruct Hr as [Hr|Hr]; [rewrite Z.div_small in Hp by lia; lia|]. nia.
  Qed.

  (** ... or reads and writes outside the buffers *)
  Lemma adds_loop_UB : s <= N -> N mod s < 32 - s -> adds_loop p img N s val vr = UB.
  Proof.
    intros Hn Hr. pose proof (len_nonneg (data img)). pose proof (Z.div_mod N s) as Hdm.
    pose proof (Z.mod_pos_bound N s) as Hmb. pose proof N_le as HN.
    assert (H0 : 1 <= N / s) by (apply Z.div_le_lower_bound; lia). unfold u32_max in *.
    assert (Hle : N / s <= N) by (apply Z.div_le_upper_bound; nia).
    unfold adds_loop.
    replace (Datatypes.S (Z.to_nat N)) with (Z.to_nat (N / s - 1) + Datatypes.S (Z.to_nat (N - N / s + 1)))%nat by lia.
    rewrite chunk_steps.
    - rewrite mwhile_S. rewrite iadd_ok by (cbn; nia). rewrite !bind_Ret.
      replace (s * (N / s - 1) + s <=? N) with true by nia. rewrite loadu_UB by nia. reflexivity.
    - lia.
    - intros Hp. unfold u32_max. nia.
  Qed.

  (** a buffer so large that the position of the next chunk does not fit in u32: overflow
      panic in debug, out-of-bounds access in release *)
  Lemma adds_loop_huge : N < s \/ 32 - s <= N mod s -> s * (N / s + 1) > u32_max ->
    adds_loop p img N s val vr = match p with Debug => Panic | Release => UB end.
  Proof.
    intros Hr Hu. pose proof (len_nonneg (data img)). pose proof (Z.div_mod N s) as Hdm.
    pose proof (Z.mod_pos_bound N s) as Hmb. pose proof N_le as HN.
    assert (H0 : 0 <= N / s) by (apply Z.div_pos; lia). unfold u32_max in *.
    assert (Hle : N / s <= N) by (apply Z.div_le_upper_bound; nia).
    unfold adds_loop.
    replace (Datatypes.S (Z.to_nat N)) with (Z.to_nat (N / s) + Datatypes.S (Z.to_nat (N - N / s)))%nat by lia.
    rewrite chunk_steps.
    - rewrite mwhile_S. unfold iadd at 1. destruct p.
      + rewrite arith_debug_panic by (cbn; lia). reflexivity.
      + destruct (arith_cases Release U32 (s * (N / s) + s)) as [[Hin _]|[_ E]]; [cbn in Hin; lia|]. rewrite E.
        assert (Ec : cast U32 (s * (N / s) + s) <= N).
        { unfold cast. cbn. rewrite Z.sub_0_r, Z.add_0_r.
          replace (s * (N / s) + s) with (s * (N / s) + s - 4294967296 + 1 * 4294967296) by lia.
          rewrite Z.mod_add by lia. rewrite Z.mod_small by nia. nia. }
        rewrite !bind_Ret. replace (cast U32 (s * (N / s) + s) <=? N) with true by lia.
        rewrite loadu_UB by nia. reflexivity.
    - exact H0.
    - intros Hp. unfold u32_max. destruct Hr as [Hr|Hr]; [rewrite Z.div_small in Hp by lia; lia|]. nia.
  Qed.
End Adds.
