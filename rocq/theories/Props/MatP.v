(** * C28 (matrix-vector product), C30 (kernel generators), C32 (lookup tables). *)
From Verif.Model Require Import Util.
From Verif.Spec Require Import SumS.
From Verif.Proofs Require Import BaseL ImageL FloatL SumL LoopL.
Open Scope Z_scope.

(** ** C28 *)
(** row i of the product, with the operations of the sample type, left to right *)
Definition row_dot p {T} (N : number T) (mat input : list T) (i : Z) : outcome T :=
  mfold (fun acc j =>
      let! t := n_mul N p (nth (Z.to_nat (len input * i + j)) mat (n_zero N)) (nth (Z.to_nat j) input (n_zero N)) in
      n_add N p acc t)
    (zrange 0 (len input)) (n_zero N).

Lemma vector_mul_loop_eq p {T} (N : number T) mat input :
  len input * len input <= len mat -> len mat <= hi USIZE ->
  vector_mul_loop p N mat input (len input) (repeat (n_zero N) (length input))
  = mmap (row_dot p N mat input) (zrange 0 (len input)).
Proof.
  intros Hm Hmax. unfold vector_mul_loop. set (n := len input). set (z := n_zero N).
  assert (Hn : 0 <= n) by apply len_nonneg.
  assert (Hrep : len (repeat z (length input)) = n) by (rewrite len_repeat; reflexivity).
  transitivity (mfold (fun out i => let! a := (fun i a0 => mfold (fun acc j =>
      let! t := n_mul N p (nth (Z.to_nat (n * i + j)) mat z) (nth (Z.to_nat j) input z) in
      n_add N p acc t) (zrange 0 n) a0) i (nth (Z.to_nat i) out z) in Ret (upd out (Z.to_nat i) a))
      (zrange 0 n) (repeat z (length input))).
  - apply (mfold_ext_inv (fun out => len out = n)); [exact Hrep| |].
    + intros out i Hl Hi. apply in_zrange in Hi.
      rewrite <- (acc_loop (fun j => n_mul N p (nth (Z.to_nat (n * i + j)) mat z) (nth (Z.to_nat j) input z)) (fun a b => n_add N p a b)) by lia.
      apply mfold_ext. intros s j Hj. apply in_zrange in Hj.
      assert (0 <= n * i + j < n * n) by nia. assert (0 <= n * i) by nia. unfold n in *.
      rewrite imul_ok by (cbn [lo hi USIZE U64] in *; lia). cbn [bind].
      rewrite iadd_ok by (cbn [lo hi USIZE U64] in *; lia). cbn [bind].
      rewrite (vget_ok mat _ z), (vget_ok input j z) by lia. reflexivity.
    + intros out i s' Hl Hi E. apply bind_inv in E as [a [_ E]]. injection E as <-. rewrite len_upd. exact Hl.
  - pose proof (fill_loop (fun i a0 => mfold (fun acc j =>
      let! t := n_mul N p (nth (Z.to_nat (n * i + j)) mat z) (nth (Z.to_nat j) input z) in
      n_add N p acc t) (zrange 0 n) a0) (repeat z (length input)) z) as F. rewrite Hrep in F.
    etransitivity; [exact F|]. apply mmap_ext. intros i Hi. apply in_zrange in Hi.
    rewrite nth_repeat' by (unfold n, len in Hi; lia). reflexivity.
Qed.

Theorem C28_vector_mul p {T} (N : number T) mat input output :
  0 < len input -> len mat <= hi USIZE -> len mat / len input = len input ->
  vector_mul p N mat input = mmap (row_dot p N mat input) (zrange 0 (len input))
  /\ vector_mul_mut p N mat input output = mmap (row_dot p N mat input) (zrange 0 (len input)).
Proof.
  intros Hn Hmax Hc.
  assert (Hm : len input * len input <= len mat).
  { rewrite <- Hc at 2. apply Z.mul_div_le. exact Hn. }
  assert (0 <= len mat) by apply len_nonneg.
  unfold vector_mul, vector_mul_mut.
  rewrite idiv_ok by (cbn [lo hi USIZE U64] in *; lia). cbn [bind]. rewrite Hc.
  unfold check_equal_Z. rewrite Z.eqb_refl. cbn [bind]. split.
  - apply vector_mul_loop_eq; assumption.
  - assert (E : mfold (fun out (_ : Z) => Ret (out ++ [n_zero N])) (zrange 0 (len input)) [] = Ret (repeat (n_zero N) (length input))).
    { pose proof (mfold_push (fun _ : Z => Ret (n_zero N)) (zrange 0 (len input)) []) as E. cbn [bind] in E.
      rewrite E. rewrite mmap_pure. cbn [bind app]. f_equal.
      replace (length input) with (length (zrange 0 (len input))) by (rewrite zrange_length; unfold len; lia).
      induction (zrange 0 (len input)) as [|a l IH]; cbn; [reflexivity|]. f_equal. apply IH. cbn [bind] in *. clear.
      pose proof (mfold_push (fun _ : Z => Ret (n_zero N)) l []) as E. exact E. }
    rewrite E. cbn [bind]. apply vector_mul_loop_eq; assumption.
Qed.
Theorem C28_wrong_dimension p {T} (N : number T) mat input output :
  0 < len input -> len mat <= hi USIZE -> len mat / len input <> len input ->
  vector_mul p N mat input = Fail InvalidArgError /\ vector_mul_mut p N mat input output = Fail InvalidArgError.
Proof.
  intros Hn Hmax Hc. assert (0 <= len mat) by apply len_nonneg. unfold vector_mul, vector_mul_mut.
  rewrite idiv_ok by (cbn [lo hi USIZE U64] in *; lia). cbn [bind]. unfold check_equal_Z.
  replace (len mat / len input =? len input) with false by lia. split; reflexivity.
Qed.
Theorem C28_empty_vector p {T} (N : number T) mat output :
  vector_mul p N mat [] = Panic /\ vector_mul_mut p N mat [] output = Panic.
Proof. split; reflexivity. Qed.

(** floats: the sums in IEEE arithmetic, left to right, starting from 0 *)
Theorem C28_vector_mul_f32 p mat input :
  0 < len input -> len mat <= hi USIZE -> len mat / len input = len input ->
  vector_mul p num_f32 mat input
  = Ret (map (fun i => fold_left (fun acc j => f32_add acc (f32_mul (nth (Z.to_nat (len input * i + j)) mat f32_0)
                                                                    (nth (Z.to_nat j) input f32_0)))
                         (zrange 0 (len input)) f32_0)
             (zrange 0 (len input))).
Proof.
  intros Hn Hmax Hc. destruct (C28_vector_mul p num_f32 mat input [] Hn Hmax Hc) as [-> _].
  apply mmap_Ret. intros i _. unfold row_dot. cbn [n_mul n_add num_f32 bind].
  change (n_zero num_f32) with f32_0.
  assert (G : forall l a, mfold (fun acc j => Ret (f32_add acc (f32_mul (nth (Z.to_nat (len input * i + j)) mat f32_0) (nth (Z.to_nat j) input f32_0)))) l a
     = Ret (fold_left (fun acc j => f32_add acc (f32_mul (nth (Z.to_nat (len input * i + j)) mat f32_0) (nth (Z.to_nat j) input f32_0))) l a)).
  { induction l as [|j l IH]; intros a; cbn; auto. }
  apply G.
Qed.
(** unsigned integers: the mathematical product when it fits *)
Theorem C28_vector_mul_int p t mat input :
  lo t = 0 -> 0 < len input -> len mat <= hi USIZE -> len mat / len input = len input ->
  Forall (fun z => 0 <= z) mat -> Forall (fun z => 0 <= z) input ->
  (forall i, 0 <= i < len input ->
     Zsum (fun j => nth (Z.to_nat (len input * i + j)) mat 0 * nth (Z.to_nat j) input 0) 0 (len input) <= hi t) ->
  vector_mul p (num_int t) mat input
  = Ret (map (fun i => Zsum (fun j => nth (Z.to_nat (len input * i + j)) mat 0 * nth (Z.to_nat j) input 0) 0 (len input))
             (zrange 0 (len input))).
Proof.
  intros Hlo Hn Hmax Hc Hmp Hip Hs. destruct (C28_vector_mul p (num_int t) mat input [] Hn Hmax Hc) as [-> _].
  apply mmap_Ret. intros i Hi. apply in_zrange in Hi. specialize (Hs i Hi).
  unfold row_dot. change (n_zero (num_int t)) with 0. cbn [n_mul n_add num_int].
  set (f := fun j => nth (Z.to_nat (len input * i + j)) mat 0 * nth (Z.to_nat j) input 0) in *.
  assert (Hnn : forall (l : list Z) k, Forall (fun z => 0 <= z) l -> 0 <= nth k l 0).
  { intros l k Hl. destruct (nth_in_or_default k l 0) as [Hin|E]; [|lia]. rewrite Forall_forall in Hl. auto. }
  assert (Hf : forall j, 0 <= f j) by (intros j; unfold f; apply Z.mul_nonneg_nonneg; apply Hnn; assumption).
  destruct (mfold_zrange_inv (fun k s => s = Zsum f 0 k) (fun acc j =>
      let! t0 := imul p t (nth (Z.to_nat (len input * i + j)) mat 0) (nth (Z.to_nat j) input 0) in iadd p t acc t0) 0 (len input) 0)
    as [s [E ->]].
  - lia.
  - rewrite Zsum_nil; lia.
  - intros k s Hk ->.
    assert (B : Zsum f 0 (k + 1) <= Zsum f 0 (len input)) by (apply Zsum_sub; try lia; intros; apply Hf).
    pose proof (Zsum_snoc f 0 k ltac:(lia)) as Sn. pose proof (Hf k) as Fk.
    assert (0 <= Zsum f 0 k) by (apply Zsum_nonneg; intros; apply Hf).
    change (nth (Z.to_nat (len input * i + k)) mat 0 * nth (Z.to_nat k) input 0) with (f k) in *.
    exists (Zsum f 0 (k + 1)). split; [|reflexivity].
    unfold imul. fold (f k). rewrite arith_ok by lia. cbn [bind]. unfold iadd. rewrite arith_ok by lia. f_equal. lia.
  - exact E.
Qed.
Example C28_example :
  vector_mul Debug (num_int U32) [1;2;3;4] [5;6] = Ret [17; 39]
  /\ vector_mul Debug (num_int U32) [1;2;3;4;5] [5;6] = Ret [17; 39]
  /\ vector_mul Debug (num_int U32) [1;2;3;4;5;6] [5;6] = Fail InvalidArgError.
Proof. conj; reflexivity. Qed.

(** ** C30 *)
(** squared distance of entry (i,j) from the centre of an n x n kernel *)
Definition dist2 (n i j : Z) : Z := (i - (n - 1) / 2) ^ 2 + (j - (n - 1) / 2) ^ 2.
(** m is the n x n matrix (row-major) with entries g (squared distance from the centre) *)
Definition radial_kernel (n : Z) (g : Z -> f32) (m : list f32) : Prop :=
  len m = n * n /\ forall i j, 0 <= i < n -> 0 <= j < n ->
    nth_error m (Z.to_nat (i * n + j)) = Some (g (dist2 n i j)).

Lemma dist2_sym n i j : dist2 n i j = dist2 n j i.
Proof. unfold dist2. lia. Qed.

Lemma sq_lt a n : - n < a < n -> 0 <= a * a < n * n.
Proof. nia. Qed.
Lemma sq_le a n : - n <= a <= n -> 0 <= a * a <= n * n.
Proof. nia. Qed.

Lemma kernel_fill_ok p num n : 1 <= n -> n * n <= 2147483647 ->
  exists m, kernel_fill p num n = Ret m /\ radial_kernel n num m.
Proof.
  intros Hn Hnn. assert (Hn16 : n <= 46340) by nia. unfold kernel_fill.
  rewrite imul_ok by ity_lia. cbn [bind]. rewrite isub_ok by ity_lia. cbn [bind].
  rewrite idiv_ok by ity_lia. cbn [bind].
  pose proof (Z.div_mod (n - 1) 2 ltac:(lia)) as Hdm. pose proof (Z.mod_pos_bound (n - 1) 2 ltac:(lia)) as Hmb.
  assert (Hkr : 0 <= (n - 1) / 2 < n) by lia.
  rewrite (cast_id I32 ((n - 1) / 2)) by ity_lia. rewrite (cast_id I32 n) by ity_lia.
  set (k := (n - 1) / 2) in *.
  set (P := fun i j (m : list f32) => len m = n * n /\ forall a b, 0 <= a < n -> 0 <= b < n ->
      Z.min a b < i \/ (Z.min a b = i /\ Z.max a b < j) -> nth (Z.to_nat (a * n + b)) m f32_0 = num (dist2 n a b)).
  set (body := fun filter i j => if i <=? j then
          let! ik := isub p I32 i k in
          let! jk := isub p I32 j k in
          let! ii := imul p I32 ik ik in
          let! jj := imul p I32 jk jk in
          let! d2 := iadd p I32 ii jj in
          let v := num d2 in
          let! a := imul p I32 i n in
          let! b := iadd p I32 a j in
          let! filter := vset filter (cast USIZE b) v in
          if negb (i =? j) then
            let! a := imul p I32 j n in
            let! b := iadd p I32 a i in
            vset filter (cast USIZE b) v
          else Ret filter
        else Ret filter).
  assert (Hstep : forall i j m, 0 <= i < n -> 0 <= j < n -> P i j m -> exists m', body m i j = Ret m' /\ P i (j + 1) m').
  { intros i j m Hi Hj [Hl HP]. unfold body. destruct (Z.leb_spec i j) as [Hij|Hij].
    - assert (Hik : - n < i - k < n) by lia. assert (Hjk : - n < j - k < n) by lia.
      pose proof (sq_lt (i - k) n Hik) as B1. pose proof (sq_lt (j - k) n Hjk) as B2.
      pose proof (sq_le (i - k) 23170 ltac:(lia)) as B1'. pose proof (sq_le (j - k) 23170 ltac:(lia)) as B2'.
      destruct (pos_bound n n 0 j i) as [C1 [_ [_ C1']]]; try lia.
      destruct (pos_bound n n 0 i j) as [C2 [_ [_ C2']]]; try lia.
      rewrite (isub_ok p I32 i k) by ity_lia. cbn [bind]. rewrite (isub_ok p I32 j k) by ity_lia. cbn [bind].
      rewrite (imul_ok p I32 (i - k)) by ity_lia. cbn [bind]. rewrite (imul_ok p I32 (j - k)) by ity_lia. cbn [bind].
      rewrite iadd_ok by ity_lia. cbn [bind].
      replace ((i - k) * (i - k) + (j - k) * (j - k)) with (dist2 n i j) by (unfold dist2; fold k; lia).
      rewrite (imul_ok p I32 i n) by ity_lia. cbn [bind]. rewrite iadd_ok by ity_lia. cbn [bind].
      rewrite (cast_id USIZE) by ity_lia. rewrite vset_ok by lia. cbn [bind].
      assert (Hw : forall m0 a0 b0, len m0 = n * n -> 0 <= a0 < n -> 0 <= b0 < n -> forall v a b, 0 <= a < n -> 0 <= b < n ->
        nth (Z.to_nat (a * n + b)) (upd m0 (Z.to_nat (a0 * n + b0)) v) f32_0
        = if (a =? a0) && (b =? b0) then v else nth (Z.to_nat (a * n + b)) m0 f32_0).
      { intros m0 a0 b0 Hl0 Ha0 Hb0 v a b Ha Hb.
        destruct (pos_bound n n 0 b0 a0) as [D1 _]; try lia. destruct (pos_bound n n 0 b a) as [D2 _]; try lia.
        rewrite nth_upd by (unfold len in Hl0; lia).
        destruct (Nat.eqb_spec (Z.to_nat (a * n + b)) (Z.to_nat (a0 * n + b0))) as [E|E].
        - assert (E' : a * n + b = a0 * n + b0) by lia. destruct (pos_inj n b a b0 a0 Hb Hb0 E') as [-> ->].
          rewrite !Z.eqb_refl. reflexivity.
        - replace ((a =? a0) && (b =? b0)) with false; [reflexivity|].
          symmetry. apply andb_false_iff. destruct (Z.eqb_spec a a0) as [->|]; auto. destruct (Z.eqb_spec b b0) as [->|]; auto.
          congruence. }
      destruct (Z.eqb_spec i j) as [->|Hne]; cbn [negb].
      + eexists. split; [reflexivity|]. unfold P. rewrite len_upd. split; [exact Hl|].
        intros a b Ha Hb Hor. rewrite Hw by assumption.
        destruct ((a =? j) && (b =? j)) eqn:E.
        * assert (a = j /\ b = j) as [-> ->] by lia. reflexivity.
        * apply HP; auto. lia.
      + rewrite (imul_ok p I32 j n) by ity_lia. cbn [bind]. rewrite iadd_ok by ity_lia. cbn [bind].
        rewrite (cast_id USIZE) by ity_lia. rewrite vset_ok by (rewrite len_upd; lia).
        eexists. split; [reflexivity|]. unfold P. rewrite !len_upd. split; [exact Hl|].
        intros a b Ha Hb Hor. rewrite Hw by (rewrite ?len_upd; assumption).
        destruct ((a =? j) && (b =? i)) eqn:E.
        * assert (a = j /\ b = i) as [-> ->] by lia. rewrite dist2_sym. reflexivity.
        * rewrite Hw by assumption. destruct ((a =? i) && (b =? j)) eqn:E2.
          -- assert (a = i /\ b = j) as [-> ->] by lia. reflexivity.
          -- apply HP; auto. lia.
    - exists m. split; [reflexivity|]. split; [exact Hl|]. intros a b Ha Hb Hor. apply HP; auto. lia. }
  destruct (mfold_zrange_inv (fun i m => P i 0 m) (fun filter i => mfold (fun filter j => body filter i j) (zrange 0 n) filter)
     0 n (repeat f32_0 (Z.to_nat (n * n)))) as [m [E [Hl HP]]].
  - lia.
  - split; [rewrite len_repeat; lia|]. intros a b Ha Hb Hor. lia.
  - intros i m Hi HP.
    destruct (mfold_zrange_inv (fun j m => P i j m) (fun filter j => body filter i j) 0 n m) as [m' [E [Hl' HP']]]; [lia|exact HP| |].
    + intros j m0 Hj HP0. apply Hstep; auto.
    + exists m'. split; [exact E|]. split; [exact Hl'|]. intros a b Ha Hb Hor. apply HP'; auto. lia.
  - exists m. split; [exact E|]. split; [exact Hl|]. intros a b Ha Hb.
    destruct (pos_bound n n 0 b a) as [D _]; try lia.
    rewrite (nth_error_nth' m f32_0) by (unfold len in Hl; lia). f_equal. apply HP; auto. lia.
Qed.

(** 1/(2 pi s^2) * e^(-d2/(2 s^2)) in f32 *)
Definition gaussian_value (lm : libm) (s : f32) (d2 : Z) : f32 :=
  f32_mul (f32_div (f32_of_Z 1) (f32_mul (f32_mul (f32_mul (f32_of_Z 2) f32_pi) s) s))
          (powf lm f32_e (f32_div (f32_neg (f32_of_Z d2)) (f32_mul (f32_mul (f32_of_Z 2) s) s))).
(** -1/(pi s^4) * (1 - x) * e^x with x = -d2/(2 s^2) in f32 *)
Definition log_value (lm : libm) (s : f32) (d2 : Z) : f32 :=
  let x := f32_div (f32_neg (f32_of_Z d2)) (f32_mul (f32_mul (f32_of_Z 2) s) s) in
  f32_mul (f32_mul (f32_div (f32_of_Z (-1)) (f32_mul f32_pi (powf lm s (f32_of_Z 4)))) (f32_sub (f32_of_Z 1) x)) (powf lm f32_e x).

Lemma check_odd_u32 p n : 0 <= n <= 4294967295 ->
  check_odd p (num_int U32) n = if Z.odd n then Ret tt else Fail InvalidArgError.
Proof.
  intros H. unfold check_odd, n_zero. cbn [n_rem n_of_u8 n_eqb num_int]. rewrite irem_ok by ity_lia. cbn [bind].
  rewrite Zmod_odd. destruct (Z.odd n); reflexivity.
Qed.

Theorem C30_gaussian_kernel p lm n s : 0 <= n -> n * n <= 2147483647 ->
  (Z.odd n = true -> exists m, generate_gaussian_kernel p lm n s = Ret m /\ radial_kernel n (gaussian_value lm s) m)
  /\ (Z.odd n = false -> generate_gaussian_kernel p lm n s = Fail InvalidArgError).
Proof.
  intros Hn Hnn. unfold generate_gaussian_kernel. rewrite check_odd_u32 by nia.
  destruct (Z.odd n) eqn:E; split; intros; try discriminate; [|reflexivity]. cbn [bind].
  apply kernel_fill_ok; [|exact Hnn]. destruct (Z.eq_dec n 0) as [->|]; [discriminate|lia].
Qed.
Theorem C30_log_kernel p lm n s : 0 <= n -> n * n <= 2147483647 ->
  (Z.odd n = true -> exists m, generate_log_kernel p lm n s = Ret m /\ radial_kernel n (log_value lm s) m)
  /\ (Z.odd n = false -> generate_log_kernel p lm n s = Fail InvalidArgError).
Proof.
  intros Hn Hnn. unfold generate_log_kernel. rewrite check_odd_u32 by nia.
  destruct (Z.odd n) eqn:E; split; intros; try discriminate; [|reflexivity]. cbn [bind].
  apply kernel_fill_ok; [|exact Hnn]. destruct (Z.eq_dec n 0) as [->|]; [discriminate|lia].
Qed.
(** a radial kernel of odd size is symmetric: transposition, point reflection, mirror images *)
Theorem C30_symmetric n g m i j : Z.odd n = true -> radial_kernel n g m -> 0 <= i < n -> 0 <= j < n ->
  nth_error m (Z.to_nat (i * n + j)) = nth_error m (Z.to_nat (j * n + i))
  /\ nth_error m (Z.to_nat (i * n + j)) = nth_error m (Z.to_nat ((n - 1 - i) * n + (n - 1 - j)))
  /\ nth_error m (Z.to_nat (i * n + j)) = nth_error m (Z.to_nat (i * n + (n - 1 - j))).
Proof.
  intros Ho [_ H] Hi Hj. rewrite !H by lia. apply Zodd_bool_iff in Ho. apply Zodd_ex in Ho as [q ->].
  assert (E : (2 * q + 1 - 1) / 2 = q) by (replace (2 * q + 1 - 1) with (q * 2) by lia; apply Z.div_mul; lia).
  unfold dist2. rewrite E. conj; do 2 f_equal; nia.
Qed.
Example C30_example :
  let lm := Libm (fun _ y => f32_neg y) (fun x => x) (fun x => x) in
  Z.odd 3 = true /\ 3 * 3 <= 2147483647 /\ dist2 3 0 2 = 2 /\
  match generate_gaussian_kernel Debug lm 3 (f32_of_Z 1) with
  | Ret m => (length m =? 9)%nat && f32_eqb (nth 0 m f32_0) (nth 8 m f32_0) && negb (f32_eqb (nth 0 m f32_0) (nth 1 m f32_0))
  | _ => false end = true.
Proof. intros lm. conj; try lia; try reflexivity; vm_compute; reflexivity. Qed.

(** ** C32 *)
Lemma lookup_eq {T} (table : list T) (f : Z -> outcome T) : len table <= 256 ->
  generate_lookup_table table f = mmap f (zrange 0 (len table)).
Proof.
  intros Hl. unfold generate_lookup_table. destruct table as [|d table']; [reflexivity|].
  set (table := d :: table') in *.
  transitivity (mfold (fun out i => let! a := (fun i (_ : T) => f i) i (nth (Z.to_nat i) out d) in Ret (upd out (Z.to_nat i) a))
     (zrange 0 (len table)) table).
  - apply (mfold_ext_inv (fun t => len t = len table)); [reflexivity| |].
    + intros t i Ht Hi. apply in_zrange in Hi. rewrite cast_id by ity_lia. apply bind_ext. intros a _.
      apply vset_ok. lia.
    + intros t i t' Ht Hi E. apply bind_inv in E as [a [_ E]]. injection E as <-. rewrite len_upd. exact Ht.
  - exact (fill_loop (fun i (_ : T) => f i) table d).
Qed.
Theorem C32_lookup_table {T} (table : list T) (f : Z -> T) : len table = 256 ->
  exists out, generate_lookup_table table (fun i => Ret (f i)) = Ret out /\ len out = 256
    /\ forall i, 0 <= i <= 255 -> nth_error out (Z.to_nat i) = Some (f i).
Proof.
  intros Hl. exists (map f (zrange 0 256)). rewrite lookup_eq by lia. rewrite Hl, mmap_pure. conj; [reflexivity|reflexivity|].
  intros i Hi. rewrite nth_error_map, nth_error_zrange by lia. reflexivity.
Qed.
Example C32_example :
  match generate_lookup_table (repeat 0 256) (fun i => Ret (255 - i)) with Ret t => nth 3 t 0 | _ => 0 end = 252.
Proof. reflexivity. Qed.
